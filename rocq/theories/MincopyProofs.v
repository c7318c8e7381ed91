From Coq Require Import List ZArith Bool Lia.
From Verif Require Import PyBase PyLemmas StreamModel StreamProofs MincopyModel MincopySpec.
Import ListNotations.
Open Scope Z_scope.

(** the object and the specification state agree *)
Record agree (sk : bool) (s : mst) (a : ast) : Prop := Agree {
  ag_sk : m_seekable (k_io s) = sk;
  ag_held : m_buffers (k_io s) = a_held a;
  ag_consec : consec (a_start a) (a_held a) (m_bufferPos (k_io s));
  ag_end : m_streamEnd (k_io s) = a_end a;
  ag_pos : m_pos (k_io s) = a_pos a;
  ag_closed : k_closed s = a_closed a }.

Lemma calc_some bufs : forall idx p poss position, consec p bufs poss -> 0 <= position - p ->
  match calc_loop idx bufs poss position with
  | Some (j, o) => exists i, j = (idx + i)%nat /\ (i < length bufs)%nat /\ 0 <= o < zlen (nth i bufs []) /\
       left_in_chunk (position - p) bufs = zlen (nth i bufs []) - o /\
       forget (position - p) p bufs = (position - o, skipn i bufs) /\
       consec (position - o) (skipn i bufs) (skipn i poss) /\
       skipn (Z.to_nat (position - p)) (concat bufs) =
         skipn (Z.to_nat o) (nth i bufs []) ++ concat (skipn (S i) bufs) /\
       position - p < zlen (concat bufs) /\
       position - o + zlen (concat (skipn i bufs)) = p + zlen (concat bufs)
  | None => zlen (concat bufs) <= position - p /\
       forget (position - p) p bufs = (p + zlen (concat bufs), [])
  end.
Proof.
  induction bufs as [|b br IH]; intros idx p [|q pr] position C P; simpl in C; try contradiction.
  - simpl. change (zlen (@nil Z)) with 0. split; [lia|f_equal; lia].
  - destruct C as [-> C]. cbn [calc_loop]. destruct (Z.ltb_spec position (p + zlen b)) as [Lt|Ge].
    + exists 0%nat. rewrite Nat.add_0_r. cbn [nth skipn length left_in_chunk forget concat].
      destruct (Z.ltb_spec (position - p) (zlen b)); [|lia]. pose proof (zlen_nonneg (concat br)).
      rewrite zlen_app. repeat split; try lia.
      * f_equal. lia.
      * replace (position - (position - p)) with p by lia. simpl. auto.
      * rewrite skipn_app. f_equal. unfold zlen in *.
        replace (Z.to_nat (position - p) - length b)%nat with 0%nat by lia. reflexivity.
    + specialize (IH (S idx) _ _ position C ltac:(lia)).
      assert (Fg : forget (position - p) p (b :: br) = forget (position - (p + zlen b)) (p + zlen b) br).
      { cbn [forget]. destruct (Z.ltb_spec (position - p) (zlen b)); [lia|]. f_equal. lia. }
      assert (Sk : skipn (Z.to_nat (position - p)) (concat (b :: br)) = skipn (Z.to_nat (position - (p + zlen b))) (concat br)).
      { cbn [concat]. rewrite skipn_app, skipn_all2 by (unfold zlen in *; lia). simpl. f_equal. unfold zlen in *. lia. }
      assert (Lf : left_in_chunk (position - p) (b :: br) = left_in_chunk (position - (p + zlen b)) br).
      { cbn [left_in_chunk]. destruct (Z.ltb_spec (position - p) (zlen b)); [lia|]. f_equal. lia. }
      rewrite Fg, Sk, Lf. cbn [concat]. rewrite zlen_app.
      destruct (calc_loop (S idx) br pr position) as [[j o]|].
      * destruct IH as (i & -> & L & O & A & B & D & E & F & G). exists (S i). cbn [nth skipn length].
        repeat split; auto; try lia.
      * destruct IH as (A & ->). split; [lia|]. f_equal. lia.
Qed.

Lemma calc_before bufs poss p position : consec p bufs poss -> position < p ->
  forall m, m_buffers m = bufs -> m_bufferPos m = poss -> mcs_calc m position = None.
Proof.
  intros C L m E1 E2. unfold mcs_calc. rewrite E1, E2. destruct bufs as [|b br]; auto.
  destruct poss as [|q pr]; [now destruct C|]. destruct C as [-> _]. destruct (Z.ltb_spec position p); auto; lia.
Qed.

Lemma peek_loop_get bufs : forall size acc, 0 <= size ->
  concat (peek_loop bufs size acc) = concat acc ++ firstn (Z.to_nat size) (concat bufs).
Proof.
  induction bufs as [|b r IH]; intros size acc H; cbn [peek_loop concat].
  - now rewrite firstn_nil, app_nil_r.
  - destruct (Z.eqb_spec size 0) as [->|N]; [simpl; now rewrite app_nil_r|].
    destruct (Z.ltb_spec (zlen b) size).
    + rewrite IH by lia. rewrite concat_app. simpl. rewrite app_nil_r, <- app_assoc. f_equal.
      rewrite firstn_app, (firstn_all2 b) by (unfold zlen in *; lia). f_equal. f_equal. unfold zlen. lia.
    + rewrite pyslice_nn by lia. rewrite Z.sub_0_r. simpl skipn.
      assert (L : zlen (firstn (Z.to_nat size) b) = size) by (unfold zlen in *; rewrite firstn_length; lia).
      rewrite IH by lia. rewrite L, Z.sub_diag. simpl firstn. rewrite app_nil_r, concat_app. simpl.
      rewrite app_nil_r. f_equal. rewrite firstn_app. unfold zlen in *.
      replace (Z.to_nat size - length b)%nat with 0%nat by lia. simpl. now rewrite app_nil_r.
Qed.

Lemma firstn_exact {A} n (x y : list A) : n = length x -> firstn n (x ++ y) = x.
Proof. intros ->. rewrite firstn_app, firstn_all, Nat.sub_diag. simpl. apply app_nil_r. Qed.

Lemma agree_in sk s a : agree sk s a ->
  match mcs_calc (k_io s) (a_pos a) with Some _ => a_in a = true | None => a_in a = false end.
Proof.
  intros G. unfold a_in, a_end, a_all. destruct (Z.leb_spec (a_start a) (a_pos a)) as [L|L].
  - rewrite (mcs_calc_spec _ (a_start a)) by (rewrite ?(ag_held _ _ _ G); try apply (ag_consec _ _ _ G); lia).
    rewrite (ag_held _ _ _ G).
    pose proof (calc_some (a_held a) 0 _ _ (a_pos a) (ag_consec _ _ _ G) ltac:(lia)) as C.
    destruct (calc_loop _ _ _ _) as [[j o]|].
    + destruct C as (i & _ & _ & _ & _ & _ & _ & _ & F & _). simpl. destruct (Z.ltb_spec (a_pos a) (a_start a + zlen (concat (a_held a)))); auto; lia.
    + destruct C as (F & _). simpl. destruct (Z.ltb_spec (a_pos a) (a_start a + zlen (concat (a_held a)))); auto; lia.
  - rewrite (calc_before (a_held a) (m_bufferPos (k_io s)) (a_start a)); auto; [apply (ag_consec _ _ _ G)|apply (ag_held _ _ _ G)].
Qed.

Lemma agree_get sk s a n : agree sk s a -> -1 <= n -> of_opt (mcs_peek n (k_io s)) = a_get n a.
Proof.
  intros G N. unfold mcs_peek, a_get. pose proof (agree_in sk s a G) as I. rewrite (ag_pos _ _ _ G).
  destruct (a_in a) eqn:Ia.
  2: { destruct (mcs_calc (k_io s) (a_pos a)) as [[? ?]|]; [discriminate|reflexivity]. }
  unfold a_in in Ia. apply andb_true_iff in Ia as [L1 L2]. apply Z.leb_le in L1. apply Z.ltb_lt in L2.
  rewrite (mcs_calc_spec _ (a_start a)) in I |- * by (rewrite ?(ag_held _ _ _ G); try apply (ag_consec _ _ _ G); lia).
  rewrite (ag_held _ _ _ G) in *.
  pose proof (calc_some (a_held a) 0 _ _ (a_pos a) (ag_consec _ _ _ G) ltac:(lia)) as C.
  destruct (calc_loop 0 (a_held a) (m_bufferPos (k_io s)) (a_pos a)) as [[j o]|]; [|discriminate].
  destruct C as (i & -> & Li & O & A & B & D & E & F & H). simpl Nat.add. cbn [negb].
  set (c := nth i (a_held a) []) in *.
  assert (Rest : a_rest a = skipn (Z.to_nat o) c ++ concat (skipn (S i) (a_held a))) by exact E.
  destruct (Z.eqb_spec n (-1)) as [->|Nn].
  - unfold of_opt. f_equal. rewrite Rest. f_equal. rewrite pyslice_nn by lia. apply firstn_all2.
    rewrite skipn_length. unfold zlen in *. lia.
  - unfold of_opt. f_equal.
    assert (Av : mcs_available (k_io s) = a_avail a).
    { unfold mcs_available, a_avail. now rewrite (ag_end _ _ _ G), (ag_pos _ _ _ G). }
    assert (Ap : 0 < a_avail a) by (unfold a_avail; lia).
    rewrite Av. replace (if (n <=? a_avail a) && negb (n =? 0) then n else a_avail a) with (want n (a_avail a)).
    2: { unfold want. destruct (Z.eqb_spec n 0); simpl; [now rewrite andb_false_r|]. rewrite andb_true_r.
         destruct (Z.ltb_spec (a_avail a) n), (Z.leb_spec n (a_avail a)); lia. }
    assert (W : 0 < want n (a_avail a)).
    { unfold want. destruct (Z.eqb_spec n 0); simpl; [lia|]. destruct (a_avail a <? n); lia. }
    set (w := want n (a_avail a)) in *.
    assert (X : firstn (Z.to_nat (a_left a)) (a_rest a) = skipn (Z.to_nat o) c).
    { rewrite Rest. apply firstn_exact. unfold a_left. rewrite A. unfold zlen in *. rewrite skipn_length. lia. }
    rewrite X. set (x := skipn (Z.to_nat o) c) in *.
    rewrite pyslice_nn by lia. replace (o + w - o) with w by lia. fold x.
    rewrite peek_loop_get.
    + cbn [concat]. rewrite app_nil_r, firstn_app. f_equal. unfold a_all. unfold zlen. rewrite firstn_length. f_equal. lia.
    + unfold zlen. rewrite firstn_length. lia.
Qed.

Lemma agree_release sk s a k : agree sk s a -> 0 <= k -> sk = false ->
  let m := k_io s in let pos' := a_pos a + k in
  let m1 := Mcs (m_buffers m) (m_bufferPos m) (m_streamEnd m) pos' (m_seekable m) in
  agree sk (Mst (match mcs_calc m1 pos' with
        | None => Mcs [] [] (m_streamEnd m) pos' false
        | Some (i, _) => Mcs (skipn i (m_buffers m)) (skipn i (m_bufferPos m)) (m_streamEnd m) pos' false
        end) (k_closed s)) (a_release (a_move k a)).
Proof.
  intros G K -> m pos' m1. unfold a_release, a_move. cbn [a_pos a_start a_held a_closed]. fold pos'.
  destruct (Z.ltb_spec pos' (a_start a)) as [L|L].
  - rewrite (calc_before (a_held a) (m_bufferPos m) (a_start a)); auto; [|apply (ag_consec _ _ _ G)|apply (ag_held _ _ _ G)].
    constructor; cbn [k_io m_seekable m_buffers m_bufferPos m_streamEnd m_pos k_closed a_start a_held a_pos a_closed consec]; auto.
    + unfold m. rewrite (ag_end _ _ _ G). unfold a_end, a_all. simpl. rewrite zlen_nil. lia.
    + apply (ag_closed _ _ _ G).
  - rewrite (mcs_calc_spec m1 (a_start a)).
    2: { unfold m1; cbn. unfold m. rewrite (ag_held _ _ _ G). apply (ag_consec _ _ _ G). }
    2: lia.
    unfold m1 at 1 2. cbn [m_buffers m_bufferPos]. unfold m. rewrite (ag_held _ _ _ G).
    pose proof (calc_some (a_held a) 0 _ _ pos' (ag_consec _ _ _ G) ltac:(lia)) as C.
    destruct (calc_loop 0 (a_held a) (m_bufferPos (k_io s)) pos') as [[j o]|].
    + destruct C as (i & -> & Li & O & A & B & D & E & F & H). simpl Nat.add. rewrite B.
      constructor; cbn [k_io m_seekable m_buffers m_bufferPos m_streamEnd m_pos k_closed a_start a_held a_pos a_closed]; auto.
      * rewrite (ag_end _ _ _ G). unfold a_end, a_all. cbn [a_start a_held]. lia.
      * apply (ag_closed _ _ _ G).
    + destruct C as (A & B). rewrite B.
      constructor; cbn [k_io m_seekable m_buffers m_bufferPos m_streamEnd m_pos k_closed a_start a_held a_pos a_closed consec]; auto.
      * rewrite (ag_end _ _ _ G). unfold a_end, a_all. cbn [a_start a_held concat]. rewrite zlen_nil. lia.
      * apply (ag_closed _ _ _ G).
Qed.

Lemma agree_step sk s a o : agree sk s a -> sized o ->
  agree sk (fst (mst_step o s)) (fst (a_step sk o a)) /\ snd (mst_step o s) = snd (a_step sk o a).
Proof.
  intros G Z. destruct o as [d|n|n| |off wh| | | |].
  - split; auto. constructor; simpl.
    + apply (ag_sk _ _ _ G).
    + now rewrite (ag_held _ _ _ G).
    + rewrite (ag_end _ _ _ G). unfold a_end, a_all. apply consec_snoc. apply (ag_consec _ _ _ G).
    + rewrite (ag_end _ _ _ G). unfold a_end, a_all. simpl. rewrite concat_app, zlen_app. simpl. rewrite app_nil_r. lia.
    + apply (ag_pos _ _ _ G).
    + apply (ag_closed _ _ _ G).
  - cbn [mst_step a_step]. unfold mcs_read. simpl in Z.
    pose proof (agree_get sk s a n G Z) as E. set (r := mcs_peek n (k_io s)) in *. cbn [fst snd]. rewrite <- E. split; auto.
    assert (K : match r with Some d => zlen d | None => 0 end = got (of_opt r)) by (destruct r; auto).
    rewrite K. rewrite (ag_pos _ _ _ G). rewrite (ag_sk _ _ _ G). destruct sk.
    + constructor; cbn; auto; try apply G. 
    + apply (agree_release false s a _ G); auto. destruct r; simpl; [apply zlen_nonneg|lia].
  - split; auto. simpl. now apply (agree_get sk).
  - split; auto. simpl. f_equal. unfold mcs_available, a_avail. now rewrite (ag_end _ _ _ G), (ag_pos _ _ _ G).
  - cbn [mst_step a_step]. unfold mst_seek, SEEK_SET, SEEK_CUR, SEEK_END. rewrite (ag_closed _ _ _ G), (ag_sk _ _ _ G), (ag_held _ _ _ G).
    assert (Mv : forall p, agree sk (Mst (set_pos p (k_io s)) (k_closed s)) (a_goto p a)).
    { intros p. constructor; cbn; auto; try apply G. }
    rewrite <- (ag_closed _ _ _ G).
    destruct (k_closed s) eqn:Ec; [auto|]. destruct (negb sk); [auto|].
    destruct (Z.eqb_spec wh 0); [destruct (off <? 0); cbn [fst snd]; auto|].
    destruct (Z.eqb_spec wh 1); [subst wh; cbn [fst snd]; rewrite (ag_pos _ _ _ G); auto|].
    destruct (Z.eqb_spec wh 2); [|auto]. rewrite (ag_end _ _ _ G). destruct (a_held a); cbn [fst snd]; auto.
  - split; auto. simpl. unfold mst_tell. rewrite (ag_sk _ _ _ G). rewrite (ag_pos _ _ _ G). now destruct sk.
  - split; auto. constructor; simpl; auto; try apply G.
    rewrite (ag_end _ _ _ G). unfold a_end, a_all. simpl. rewrite zlen_nil. lia.
  - split; auto. simpl. f_equal. apply G.
  - split; auto. simpl. unfold mst_memsize. rewrite (ag_held _ _ _ G). destruct (a_held a) as [|c r]; auto.
    destruct c as [|x [|y c]]; simpl; auto. rewrite !zlen_cons. pose proof (zlen_nonneg c). destruct (Z.ltb_spec (1 + (1 + zlen c)) 2); auto; lia.
Qed.

Lemma agree_run sk os : forall s a, agree sk s a -> Forall sized os ->
  agree sk (fst (mst_run os s)) (fst (a_run sk os a)) /\ snd (mst_run os s) = snd (a_run sk os a).
Proof.
  induction os as [|o os IH]; intros s a G F; simpl; auto. inversion F; subst.
  destruct (agree_step sk s a o G) as [G1 E1]; auto.
  destruct (mst_step o s) as [s1 x], (a_step sk o a) as [a1 y]. simpl in *. subst y.
  destruct (IH _ _ G1) as [G2 E2]; auto. destruct (mst_run os s1), (a_run sk os a1). simpl in *. subst. auto.
Qed.

Lemma agree_new i sk : agree sk (mst_new i sk) (a_new i).
Proof. destruct i; constructor; simpl; auto; unfold a_end, a_all; simpl; rewrite ?app_nil_r; auto. Qed.

(** ** facts of the specification *)
Lemma left_le q held : 0 <= q < zlen (concat held) ->
  0 < left_in_chunk q held <= zlen (concat held) - q.
Proof.
  revert q. induction held as [|c r IH]; intros q H; cbn [left_in_chunk concat] in *; [change (zlen (@nil Z)) with 0 in H; lia|].
  rewrite zlen_app in *. pose proof (zlen_nonneg (concat r)). destruct (Z.ltb_spec q (zlen c)); [lia|].
  specialize (IH (q - zlen c) ltac:(lia)). lia.
Qed.
Lemma a_in_iff a : a_in a = true <-> a_start a <= a_pos a < a_end a.
Proof. unfold a_in. rewrite andb_true_iff, Z.leb_le, Z.ltb_lt. tauto. Qed.
Lemma a_rest_len a : a_in a = true -> zlen (a_rest a) = a_avail a.
Proof. intros I. apply a_in_iff in I. unfold a_rest, a_avail, a_end, zlen in *. rewrite skipn_length. lia. Qed.
Lemma a_left_bounds a : a_in a = true -> 0 < a_left a <= a_avail a.
Proof. intros I. apply a_in_iff in I. unfold a_left, a_avail, a_end, a_all in *.
  pose proof (left_le (a_pos a - a_start a) (a_held a)). lia. Qed.
Lemma want_bounds n v : 0 < v -> 0 <= n -> 0 < want n v <= v.
Proof. intros. unfold want. destruct (Z.eqb_spec n 0), (Z.ltb_spec v n); simpl; lia. Qed.

Lemma a_get_len n a : a_in a = true -> -1 <= n ->
  exists d, a_get n a = MBytes d /\ zlen d = if n =? -1 then a_avail a else want n (a_avail a).
Proof.
  intros I N. unfold a_get. rewrite I. cbn [negb]. destruct (Z.eqb_spec n (-1)).
  - eexists; split; eauto. now apply a_rest_len.
  - eexists; split; eauto.
    pose proof (a_left_bounds a I) as B. pose proof (a_rest_len a I) as R.
    pose proof (want_bounds n (a_avail a) ltac:(lia) ltac:(lia)) as W.
    assert (T : zlen (a_all a) >= a_avail a).
    { apply a_in_iff in I. unfold a_avail, a_end. lia. }
    unfold zlen in *. rewrite firstn_length, app_length, firstn_length. lia.
Qed.

Lemma a_get_within n a : a_in a = true -> n = -1 \/ (0 <= n /\ want n (a_avail a) <= a_left a) ->
  a_get n a = MBytes (a_good n a).
Proof.
  intros I N. unfold a_get, a_good. rewrite I. cbn [negb]. destruct (Z.eqb_spec n (-1)); auto.
  destruct N as [N|[N W]]; [lia|]. f_equal.
  pose proof (a_left_bounds a I) as B. pose proof (a_rest_len a I) as R.
  pose proof (want_bounds n (a_avail a) ltac:(lia) ltac:(lia)) as W2.
  unfold zlen in *. rewrite firstn_app, firstn_firstn.
  rewrite Nat.min_l by lia. rewrite firstn_length.
  replace (Z.to_nat (want n (a_avail a)) - Nat.min (Z.to_nat (a_left a)) (length (a_rest a)))%nat with 0%nat by lia.
  simpl. now rewrite app_nil_r.
Qed.

Lemma a_get_cross n a : a_in a = true -> 0 <= n -> a_left a < want n (a_avail a) ->
  exists d t, a_get n a = MBytes d /\
    d = firstn (Z.to_nat (a_left a)) (a_rest a) ++ t /\
    t = firstn (Z.to_nat (want n (a_avail a) - a_left a)) (a_all a).
Proof.
  intros I N W. unfold a_get. rewrite I. cbn [negb]. destruct (Z.eqb_spec n (-1)); [lia|].
  do 2 eexists. split; eauto. split; [|reflexivity].
  pose proof (a_left_bounds a I) as B. pose proof (a_rest_len a I) as R. unfold zlen in *.
  rewrite firstn_app, firstn_firstn, Nat.min_r by lia. f_equal. f_equal. rewrite firstn_length. lia.
Qed.

(** close with unread bytes, or any state whose position is before what is
    held, is stuck *)
Definition stuck (a : ast) : Prop := a_pos a < a_start a.
Lemma stuck_step sk a o : stuck a -> a_closed a = true ->
  stuck (fst (a_step sk o a)) /\ a_closed (fst (a_step sk o a)) = true /\
  a_pos (fst (a_step sk o a)) = a_pos a /\
  (forall n, o = MRead n \/ o = MPeek n -> snd (a_step sk o a) = MStr).
Proof.
  intros S C. assert (I : a_in a = false).
  { unfold a_in. destruct (Z.leb_spec (a_start a) (a_pos a)); auto. unfold stuck in S. lia. }
  assert (Gt : forall n, a_get n a = MStr) by (intros; unfold a_get; now rewrite I).
  assert (E0 : a_start a <= a_end a) by (unfold a_end; pose proof (zlen_nonneg (a_all a)); lia).
  unfold stuck in *. destruct o as [d|n|n| |off wh| | | |]; cbn [a_step];
    try (cbn [fst snd a_start a_pos a_closed]; repeat split; auto; try (intros n0 [X|X]; discriminate); lia).
  - rewrite Gt. cbn [got fst snd]. assert (X : a_move 0 a = a).
    { unfold a_move. rewrite Z.add_0_r. now destruct a. }
    rewrite X. destruct sk; [repeat split; auto|]. unfold a_release.
    destruct (Z.ltb_spec (a_pos a) (a_start a)); [|lia]. cbn [a_start a_pos a_closed]. repeat split; auto; lia.
  - rewrite C. cbn [fst snd]. repeat split; auto. intros n0 [X|X]; discriminate.
Qed.

Lemma stuck_run sk os : forall a, stuck a -> a_closed a = true ->
  stuck (fst (a_run sk os a)) /\ m_got os (snd (a_run sk os a)) = [] /\ a_pos (fst (a_run sk os a)) = a_pos a.
Proof.
  induction os as [|o os IH]; intros a S C; [simpl; auto|]. cbn [a_run].
  destruct (stuck_step sk a o S C) as (S1 & C1 & P1 & R1).
  destruct (a_step sk o a) as [a1 x] eqn:E. cbn [fst snd] in *. destruct (IH a1 S1 C1) as (S2 & G2 & P2).
  destruct (a_run sk os a1) as [a2 xs]. cbn [fst snd] in *. split; auto. split; [|congruence].
  destruct o; simpl; auto. rewrite (R1 n (or_introl eq_refl)). auto.
Qed.

(** plain histories: the position is the number of bytes got, the end the
    number of bytes put, and the position never passes the end *)
Lemma forget_start q held : forall st, 0 <= q -> let (st', h) := forget q st held in
  st <= st' <= st + q /\ st' + zlen (concat h) = st + zlen (concat held).
Proof.
  revert q. induction held as [|c r IH]; intros q st H; cbn [forget]; [split; auto; lia|].
  pose proof (zlen_nonneg c). destruct (Z.ltb_spec q (zlen c)).
  - split; auto; lia.
  - specialize (IH (q - zlen c) (st + zlen c) ltac:(lia)). destruct (forget (q - zlen c) (st + zlen c) r) as [st' h].
    cbn [concat]. rewrite zlen_app. lia.
Qed.

Definition lined (a : ast) (p e : Z) : Prop :=
  a_start a <= a_pos a <= a_end a /\ a_pos a = p /\ a_end a = e.
Lemma got_len n a : zlen (m_got [MRead n] [a_get n a]) = got (a_get n a).
Proof. destruct (a_get n a); simpl; auto. now rewrite app_nil_r. Qed.
Lemma lined_step sk a p e o : lined a p e -> plain o -> sized o ->
  lined (fst (a_step sk o a)) (p + zlen (m_got [o] [snd (a_step sk o a)])) (e + zlen (m_put [o])).
Proof.
  intros (B & P & E) Pl Sz. unfold lined, m_put. destruct o as [d|n|n| |off wh| | | |]; try contradiction;
    cbn [a_step fst snd flat_map app]; try (cbn [m_got]; rewrite ?zlen_nil, ?Z.add_0_r; now auto).
  - cbn [m_got]. rewrite zlen_nil. unfold a_end, a_all in *. cbn [a_start a_held a_pos]. rewrite concat_app. simpl. rewrite !app_nil_r, zlen_app. pose proof (zlen_nonneg d). lia.
  - simpl in Sz. assert (X : 0 <= got (a_get n a) /\ a_pos a + got (a_get n a) <= a_end a).
    { destruct (a_in a) eqn:I.
      - destruct (a_get_len n a I Sz) as (d & -> & L). cbn [got]. rewrite L. pose proof I as I2. apply a_in_iff in I2.
        unfold a_avail. destruct (Z.eqb_spec n (-1)); [lia|].
        pose proof (want_bounds n (a_end a - a_pos a)). lia.
      - unfold a_get. rewrite I. simpl. lia. }
    rewrite got_len. set (a1 := a_move (got (a_get n a)) a) in *.
    assert (L1 : a_start a1 <= a_pos a1 <= a_end a1 /\ a_pos a1 = p + got (a_get n a) /\ a_end a1 = e).
    { unfold a1, a_move, a_end, a_all in *. simpl. lia. }
    rewrite zlen_nil, Z.add_0_r. destruct sk; auto. unfold a_release. destruct (Z.ltb_spec (a_pos a1) (a_start a1)); [lia|].
    pose proof (forget_start (a_pos a1 - a_start a1) (a_held a1) (a_start a1) ltac:(lia)) as F.
    destruct (forget _ _ _) as [st h]. unfold a_end, a_all in *. cbn [a_start a_held a_pos] in *. lia.
Qed.

Lemma lined_run sk os : forall a p e, lined a p e -> Forall plain os -> Forall sized os ->
  lined (fst (a_run sk os a)) (p + zlen (m_got os (snd (a_run sk os a)))) (e + zlen (m_put os)).
Proof.
  induction os as [|o os IH]; intros a p e L F1 F2; [simpl; now rewrite zlen_nil, !Z.add_0_r|].
  inversion F1; inversion F2; subst. pose proof (lined_step sk a p e o L ltac:(auto) ltac:(auto)) as S. cbn [a_run].
  destruct (a_step sk o a) as [a1 x]. cbn [fst snd] in *. specialize (IH a1 _ _ S ltac:(auto) ltac:(auto)).
  destruct (a_run sk os a1) as [a2 xs]. cbn [fst snd] in *.
  replace (p + zlen (m_got (o :: os) (x :: xs))) with (p + zlen (m_got [o] [x]) + zlen (m_got os xs)).
  2: { destruct o; simpl; rewrite ?zlen_nil; try lia. destruct x; simpl; rewrite ?zlen_nil, ?app_nil_r, ?zlen_app; lia. }
  replace (e + zlen (m_put (o :: os))) with (e + zlen (m_put [o]) + zlen (m_put os)); auto.
  unfold m_put. cbn [flat_map]. rewrite app_nil_r, zlen_app. lia.
Qed.

(** seekable streams hold everything *)
Lemma held_step a o : plain o \/ (exists f w, o = MSeek f w) -> let a' := fst (a_step true o a) in
  a_start a' = a_start a /\ a_all a' = a_all a ++ m_put [o] /\ a_closed a' = a_closed a.
Proof.
  unfold m_put, a_all. destruct o as [d|n|n| |off wh| | | |]; intros [H|(? & ? & H)]; try contradiction; try discriminate;
    cbn [a_step fst flat_map a_start a_held a_move a_closed]; rewrite ?app_nil_r; auto.
  - rewrite concat_app. simpl. now rewrite app_nil_r.
  - destruct (a_closed a) eqn:Ec; cbn [fst]; auto. cbn [negb]. destruct (wh =? 0); [destruct (off <? 0); auto|].
    destruct (wh =? 1); [auto|]. destruct (wh =? 2); auto.
Qed.
Lemma held_run os : forall a, Forall (fun o => plain o \/ exists f w, o = MSeek f w) os ->
  let a' := fst (a_run true os a) in
  a_start a' = a_start a /\ a_all a' = a_all a ++ m_put os /\ a_closed a' = a_closed a.
Proof.
  induction os as [|o os IH]; intros a F; cbn [a_run]; [simpl; now rewrite app_nil_r|].
  inversion F; subst. pose proof (held_step a o ltac:(auto)) as (A & B & C).
  destruct (a_step true o a) as [a1 x]. cbn [fst] in *. specialize (IH a1 ltac:(auto)).
  destruct (a_run true os a1) as [a2 xs]. cbn [fst] in *. destruct IH as (A2 & B2 & C2).
  repeat split; try congruence. rewrite B2, B. unfold m_put. cbn [flat_map]. now rewrite app_nil_r, app_assoc.
Qed.
