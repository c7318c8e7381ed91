From Coq Require Import List ZArith Bool Lia.
From Verif Require Import PyBase PyLemmas StreamModel StreamSpec.
Import ListNotations.
Open Scope Z_scope.

Lemma zlen_nonneg {A} (l : list A) : 0 <= zlen l.
Proof. unfold zlen. lia. Qed.
Lemma zlen_app {A} (l m : list A) : zlen (l ++ m) = zlen l + zlen m.
Proof. unfold zlen. rewrite app_length. lia. Qed.
Lemma zlen_cons {A} (x : A) m : zlen (x :: m) = 1 + zlen m.
Proof. unfold zlen. simpl length. lia. Qed.
Lemma zlen_nil {A} : zlen (@nil A) = 0.
Proof. reflexivity. Qed.

Lemma pyslice_nn {A} (l : list A) a b : 0 <= a -> a <= b ->
  pyslice l a b = firstn (Z.to_nat (b - a)) (skipn (Z.to_nat a) l).
Proof.
  intros Ha Hb. unfold pyslice, clip.
  destruct (Z.ltb_spec a 0); [lia|]. destruct (Z.ltb_spec b 0); [lia|].
  unfold zlen. destruct (Z_le_gt_dec a (Z.of_nat (length l))).
  - rewrite (Z.min_r _ a) by lia. destruct (Z_le_gt_dec b (Z.of_nat (length l))).
    + rewrite Z.min_r by lia. reflexivity.
    + rewrite Z.min_l by lia. rewrite !firstn_all2; auto; rewrite skipn_length; lia.
  - rewrite (Z.min_l _ a) by lia. rewrite Z.min_l by lia.
    rewrite !skipn_all2 by lia. now rewrite !firstn_nil.
Qed.

(** ** UpdateableBytesIO *)
Definition urel (b : bio) (q : bytes) : Prop :=
  0 <= b_pos b <= zlen (b_data b) /\ q = skipn (Z.to_nat (b_pos b)) (b_data b).

Lemma urel_step o b q : urel b q ->
  urel (fst (ubio_step o b)) (fst (q_step o q)) /\ snd (ubio_step o b) = snd (q_step o q).
Proof.
  intros [P ->]. destruct b as [data pos]. simpl in P. set (q := skipn (Z.to_nat pos) data).
  assert (Lq : zlen q = zlen data - pos).
  { unfold q, zlen in *. rewrite skipn_length. lia. }
  destruct o as [d|n|n|]; cbn [ubio_step q_step b_data b_pos].
  - unfold ubio_update, bio_seek_end, bio_write, bio_seek; cbn [b_data b_pos].
    destruct (Z.ltb_spec pos 0); [lia|]. cbn [fst snd]. split; auto. unfold urel. destruct d as [|x d].
    + cbn [b_data b_pos]. rewrite app_nil_r. split; auto.
    + cbn [b_data b_pos]. set (dd := x :: d).
      replace (Z.to_nat (zlen data)) with (length data) by (unfold zlen; lia).
      rewrite firstn_all, Nat.sub_diag. simpl repeat. rewrite app_nil_r.
      rewrite skipn_all2 by lia. rewrite app_nil_r, zlen_app. pose proof (zlen_nonneg dd). split; [lia|].
      rewrite skipn_app. unfold q. f_equal. unfold zlen in P. replace (Z.to_nat pos - length data)%nat with 0%nat by lia. reflexivity.
  - unfold bio_read, q_front; cbn [b_data b_pos]. fold q. cbn [fst snd].
    set (out := if n <? 0 then q else firstn (Z.to_nat n) q).
    split; auto. unfold urel; cbn [b_data b_pos].
    assert (Lo : zlen out <= zlen q).
    { unfold out. destruct (n <? 0); [lia|]. unfold zlen. rewrite firstn_length. lia. }
    pose proof (zlen_nonneg out). split; [lia|].
    transitivity (skipn (length out) (skipn (Z.to_nat pos) data)); [reflexivity|].
    rewrite skipn_skipn. f_equal. unfold zlen. lia.
  - split; [split; auto|]. cbn [fst snd]. f_equal. unfold ubio_peek, ubio_available; cbn [b_data b_pos].
    unfold q_front. destruct (Z.eqb_spec n 0); cbn [orb].
    + rewrite pyslice_nn by lia. replace (pos + (zlen data - pos) - pos) with (zlen data - pos) by lia.
      fold q. apply firstn_all2. rewrite <- Lq. unfold zlen; lia.
    + destruct (Z.ltb_spec n 0).
      * rewrite pyslice_nn by lia. replace (pos + (zlen data - pos) - pos) with (zlen data - pos) by lia.
        fold q. apply firstn_all2. rewrite <- Lq. unfold zlen; lia.
      * rewrite pyslice_nn by lia. replace (pos + n - pos) with n by lia. reflexivity.
  - split; [split; auto|]. cbn [fst snd]. unfold ubio_available; cbn [b_data b_pos]. now rewrite <- Lq.
Qed.

Lemma urun os : forall b q, urel b q ->
  urel (fst (ubio_run os b)) (fst (q_run os q)) /\ snd (ubio_run os b) = snd (q_run os q).
Proof.
  induction os as [|o os IH]; intros b q R; simpl; auto.
  destruct (urel_step o b q R) as [R1 E1].
  destruct (ubio_step o b) as [b1 x], (q_step o q) as [q1 y]. simpl in *. subst y.
  destruct (IH _ _ R1) as [R2 E2]. destruct (ubio_run os b1), (q_run os q1). simpl in *. subst. auto.
Qed.

Lemma q_conservation os : forall q,
  got_out os (snd (q_run os q)) ++ fst (q_run os q) = q ++ put_in os.
Proof.
  induction os as [|o os IH]; intros q; simpl; [now rewrite app_nil_r|].
  destruct o as [d|n|n|]; cbn [q_step].
  - specialize (IH (q ++ d)). destruct (q_run os (q ++ d)). simpl in *. now rewrite IH, app_assoc.
  - specialize (IH (skipn (length (q_front n q)) q)). destruct (q_run os _). simpl in *.
    rewrite <- app_assoc, IH, app_assoc. f_equal. unfold q_front. destruct (n <? 0).
    + now rewrite skipn_all, app_nil_r.
    + rewrite firstn_length. destruct (Nat.le_gt_cases (Z.to_nat n) (length q)).
      * rewrite Nat.min_l by auto. apply firstn_skipn.
      * rewrite Nat.min_r by lia. rewrite firstn_all2, skipn_all by lia. apply app_nil_r.
  - specialize (IH q). destruct (q_run os q). simpl in *. auto.
  - specialize (IH q). destruct (q_run os q). simpl in *. auto.
Qed.

(** ** MinimumCopyingStreamIO, non-seekable, single-chunk reads *)
Fixpoint consec (p : Z) (bufs : list bytes) (poss : list Z) : Prop :=
  match bufs, poss with
  | [], [] => True
  | b :: br, q :: pr => q = p /\ consec (p + zlen b) br pr
  | _, _ => False
  end.

Lemma consec_snoc bufs : forall p poss d, consec p bufs poss ->
  consec p (bufs ++ [d]) (poss ++ [p + zlen (concat bufs)]).
Proof.
  induction bufs as [|b br IH]; intros p [|q pr] d H; simpl in *; try contradiction.
  - change (zlen (@nil Z)) with 0. split; [lia|auto].
  - destruct H as [-> H]. split; auto. rewrite zlen_app.
    replace (p + (zlen b + zlen (concat br))) with (p + zlen b + zlen (concat br)) by lia. auto.
Qed.


Definition ne (x : bytes) : bool := negb (zlen x =? 0).
Fixpoint dropc (off : Z) (bufs : list bytes) : chunks :=
  match bufs with
  | [] => []
  | b :: r => if off <? zlen b then skipn (Z.to_nat off) b :: filter ne r else dropc (off - zlen b) r
  end.
Lemma ne_false x : ne x = false -> x = [].
Proof. unfold ne. destruct x; auto. rewrite zlen_cons. pose proof (zlen_nonneg x).
  destruct (Z.eqb_spec (1 + zlen x) 0); [lia|discriminate]. Qed.
Lemma ne_true x : ne x = true -> 0 < zlen x.
Proof. unfold ne. pose proof (zlen_nonneg x). destruct (Z.eqb_spec (zlen x) 0); [discriminate|lia]. Qed.
Lemma dropc_0 l : dropc 0 l = filter ne l.
Proof. induction l as [|b r IH]; simpl; auto. pose proof (zlen_nonneg b). destruct (Z.ltb_spec 0 (zlen b)).
  - replace (ne b) with true; [reflexivity|]. unfold ne. destruct (Z.eqb_spec (zlen b) 0); [lia|auto].
  - replace (ne b) with false; [|unfold ne; destruct (Z.eqb_spec (zlen b) 0); [auto|lia]].
    rewrite <- IH. f_equal. lia. Qed.
Lemma concat_filter l : concat (filter ne l) = concat l.
Proof. induction l as [|b r IH]; simpl; auto. destruct (ne b) eqn:E; simpl; [now f_equal|].
  apply ne_false in E. now subst. Qed.
Lemma dropc_concat l : forall off, 0 <= off -> concat (dropc off l) = skipn (Z.to_nat off) (concat l).
Proof.
  induction l as [|b r IH]; intros off H; simpl; [now rewrite skipn_nil|].
  rewrite skipn_app. destruct (Z.ltb_spec off (zlen b)).
  - simpl. rewrite concat_filter. f_equal. unfold zlen in *.
    replace (Z.to_nat off - length b)%nat with 0%nat by lia. reflexivity.
  - rewrite IH by lia. unfold zlen in *. rewrite (skipn_all2 b) by lia. simpl. f_equal. lia.
Qed.
Lemma dropc_nonempty l : forall off, 0 <= off -> Forall (fun b => 0 < zlen b) (dropc off l).
Proof.
  induction l as [|b r IH]; intros off H; simpl; [constructor|]. destruct (Z.ltb_spec off (zlen b)).
  - constructor. { unfold zlen in *. rewrite skipn_length. lia. }
    apply Forall_forall. intros x I. apply filter_In in I as [_ I]. now apply ne_true.
  - apply IH. lia.
Qed.
Lemma dropc_snoc l d : forall off, 0 <= off <= zlen (concat l) ->
  dropc off (l ++ [d]) = dropc off l ++ (if ne d then [d] else []).
Proof.
  induction l as [|b r IH]; intros off H; cbn [app dropc].
  - simpl in H. change (zlen (@nil Z)) with 0 in H. assert (off = 0) by lia. subst. simpl.
    unfold ne. pose proof (zlen_nonneg d). destruct (Z.ltb_spec 0 (zlen d)); destruct (Z.eqb_spec (zlen d) 0); simpl; auto; lia.
  - simpl in H. rewrite zlen_app in H. destruct (Z.ltb_spec off (zlen b)).
    + rewrite filter_app. reflexivity.
    + apply IH. lia.
Qed.
Lemma dropc_add l : forall off h r k, 0 <= off -> dropc off l = h :: r -> 0 <= k <= zlen h ->
  dropc (off + k) l = match skipn (Z.to_nat k) h with [] => r | h' => h' :: r end.
Proof.
  induction l as [|b r' IH]; intros off h r k H E K; simpl in E; [discriminate|]. simpl.
  destruct (Z.ltb_spec off (zlen b)).
  - inversion E; subst h r. unfold zlen in *. rewrite skipn_length in K. destruct (Z.ltb_spec (off + k) (Z.of_nat (length b))).
    + rewrite skipn_skipn. replace (Z.to_nat k + Z.to_nat off)%nat with (Z.to_nat (off + k)) by lia.
      destruct (skipn (Z.to_nat (off + k)) b) eqn:S; auto.
      assert (length (skipn (Z.to_nat (off + k)) b) = 0%nat) by now rewrite S. rewrite skipn_length in *. lia.
    + rewrite (skipn_all2 (n := Z.to_nat k)) by (rewrite skipn_length; lia).
      rewrite <- dropc_0. f_equal. lia.
  - destruct (Z.ltb_spec (off + k) (zlen b)); [lia|].
    replace (off + k - zlen b) with (off - zlen b + k) by lia. apply IH; auto. lia.
Qed.
Lemma dropc_all l : forall off, zlen (concat l) <= off -> dropc off l = [].
Proof. induction l as [|b r IH]; intros off H; simpl in *; auto. rewrite zlen_app in H.
  pose proof (zlen_nonneg (concat r)). destruct (Z.ltb_spec off (zlen b)); [lia|]. apply IH. lia. Qed.

Lemma calc_loop_spec bufs : forall idx p poss position, consec p bufs poss -> 0 <= position - p ->
  match dropc (position - p) bufs with
  | [] => calc_loop idx bufs poss position = None
  | h :: r => exists i o, calc_loop idx bufs poss position = Some ((idx + i)%nat, o) /\
        0 <= o < zlen (nth i bufs []) /\ h = skipn (Z.to_nat o) (nth i bufs []) /\
        r = filter ne (skipn (S i) bufs) /\ consec (position - o) (skipn i bufs) (skipn i poss) /\
        dropc o (skipn i bufs) = h :: r /\
        position - o + zlen (concat (skipn i bufs)) = p + zlen (concat bufs)
  end.
Proof.
  induction bufs as [|b br IH]; intros idx p [|q pr] position C P; simpl in C; try contradiction; simpl.
  - reflexivity.
  - destruct C as [-> C]. destruct (Z.ltb_spec (position - p) (zlen b)) as [Lt|Ge].
    + destruct (Z.ltb_spec position (p + zlen b)); [|lia].
      exists 0%nat, (position - p). simpl. rewrite Nat.add_0_r.
      replace (position - (position - p)) with p by lia. repeat split; auto; try lia.
      destruct (Z.ltb_spec (position - p) (zlen b)); [reflexivity|lia].
    + destruct (Z.ltb_spec position (p + zlen b)); [lia|].
      specialize (IH (S idx) _ _ position C). replace (position - (p + zlen b)) with (position - p - zlen b) in IH by lia.
      destruct (dropc (position - p - zlen b) br) eqn:E.
      * apply IH. lia.
      * destruct IH as (i & o & A & B & D & F & G & H1 & H2); [lia|].
        exists (S i), o. rewrite A. simpl. repeat split; auto; try lia.
        -- f_equal. f_equal. lia.
        -- rewrite zlen_app. lia.
Qed.

Definition chunk_rel (m : mcs) (c : chunks) : Prop :=
  m_seekable m = false /\ exists p0, consec p0 (m_buffers m) (m_bufferPos m) /\
  0 <= m_pos m - p0 <= zlen (concat (m_buffers m)) /\ m_streamEnd m = p0 + zlen (concat (m_buffers m)) /\
  c = dropc (m_pos m - p0) (m_buffers m).

Lemma chunk_len m c : chunk_rel m c -> zlen (concat c) = mcs_available m.
Proof.
  intros (_ & p0 & C & P & E & ->). rewrite dropc_concat by lia. unfold mcs_available. rewrite E.
  unfold zlen in *. rewrite skipn_length. lia.
Qed.

Lemma mcs_calc_spec m p0 position : consec p0 (m_buffers m) (m_bufferPos m) -> 0 <= position - p0 ->
  mcs_calc m position = calc_loop 0 (m_buffers m) (m_bufferPos m) position.
Proof.
  unfold mcs_calc. destruct (m_buffers m) as [|b br]; destruct (m_bufferPos m) as [|q pr]; simpl; try tauto.
  intros [-> _] H. destruct (Z.ltb_spec position p0); [lia|reflexivity].
Qed.

Lemma skipn_S_nth {A} i (l : list A) d : (i < length l)%nat -> skipn i l = nth i l d :: skipn (S i) l.
Proof. revert l. induction i; intros [|x l] H; simpl in *; try lia; auto. apply IHi. lia. Qed.

Lemma peek_spec n m c : chunk_rel m c -> c_ok (SPeek n) c -> mcs_peek n m = c_take n c.
Proof.
  intros R K. pose proof (chunk_len m c R) as Len. destruct R as (Sk & p0 & C & P & E & ->).
  unfold mcs_peek. rewrite (mcs_calc_spec m p0) by (auto; lia).
  pose proof (calc_loop_spec (m_buffers m) 0 p0 (m_bufferPos m) (m_pos m) C ltac:(lia)) as CL.
  destruct (dropc (m_pos m - p0) (m_buffers m)) as [|h r] eqn:D.
  - rewrite CL. reflexivity.
  - destruct CL as (i & o & A & B & Hh & Hr & G & H1 & H2). rewrite A. simpl Nat.add. cbn [c_take c_ok] in *.
    destruct (Z.eqb_spec n (-1)) as [->|Nn].
    + f_equal. cbn [concat]. rewrite Hr, concat_filter. f_equal. rewrite pyslice_nn by lia. subst h.
      apply firstn_all2. rewrite skipn_length. unfold zlen. lia.
    + destruct K as [K|K]; [congruence|].
      assert (Hn : 1 <= n) by (destruct K; lia).
      assert (Lh : zlen h = zlen (nth i (m_buffers m) []) - o).
      { subst h. unfold zlen in *. rewrite skipn_length. lia. }
      assert (Lc : zlen h <= mcs_available m).
      { rewrite <- Len. cbn [concat]. rewrite zlen_app. pose proof (zlen_nonneg (concat r)). lia. }
      set (size1 := if (n <=? mcs_available m) && negb (n =? 0) then n else mcs_available m).
      assert (S1 : firstn (Z.to_nat size1) h = firstn (Z.to_nat n) h /\ 0 <= size1 /\ size1 = zlen (firstn (Z.to_nat n) h)).
      { unfold size1. replace (n =? 0) with false by (symmetry; apply Z.eqb_neq; lia). rewrite andb_true_r.
        destruct (Z.leb_spec n (mcs_available m)).
        - split; auto. split; [lia|]. destruct K as [K|[-> K]].
          + unfold zlen in *. rewrite firstn_length. lia.
          + cbn [concat] in Len. rewrite app_nil_r in Len. unfold zlen in *. rewrite firstn_length. lia.
        - destruct K as [K|[-> K]]; [lia|]. cbn [concat] in Len. rewrite app_nil_r in Len.
          rewrite !firstn_all2 by (unfold zlen in *; lia). pose proof (zlen_nonneg h). repeat split; auto; lia. }
      destruct S1 as (S1 & S2 & S3).
      rewrite pyslice_nn by lia. replace (o + size1 - o) with size1 by lia. rewrite <- Hh, S1.
      replace (size1 - zlen (firstn (Z.to_nat n) h)) with 0 by lia.
      destruct (m_buffers m); simpl; now rewrite app_nil_r.
Qed.

Lemma take_len n c d h r : c = h :: r -> c_ok (SRead n) c -> c_take n c = Some d ->
  (n = -1 /\ d = concat c) \/ (n <> -1 /\ 1 <= n /\ d = firstn (Z.to_nat n) h).
Proof. intros -> K. simpl in *. destruct (Z.eqb_spec n (-1)); intros [= <-]; auto. right. intuition lia. Qed.

Lemma chunk_step o m c : chunk_rel m c -> c_ok o c ->
  chunk_rel (fst (mcs_step o m)) (fst (c_step o c)) /\ snd (mcs_step o m) = snd (c_step o c).
Proof.
  intros R K. destruct o as [d|n|n|].
  - simpl. split; auto. destruct R as (Sk & p0 & C & P & E & ->). split; auto. exists p0. simpl.
    rewrite E, concat_app, zlen_app. cbn [concat]. rewrite app_nil_r. pose proof (zlen_nonneg d).
    split; [now apply consec_snoc|]. split; [lia|]. split; [lia|].
    rewrite dropc_snoc by lia. unfold c_put. destruct d as [|x d]; simpl; [now rewrite app_nil_r|].
    reflexivity.
  - cbn [mcs_step c_step]. unfold mcs_read. rewrite (peek_spec n m c R K). cbn [fst snd]. split; auto.
    destruct R as (Sk & p0 & C & P & E & Ec). rewrite Sk.
    set (pos' := m_pos m + match c_take n c with Some d => zlen d | None => 0 end).
    assert (D' : 0 <= pos' - p0 <= zlen (concat (m_buffers m)) /\ dropc (pos' - p0) (m_buffers m) = c_drop n c).
    { unfold pos'. destruct c as [|h r] eqn:Cc.
      - simpl. rewrite Z.add_0_r. auto.
      - destruct (c_take n (h :: r)) as [d|] eqn:T; [|discriminate].
        assert (Lall : zlen (h ++ concat r) = zlen (concat (m_buffers m)) - (m_pos m - p0)).
        { change (h ++ concat r) with (concat (h :: r)). rewrite Ec, dropc_concat by lia.
          unfold zlen in *. rewrite skipn_length. lia. }
        destruct (take_len n _ d h r eq_refl K T) as [[-> ->]|(N1 & N2 & ->)].
        + cbn [concat]. rewrite Lall. split; [pose proof (zlen_nonneg (concat (m_buffers m))); lia|].
          simpl. apply dropc_all. lia.
        + assert (Lf : 0 <= zlen (firstn (Z.to_nat n) h) <= zlen h).
          { unfold zlen. rewrite firstn_length. lia. }
          rewrite zlen_app in Lall. pose proof (zlen_nonneg (concat r)). split; [lia|].
          replace (m_pos m + zlen (firstn (Z.to_nat n) h) - p0) with (m_pos m - p0 + zlen (firstn (Z.to_nat n) h)) by lia.
          rewrite (dropc_add _ _ h r) by (auto; lia). cbn [c_drop].
          destruct (Z.eqb_spec n (-1)); [lia|].
          replace (skipn (Z.to_nat (zlen (firstn (Z.to_nat n) h))) h) with (skipn (Z.to_nat n) h); [reflexivity|].
          unfold zlen. rewrite Nat2Z.id, firstn_length. destruct (Nat.le_gt_cases (Z.to_nat n) (length h)).
          * now rewrite Nat.min_l.
          * rewrite Nat.min_r by lia. rewrite !skipn_all2 by lia. reflexivity. }
    destruct D' as [P' D'].
    set (m1 := Mcs (m_buffers m) (m_bufferPos m) (m_streamEnd m) pos' false).
    rewrite (mcs_calc_spec m1 p0) by (simpl; auto; lia). simpl m_buffers; simpl m_bufferPos.
    pose proof (calc_loop_spec (m_buffers m) 0 p0 (m_bufferPos m) pos' C ltac:(lia)) as CL.
    destruct (dropc (pos' - p0) (m_buffers m)) as [|h r] eqn:D.
    + rewrite CL. split; auto. exists pos'. cbn [m_buffers m_bufferPos m_streamEnd m_pos consec concat dropc]. rewrite <- D'. change (zlen (@nil Z)) with 0.
      split; auto. split; [lia|]. split; [|reflexivity].
      assert (X : zlen (concat (dropc (pos' - p0) (m_buffers m))) = 0) by now rewrite D.
      rewrite dropc_concat in X by lia. unfold zlen in *. rewrite skipn_length in X. lia.
    + destruct CL as (i & o & A & B & Hh & Hr & G & H1 & H2). rewrite A. simpl Nat.add. split; auto.
      exists (pos' - o). cbn [m_buffers m_bufferPos m_streamEnd m_pos]. split; auto.
      replace (pos' - (pos' - o)) with o by lia. split.
      * split; [lia|]. lia.
      * split; [lia|]. rewrite H1. auto.
  - cbn [mcs_step c_step fst snd]. split; auto. now rewrite (peek_spec n m c R K).
  - cbn [mcs_step c_step fst snd]. split; auto. now rewrite (chunk_len m c R).
Qed.

Lemma chunk_run os : forall m c, chunk_rel m c -> c_ok_all os c ->
  chunk_rel (fst (mcs_run os m)) (fst (c_run os c)) /\ snd (mcs_run os m) = snd (c_run os c).
Proof.
  induction os as [|o os IH]; intros m c R K; simpl; auto. destruct K as [K1 K2].
  destruct (chunk_step o m c R K1) as [R1 E1].
  destruct (mcs_step o m) as [m1 x], (c_step o c) as [c1 y]. simpl in *. subst y.
  destruct (IH _ _ R1 K2) as [R2 E2]. destruct (mcs_run os m1), (c_run os c1). simpl in *. subst. auto.
Qed.
Lemma chunk_new : chunk_rel (mcs_new false) [].
Proof. split; auto. exists 0. simpl. change (zlen (@nil Z)) with 0. repeat split; auto; lia. Qed.

(** the chunk queue conserves bytes: with no single-chunk restriction violated,
    reads return the updates in order *)
Lemma c_conservation os : forall c, Forall (fun b => 0 < zlen b) c -> c_ok_all os c ->
  got_out os (snd (c_run os c)) ++ concat (fst (c_run os c)) = concat c ++ put_in os.
Proof.
  induction os as [|o os IH]; intros c F K; simpl; [now rewrite app_nil_r|]. destruct K as [K1 K2].
  assert (F1 : Forall (fun b => 0 < zlen b) (fst (c_step o c))).
  { destruct o as [d|n|n|]; simpl; auto.
    - unfold c_put. destruct d as [|x d]; auto. apply Forall_app. split; auto. constructor; auto.
      rewrite zlen_cons. pose proof (zlen_nonneg d). lia.
    - destruct c as [|h r]; simpl; auto. destruct (n =? -1); auto. inversion F; subst.
      destruct (skipn (Z.to_nat n) h) as [|y h'] eqn:S; auto. constructor; auto. rewrite zlen_cons. pose proof (zlen_nonneg h'). lia. }
  specialize (IH _ F1 K2). destruct o as [d|n|n|]; cbn [c_step fst] in *.
  - destruct (c_run os (c_put d c)). simpl in *. rewrite IH, app_assoc. f_equal.
    unfold c_put. destruct d; [now rewrite app_nil_r|]. rewrite concat_app. simpl. now rewrite app_nil_r.
  - destruct (c_run os (c_drop n c)). simpl in *. destruct c as [|h r]; simpl in *; [auto|].
    rewrite <- app_assoc, IH, app_assoc. f_equal. destruct (n =? -1); [now rewrite app_nil_r|].
    transitivity (firstn (Z.to_nat n) h ++ skipn (Z.to_nat n) h ++ concat r).
    + f_equal. destruct (skipn (Z.to_nat n) h); reflexivity.
    + now rewrite app_assoc, firstn_skipn.
  - destruct (c_run os c). simpl in *. destruct c as [|h r]; simpl in *; auto.
  - destruct (c_run os c). simpl in *. auto.
Qed.
