(** * The decoder generator against a growing stream: general lemmas *)
From Coq Require Import List ZArith Bool Lia.
From Verif Require Import PyBase PyLemmas Utf8Model Utf8Proofs StreamModel StreamProofs AddrModel PacketModel PacketSpec.
Import ListNotations.
Open Scope Z_scope.

Definition lim_ok (n m : Z) : Prop := m = 0 \/ n <= m.
Lemma over_limit_false n s : lim_ok n (s_max s) -> over_limit n s = false.
Proof.
  unfold over_limit, lim_ok. intros [->|H]; [reflexivity|].
  destruct (s_max s =? 0); [reflexivity|]. cbn. apply Z.ltb_ge. exact H.
Qed.

(** *** windows *)
Lemma header_len_some w l : length w = 16%nat -> bytes_ok w -> header_len w = Some l -> header_pair w /\ l = be_dec (firstn 8 w).
Proof.
  unfold header_len. intros L O. destruct (Z.eqb_spec (be_dec (firstn 8 w)) (Z.lxor (be_dec (firstn 8 (skipn 8 w))) u64_ones)) as [H|]; [|discriminate].
  intros [= <-]. split; [split; [exact L|]|reflexivity].
  replace (firstn 8 (skipn 8 w)) with (skipn 8 w) in H by (symmetry; apply firstn_all2; rewrite skipn_length; lia).
  rewrite H. rewrite (Z.lxor_comm _ u64_ones), Z.lxor_assoc, Z.lxor_nilpotent, Z.lxor_0_r. reflexivity.
Qed.
Lemma header_len_none w : length w = 16%nat -> header_len w = None -> ~ header_pair w.
Proof.
  unfold header_len. intros L. destruct (Z.eqb_spec (be_dec (firstn 8 w)) (Z.lxor (be_dec (firstn 8 (skipn 8 w))) u64_ones)) as [|H]; [discriminate|].
  intros _ (_ & X). apply H.
  replace (firstn 8 (skipn 8 w)) with (skipn 8 w) by (symmetry; apply firstn_all2; rewrite skipn_length; lia).
  change u64_ones with (2 ^ 64 - 1). rewrite <- X, Z.lxor_comm, Z.lxor_assoc, Z.lxor_nilpotent, Z.lxor_0_r. reflexivity.
Qed.
Lemma header_len_not w : length w = 16%nat -> ~ header_pair w -> header_len w = None.
Proof.
  intros L N. destruct (header_len w) as [l|] eqn:E; [|reflexivity]. exfalso. apply N.
  unfold header_len in E. destruct (Z.eqb_spec (be_dec (firstn 8 w)) (Z.lxor (be_dec (firstn 8 (skipn 8 w))) u64_ones)) as [H|]; [|discriminate].
  split; [exact L|].
  replace (firstn 8 (skipn 8 w)) with (skipn 8 w) in H by (symmetry; apply firstn_all2; rewrite skipn_length; lia).
  rewrite H. rewrite (Z.lxor_comm _ u64_ones), Z.lxor_assoc, Z.lxor_nilpotent, Z.lxor_0_r. reflexivity.
Qed.

(** *** The scan *)
Lemma sync_scan_eq rest start : sync_scan rest start =
  if zlen rest <? 8 then inl (start, false)
  else if zlen rest <? 16 then inl (start, true)
  else match header_len (firstn 16 rest) with
       | Some l => inr (start, l)
       | None => match rest with [] => inl (start, false) | _ :: r => sync_scan r (start + 1) end
       end.
Proof. destruct rest; reflexivity. Qed.

Lemma scan_found g h rest l start :
  length h = 16%nat -> header_len h = Some l ->
  (forall i, (i < length g)%nat -> header_len (firstn 16 (skipn i (g ++ h))) = None) ->
  sync_scan (g ++ h ++ rest) start = inr (start + zlen g, l).
Proof.
  intros Lh Hl. revert start. induction g as [|x g IH]; intros start N.
  - rewrite sync_scan_eq. cbn [app]. rewrite zlen_app. unfold zlen. rewrite Lh.
    destruct (Z.ltb_spec (Z.of_nat 16 + Z.of_nat (length rest)) 8); [lia|].
    destruct (Z.ltb_spec (Z.of_nat 16 + Z.of_nat (length rest)) 16); [lia|].
    rewrite firstn_app, Lh, Nat.sub_diag, firstn_O, app_nil_r, firstn_all2 by lia. rewrite Hl. cbn. now rewrite Z.add_0_r.
  - rewrite sync_scan_eq. cbn [app].
    assert (L : 16 < zlen (x :: g ++ h ++ rest)).
    { unfold zlen. cbn [length]. rewrite !app_length. lia. }
    destruct (Z.ltb_spec (zlen (x :: g ++ h ++ rest)) 8); [lia|].
    destruct (Z.ltb_spec (zlen (x :: g ++ h ++ rest)) 16); [lia|].
    assert (W : firstn 16 (x :: g ++ h ++ rest) = firstn 16 (skipn 0 ((x :: g) ++ h))).
    { cbn [skipn app]. replace (x :: g ++ h ++ rest) with ((x :: g ++ h) ++ rest) by (cbn; now rewrite app_assoc).
      rewrite firstn_app. cbn [length]. rewrite app_length. replace (16 - S (length g + length h))%nat with 0%nat by lia.
      now rewrite firstn_O, app_nil_r. }
    rewrite W, (N 0%nat) by (cbn; lia). rewrite IH.
    + rewrite zlen_cons. f_equal. f_equal. lia.
    + intros i Hi. specialize (N (S i)). cbn [skipn app length] in N. apply N. lia.
Qed.

(** what is scanned when only a part of [g ++ h] is there *)
Lemma scan_partial b1 : forall g h b2 start,
  length h = 16%nat ->
  (forall i, (i < length g)%nat -> header_len (firstn 16 (skipn i (g ++ h))) = None) ->
  b1 ++ b2 = g ++ h -> b2 <> [] ->
  exists j half, sync_scan b1 start = inl (start + Z.of_nat j, half) /\ (j <= length g)%nat /\
    (j + (if half then 8 else 0) <= length b1)%nat /\ (length b1 <= j + (if half then 15 else 7))%nat.
Proof.
  induction b1 as [|x b1 IH]; intros g h b2 start Lh N E B2.
  { exists 0%nat, false. cbn. rewrite Z.add_0_r. repeat split; lia. }
  rewrite sync_scan_eq.
  destruct (Z.ltb_spec (zlen (x :: b1)) 8) as [L8|L8].
  { exists 0%nat, false. rewrite Z.add_0_r. unfold zlen in L8. repeat split; try lia. }
  destruct (Z.ltb_spec (zlen (x :: b1)) 16) as [L16|L16].
  { exists 0%nat, true. rewrite Z.add_0_r. unfold zlen in L8, L16. repeat split; try lia. }
  unfold zlen in L16.
  assert (Lt : (length (x :: b1) + length b2 = length g + 16)%nat) by (rewrite <- app_length, E, app_length; lia).
  destruct b2 as [|y b2]; [congruence|]. cbn [length] in Lt, L16.
  destruct g as [|z g]; [cbn in Lt; lia|]. cbn [app] in E. injection E as -> E.
  assert (W : firstn 16 (z :: b1) = firstn 16 (skipn 0 ((z :: g) ++ h))).
  { cbn [skipn app]. rewrite <- E. change (z :: b1 ++ y :: b2) with ((z :: b1) ++ y :: b2).
    rewrite firstn_app. replace (16 - length (z :: b1))%nat with 0%nat by (cbn [length]; lia). now rewrite firstn_O, app_nil_r. }
  rewrite W, (N 0%nat) by (cbn; lia).
  destruct (IH g h (y :: b2) (start + 1) Lh) as (j & half & S1 & S2 & S3 & S4); [|exact E|exact B2|].
  { intros i Hi. specialize (N (S i)). cbn [skipn app length] in N. apply N. lia. }
  exists (S j), half. rewrite S1. cbn [length]. repeat split; try (destruct half; lia). f_equal. f_equal. lia.
Qed.

(** *** [eats p pos m bs a m']: started at position [pos] with limit [m], [p]
    consumes exactly [bs], whatever follows, returns [a] and leaves [m'] *)
Inductive eats {A} : prog A -> Z -> Z -> bytes -> A -> Z -> Prop :=
| eats_ret a pos m : eats (PRet a) pos m [] a m
| eats_need n o k pos m b bs a m' :
    0 <= n -> lim_ok n m -> zlen b = n -> eats (k b) (pos + n) m bs a m' -> eats (PNeed n o k) pos m (b ++ bs) a m'
| eats_sync o k pos m g h l bs a m' :
    lim_ok 8 m -> length h = 16%nat -> header_len h = Some l ->
    (forall i, (i < length g)%nat -> header_len (firstn 16 (skipn i (g ++ h))) = None) ->
    eats (k (pos + zlen g) l) (pos + zlen g + 16) m bs a m' -> eats (PSync pos o k) pos m (g ++ h ++ bs) a m'
| eats_tell k pos m bs a m' : eats (k pos) pos m bs a m' -> eats (PTell k) pos m bs a m'
| eats_max n p pos m bs a m' : eats p pos n bs a m' -> eats (PSetMax n p) pos m bs a m'.

Lemma eats_bind {A B} (p : prog A) (f : A -> prog B) pos m b1 a m1 b2 c m2 :
  eats p pos m b1 a m1 -> eats (f a) (pos + zlen b1) m1 b2 c m2 -> eats (pbind p f) pos m (b1 ++ b2) c m2.
Proof.
  intro H. revert b2 c m2. induction H; intros b2 c m2 F; cbn [pbind].
  - cbn [app]. rewrite zlen_nil, Z.add_0_r in F. exact F.
  - rewrite <- app_assoc. constructor; auto. apply IHeats. rewrite zlen_app in F.
    replace (pos + n + zlen bs) with (pos + (zlen b + zlen bs)) by lia. exact F.
  - rewrite <- !app_assoc. econstructor; eauto. apply IHeats. rewrite !zlen_app in F.
    replace (pos + zlen g + 16 + zlen bs) with (pos + (zlen g + (zlen h + zlen bs))); [exact F|]. assert (zlen h = 16) by (unfold zlen; lia). lia.
  - constructor. auto.
  - constructor. auto.
Qed.
Lemma eats_wrap {A} (p : prog A) pos m bs a m' : eats p pos m bs a m' -> eats (pwrap p) pos m bs a m'.
Proof. induction 1; cbn [pwrap]; econstructor; eauto. Qed.
Lemma eats_lift {A B} (r : res A) x (f : A -> prog B) pos m bs c m' :
  r = Ok x -> eats (f x) pos m bs c m' -> eats (pbind (plift r) f) pos m bs c m'.
Proof. intros -> H. exact H. Qed.
Lemma eats_need' {A} n (k : bytes -> prog A) pos m b bs a m' :
  lim_ok n m -> zlen b = n -> eats (k b) (pos + n) m bs a m' -> eats (need n k) pos m (b ++ bs) a m'.
Proof. intros L Z H. constructor; auto. rewrite <- Z. apply zlen_nonneg. Qed.

(** logical position: a generator waiting in the sync loop starts over at
    packetStartPosition *)
Definition lpos {A} (p : prog A) (b : bio) : Z := match p with PSync start _ _ => start | _ => b_pos b end.

Lemma rest_read n b : 0 <= b_pos b -> 0 <= n <= zlen (stream_rest b (b_pos b)) ->
  bio_read n b = (firstn (Z.to_nat n) (stream_rest b (b_pos b)), Bio (b_data b) (b_pos b + n)).
Proof.
  intros P N. unfold bio_read. destruct (Z.ltb_spec n 0); [lia|]. fold (stream_rest b (b_pos b)).
  f_equal. f_equal. unfold zlen in *. rewrite firstn_length. lia.
Qed.
Lemma avail_rest b : 0 <= b_pos b <= zlen (b_data b) -> ubio_available b = zlen (stream_rest b (b_pos b)).
Proof. intros P. unfold ubio_available, stream_rest. unfold zlen in *. rewrite skipn_length. lia. Qed.
Lemma rest_add d p n q : 0 <= p -> 0 <= n -> stream_rest (Bio d q) (p + n) = skipn (Z.to_nat n) (stream_rest (Bio d q) p).
Proof. intros. unfold stream_rest. cbn. rewrite skipn_skipn. f_equal. lia. Qed.
Lemma rest_pos_irrel d p q r : stream_rest (Bio d q) p = stream_rest (Bio d r) p.
Proof. reflexivity. Qed.
Lemma rest_le d q p : 0 <= p <= zlen d -> zlen (stream_rest (Bio d q) p) = zlen d - p.
Proof. intros. unfold stream_rest, zlen in *. cbn. rewrite skipn_length. lia. Qed.

Lemma eats_lpos {A} (p : prog A) pos m bs a m' d : eats p pos m bs a m' -> lpos p (Bio d pos) = pos.
Proof. destruct 1; reflexivity. Qed.

Lemma exec_full {A} (p : prog A) pos m bs a m' : eats p pos m bs a m' ->
  forall data bp rest, lpos p (Bio data bp) = pos -> 0 <= pos <= zlen data -> stream_rest (Bio data bp) pos = bs ++ rest ->
  exec p (St (Bio data bp) m) = Finished a (St (Bio data (pos + zlen bs)) m').
Proof.
  induction 1 as [a pos m|n o k pos m b bs a m' Hn Hl Hb He IH|o k pos m g h l bs a m' Hl Hh Hd Hf He IH|k pos m bs a m' He IH|n p pos m bs a m' He IH];
    intros data bp rest LP P R; cbn [lpos] in LP; cbn [b_pos] in LP.
  - subst bp. cbn. now rewrite Z.add_0_r.
  - subst bp. cbn [exec]. rewrite over_limit_false by exact Hl. rewrite avail_rest by (cbn; lia). cbn [s_bio b_pos].
    rewrite R, !zlen_app. pose proof (zlen_nonneg bs). pose proof (zlen_nonneg rest).
    destruct (Z.ltb_spec (zlen b + zlen bs + zlen rest) n); [lia|].
    assert (RL : zlen (stream_rest (Bio data pos) pos) = zlen data - pos) by (apply rest_le; lia).
    rewrite R, !zlen_app in RL.
    rewrite rest_read by (cbn [b_pos]; rewrite ?R, ?zlen_app; lia). cbn [b_pos b_data]. rewrite R.
    rewrite <- app_assoc, firstn_app, firstn_all2 by (unfold zlen in Hb; lia).
    replace (Z.to_nat n - length b)%nat with 0%nat by (unfold zlen in Hb; lia). rewrite firstn_O, app_nil_r.
    cbn [s_max]. rewrite (IH data (pos + n) rest).
    + f_equal. f_equal. f_equal. lia.
    + eapply eats_lpos, He.
    + lia.
    + rewrite rest_add by lia. rewrite (rest_pos_irrel data pos (pos + n) pos), R, <- app_assoc, skipn_app.
      replace (Z.to_nat n) with (length b) by (unfold zlen in Hb; lia). now rewrite skipn_all, Nat.sub_diag.
  - cbn [exec]. rewrite over_limit_false by exact Hl. cbn [s_bio s_max b_data]. rewrite R, <- !app_assoc.
    rewrite (scan_found g h (bs ++ rest) l pos Hh Hd Hf).
    assert (RL : zlen (stream_rest (Bio data bp) pos) = zlen data - pos) by (apply rest_le; lia).
    rewrite R, !zlen_app in RL. pose proof (zlen_nonneg bs). pose proof (zlen_nonneg rest). pose proof (zlen_nonneg g).
    assert (Lh : zlen h = 16) by (unfold zlen; lia).
    rewrite (IH data (pos + zlen g + 16) rest).
    + f_equal. f_equal. f_equal. rewrite !zlen_app. lia.
    + eapply eats_lpos, He.
    + lia.
    + replace (pos + zlen g + 16) with (pos + zlen (g ++ h)) by (rewrite zlen_app; lia). rewrite rest_add by (try rewrite zlen_app; lia).
      rewrite (rest_pos_irrel data pos _ bp), R, <- !app_assoc, app_assoc, skipn_app.
      replace (Z.to_nat (zlen (g ++ h))) with (length (g ++ h)) by (unfold zlen; lia). now rewrite skipn_all, Nat.sub_diag.
  - subst bp. cbn [exec s_bio b_pos]. apply IH with (rest := rest); auto. eapply eats_lpos, He.
  - subst bp. cbn [exec s_bio]. apply IH with (rest := rest); auto. eapply eats_lpos, He.
Qed.

(** [susp]: what holds of a generator that is waiting *)
Lemma app_cut {A} (b1 b2 x y : list A) : b1 ++ b2 = x ++ y ->
  (exists c, b1 = x ++ c /\ c ++ b2 = y) \/ (exists c, c <> [] /\ b1 ++ c = x /\ b2 = c ++ y).
Proof.
  revert x. induction b1 as [|a b1 IH]; intros x E.
  - cbn in E. destruct x as [|z x]; [left; exists []; auto|right; exists (z :: x); cbn; repeat split; [discriminate|exact E]].
  - destruct x as [|z x]; [left; exists (a :: b1); auto|]. cbn in E. injection E as -> E.
    destruct (IH _ E) as [(c & -> & <-)|(c & N & <- & ->)]; [left; exists c; auto|right; exists c; auto].
Qed.

Lemma exec_partial {A} (p : prog A) pos m bs a m' : eats p pos m bs a m' ->
  forall data bp b2, lpos p (Bio data bp) = pos -> 0 <= pos <= zlen data -> stream_rest (Bio data bp) pos ++ b2 = bs -> b2 <> [] ->
  exists p' bp' m1 bs', exec p (St (Bio data bp) m) = Waiting p' (St (Bio data bp') m1) /\
    pos <= lpos p' (Bio data bp') <= zlen data /\ 0 <= bp' <= zlen data /\
    eats p' (lpos p' (Bio data bp')) m1 bs' a m' /\ stream_rest (Bio data bp') (lpos p' (Bio data bp')) ++ b2 = bs'.
Proof.
  induction 1 as [a pos m'|n o k pos m b bs a m' Hn Hl Hb He IH|o k pos m g h l bs a m' Hl Hh Hd Hf He IH|k pos m bs a m' He IH|n p pos m bs a m' He IH];
    intros data bp b2 LP P R B2; cbn [lpos] in LP; cbn [b_pos] in LP;
    assert (weak : forall z q o, z <= q ->
      (exists p' bp' m1 bs', o = Waiting p' (St (Bio data bp') m1) /\ q <= lpos p' (Bio data bp') <= zlen data /\ 0 <= bp' <= zlen data /\
        eats p' (lpos p' (Bio data bp')) m1 bs' a m' /\ stream_rest (Bio data bp') (lpos p' (Bio data bp')) ++ b2 = bs') ->
      (exists p' bp' m1 bs', o = Waiting p' (St (Bio data bp') m1) /\ z <= lpos p' (Bio data bp') <= zlen data /\ 0 <= bp' <= zlen data /\
        eats p' (lpos p' (Bio data bp')) m1 bs' a m' /\ stream_rest (Bio data bp') (lpos p' (Bio data bp')) ++ b2 = bs'))
     by (intros z q o' Hz (p' & bp' & m1 & bs' & W1 & W2 & W3 & W4 & W5); exists p', bp', m1, bs'; repeat split; auto; lia).
  - apply app_eq_nil in R. tauto.
  - subst bp. cbn [exec]. rewrite over_limit_false by exact Hl. rewrite avail_rest by (cbn; lia). cbn [s_bio b_pos].
    assert (RL : zlen (stream_rest (Bio data pos) pos) = zlen data - pos) by (apply rest_le; lia).
    destruct (Z.ltb_spec (zlen (stream_rest (Bio data pos) pos)) n) as [L|L].
    + exists (PNeed n o k), pos, m, (b ++ bs). split; [reflexivity|]. cbn [lpos b_pos].
      split; [lia|]. split; [lia|]. split; [constructor; auto|exact R].
    + destruct (app_cut _ _ _ _ R) as [(c & Rc & Ec)|(c & Nc & Rc & Ec)].
      2:{ exfalso. rewrite <- Hb, <- Rc, zlen_app in L. assert (zlen c <= 0) by lia. destruct c; [auto|rewrite zlen_cons in *; pose proof (zlen_nonneg c); lia]. }
      rewrite rest_read by (cbn [b_pos]; lia). cbn [b_pos b_data]. rewrite Rc.
      rewrite firstn_app, firstn_all2 by (unfold zlen in Hb; lia).
      replace (Z.to_nat n - length b)%nat with 0%nat by (unfold zlen in Hb; lia). rewrite firstn_O, app_nil_r.
      cbn [s_max]. apply (weak _ (pos + n)); [lia|]. apply IH; auto.
      * eapply eats_lpos, He.
      * lia.
      * rewrite rest_add by lia. rewrite (rest_pos_irrel data pos (pos + n) pos), Rc, skipn_app.
        replace (Z.to_nat n) with (length b) by (unfold zlen in Hb; lia). rewrite skipn_all, Nat.sub_diag. exact Ec.
  - cbn [exec]. rewrite over_limit_false by exact Hl. cbn [s_bio s_max b_data].
    assert (RL : zlen (stream_rest (Bio data bp) pos) = zlen data - pos) by (apply rest_le; lia).
    assert (Lh : zlen h = 16) by (unfold zlen; lia).
    rewrite (app_assoc g h bs) in R. destruct (app_cut _ _ _ _ R) as [(c & Rc & Ec)|(c & Nc & Rc & Ec)].
    + rewrite Rc, <- app_assoc, (scan_found g h c l pos Hh Hd Hf).
      rewrite Rc, !zlen_app in RL. pose proof (zlen_nonneg c). pose proof (zlen_nonneg g).
      apply (weak _ (pos + zlen g + 16)); [lia|]. apply IH; auto.
      * eapply eats_lpos, He.
      * lia.
      * replace (pos + zlen g + 16) with (pos + zlen (g ++ h)) by (rewrite zlen_app; lia). rewrite rest_add by (try rewrite zlen_app; lia).
        rewrite (rest_pos_irrel data pos _ bp), Rc, skipn_app.
        replace (Z.to_nat (zlen (g ++ h))) with (length (g ++ h)) by (unfold zlen; lia). rewrite skipn_all, Nat.sub_diag. exact Ec.
    + destruct (scan_partial _ g h c pos Hh Hf Rc Nc) as (j & half & S1 & S2 & S3 & S4). rewrite S1.
      assert (Lr : length (stream_rest (Bio data bp) pos) = Z.to_nat (zlen data - pos)) by (unfold zlen in *; lia).
      exists (PSync (pos + Z.of_nat j) o k), (if half then pos + Z.of_nat j + 8 else pos + Z.of_nat j), m, (skipn j g ++ h ++ bs).
      split; [reflexivity|]. cbn [lpos].
      split; [destruct half; lia|]. split; [destruct half; lia|].
      assert (Gj : zlen (skipn j g) = zlen g - Z.of_nat j) by (unfold zlen; rewrite skipn_length; lia).
      split.
      * econstructor; eauto.
        -- intros i Hi. rewrite skipn_length in Hi. specialize (Hf (j + i)%nat).
           replace (skipn i (skipn j g ++ h)) with (skipn (j + i) (g ++ h)); [apply Hf; lia|].
           rewrite !skipn_app, !skipn_skipn, !skipn_length. f_equal; f_equal; lia.
        -- rewrite Gj. replace (pos + Z.of_nat j + (zlen g - Z.of_nat j)) with (pos + zlen g) by lia. exact He.
      * rewrite rest_add by lia. rewrite Nat2Z.id. rewrite (rest_pos_irrel data pos _ bp). subst b2.
        replace (skipn j g ++ h ++ bs) with (skipn j ((g ++ h) ++ bs)).
        2:{ rewrite !skipn_app. replace (j - length (g ++ h))%nat with 0%nat by (rewrite app_length; lia).
            replace (j - length g)%nat with 0%nat by lia. cbn [skipn]. now rewrite app_assoc. }
        rewrite <- R, skipn_app. f_equal. replace (j - length (stream_rest (Bio data bp) pos))%nat with 0%nat by (destruct half; lia). reflexivity.
  - subst bp. cbn [exec s_bio b_pos]. apply IH; auto. eapply eats_lpos, He.
  - subst bp. cbn [exec s_bio]. apply IH; auto. eapply eats_lpos, He.
Qed.
