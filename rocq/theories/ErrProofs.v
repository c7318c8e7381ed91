(** * Proofs about the error transport *)
From Coq Require Import List ZArith Bool Lia Permutation Sorted.
From Verif Require Import PyBase PyLemmas StreamProofs ErrModel ErrSpec.
Import ListNotations.
Open Scope Z_scope.

Lemma flipped_length B : forall d p, length (flipped B p d) = length d.
Proof. induction d as [|b d IH]; intros p; [reflexivity|]. cbn [flipped length]. rewrite IH. reflexivity. Qed.
Lemma flipped_app B a : forall p b, flipped B p (a ++ b) = flipped B p a ++ flipped B (p + zlen a) b.
Proof.
  induction a as [|x a IH]; intros p b; cbn [app flipped].
  - unfold zlen. cbn. rewrite Z.add_0_r. reflexivity.
  - rewrite IH. do 3 f_equal. unfold zlen. cbn [length]. lia.
Qed.
Lemma flipped_ext B B' d : forall p, (forall k, p <= k < p + zlen d -> (In k B <-> In k B')) -> flipped B p d = flipped B' p d.
Proof.
  induction d as [|x d IH]; intros p Hk; [reflexivity|]. cbn [flipped]. unfold zlen in *. cbn [length] in Hk. f_equal.
  - assert (E : smem B p = smem B' p); [|rewrite E; reflexivity].
    specialize (Hk p ltac:(lia)). destruct (smem B p) eqn:E1, (smem B' p) eqn:E2; auto.
    + apply smem_true in E1. apply Hk in E1. apply smem_true in E1. congruence.
    + apply smem_true in E2. apply Hk in E2. apply smem_true in E2. congruence.
  - apply IH. intros k H. apply Hk. lia.
Qed.
Lemma flipped_none B d : forall p, (forall k, p <= k < p + zlen d -> ~ In k B) -> flipped B p d = d.
Proof.
  intros p H. rewrite (flipped_ext B []) by (intros k Hk; split; [intros C; exfalso; exact (H k Hk C)|intros []]).
  clear. revert p. induction d as [|x d IH]; intros p; [reflexivity|]. cbn [flipped]. rewrite IH. reflexivity.
Qed.
(** one step of the loop *)
Lemma flip_mid (pre : bytes) b post : flip (pre ++ b :: post) (zlen pre) = Ok (pre ++ Z.lxor b 255 :: post).
Proof.
  unfold flip, item, slice_to, slice_from, idx. pose proof (zlen_nonneg pre). pose proof (zlen_nonneg post).
  assert (L : zlen (pre ++ b :: post) = zlen pre + 1 + zlen post) by (unfold zlen; rewrite app_length; cbn [length]; lia).
  destruct (Z.ltb_spec (zlen pre) 0); [lia|]. destruct (Z.ltb_spec (zlen pre + 1) 0); [lia|]. rewrite L.
  destruct (Z.leb_spec 0 (zlen pre)); [|lia]. destruct (Z.ltb_spec (zlen pre) (zlen pre + 1 + zlen post)); [|lia]. cbn [andb].
  rewrite !Z.min_l by lia. unfold zlen. rewrite !Nat2Z.id. rewrite firstn_app, Nat.sub_diag, firstn_all. cbn [firstn]. rewrite app_nil_r.
  rewrite app_nth2, Nat.sub_diag by lia. cbn [nth]. f_equal. f_equal. cbn [app]. f_equal.
  replace (Z.to_nat (Z.of_nat (length pre) + 1)) with (length pre + 1)%nat by lia.
  rewrite skipn_app. rewrite skipn_all2 by lia. replace (length pre + 1 - length pre)%nat with 1%nat by lia. reflexivity.
Qed.
Definition strict (l : list Z) : Prop := StronglySorted Z.lt l.
Lemma corrupt_flipped bad : forall p data, strict bad -> Forall (fun b => p <= b) bad ->
  corrupt p (zlen data + p) bad data = Ok (flipped bad p data, filter (fun b => zlen data + p <=? b) bad).
Proof.
  induction bad as [|b bad IH]; intros p data S F; cbn [corrupt].
  - rewrite flipped_none by (intros k _ []). reflexivity.
  - inversion S as [|? ? S' FB]; subst. inversion F as [|? ? F1 F2]; subst. cbn [filter].
    destruct (Z.ltb_spec b (zlen data + p)) as [Hb|Hb].
    + destruct (Z.leb_spec (zlen data + p) b); [lia|].
      set (k := Z.to_nat (b - p)).
      assert (Hk : (k < length data)%nat) by (unfold zlen in *; lia).
      assert (Sp : exists pre x post, data = pre ++ x :: post /\ length pre = k).
      { destruct (skipn k data) as [|x post] eqn:Es.
        - pose proof (skipn_length k data) as X. rewrite Es in X. cbn in X. lia.
        - exists (firstn k data), x, post. split; [rewrite <- Es, firstn_skipn; reflexivity|rewrite firstn_length; lia]. }
      destruct Sp as (pre & x & post & -> & Lp).
      replace (b - p) with (zlen pre) by (unfold zlen; lia). rewrite flip_mid.
      replace (zlen (pre ++ x :: post)) with (zlen (pre ++ Z.lxor x 255 :: post)) by (unfold zlen; rewrite !app_length; reflexivity).
      rewrite IH; auto. f_equal. f_equal.
      assert (G : forall k, In k bad -> b < k) by (rewrite Forall_forall in FB; exact FB).
      assert (Hb' : b = p + zlen pre) by (unfold zlen; lia).
      rewrite !flipped_app. cbn [flipped]. f_equal; [|f_equal].
      * rewrite (flipped_none bad) by (intros j Hj C; apply G in C; lia).
        rewrite (flipped_none (b :: bad)); [reflexivity|]. intros j Hj [C|C]; [lia|]. apply G in C. lia.
      * assert (E1 : smem (b :: bad) (p + zlen pre) = true) by (apply smem_true; left; exact Hb').
        assert (E2 : smem bad (p + zlen pre) = false) by (apply not_true_iff_false; intros C; apply smem_true, G in C; lia).
        rewrite E1, E2. reflexivity.
      * apply flipped_ext. intros j Hj. cbn [In]. split; [auto|]. intros [C|C]; [lia|exact C].
    + destruct (Z.leb_spec (zlen data + p) b); [|lia].
      assert (G : forall j, In j (b :: bad) -> zlen data + p <= j).
      { intros j [<-|Hj]; [lia|]. rewrite Forall_forall in FB. specialize (FB _ Hj). lia. }
      rewrite flipped_none by (intros j Hj C; apply G in C; lia). f_equal. f_equal. f_equal.
      clear -G. assert (G' : forall j, In j bad -> zlen data + p <= j) by (intros; apply G; right; auto). clear G.
      induction bad as [|y bad IH]; [reflexivity|]. cbn [filter]. destruct (Z.leb_spec (zlen data + p) y); [|specialize (G' y (or_introl eq_refl)); lia].
      f_equal. apply IH. intros; apply G'; right; auto.
Qed.
(** the sorted, distinct draws *)
Lemma ins_in x l y : In y (ins x l) <-> y = x \/ In y l.
Proof. induction l as [|z l IH]; cbn [ins]; [cbn; intuition|]. destruct (x <=? z); cbn [In]; rewrite ?IH; cbn [In]; intuition. Qed.
Lemma ins_strict x l : ~ In x l -> strict l -> strict (ins x l).
Proof.
  intros N S. induction S as [|y l S IH F]; cbn [ins]; [repeat constructor|]. cbn [In] in N.
  destruct (Z.leb_spec x y).
  - constructor; [constructor; assumption|]. constructor; [lia|]. rewrite Forall_forall in F |- *. intros z Hz. specialize (F _ Hz). lia.
  - constructor; [apply IH; tauto|]. apply Forall_forall. intros z Hz. apply ins_in in Hz. rewrite Forall_forall in F. destruct Hz as [->|Hz]; [lia|auto].
Qed.
Lemma sort_in l y : In y (sort l) <-> In y l.
Proof. induction l as [|x l IH]; cbn [sort fold_right]; [tauto|]. fold (sort l). rewrite ins_in, IH. cbn [In]. intuition. Qed.
Lemma sort_strict l : NoDup l -> strict (sort l).
Proof. induction 1 as [|x l N ND IH]; cbn [sort fold_right]; [constructor|]. fold (sort l). apply ins_strict; [rewrite sort_in; exact N|exact IH]. Qed.
Lemma sort_length l : length (sort l) = length l.
Proof.
  induction l as [|x l IH]; [reflexivity|]. cbn [sort fold_right length]. fold (sort l). rewrite <- IH. generalize (sort l). clear.
  induction l as [|y l IH]; [reflexivity|]. cbn [ins]. destruct (x <=? y); cbn [length]; auto.
Qed.
Lemma distinct_spec d : NoDup (distinct d) /\ (forall x, In x (distinct d) <-> In x d) /\ (length (distinct d) <= length d)%nat.
Proof.
  unfold distinct.
  assert (G : forall (d acc : list Z), NoDup acc -> NoDup (fold_left (fun acc x => if smem acc x then acc else acc ++ [x]) d acc) /\
    (forall x, In x (fold_left (fun acc x => if smem acc x then acc else acc ++ [x]) d acc) <-> In x acc \/ In x d) /\
    (length (fold_left (fun acc x => if smem acc x then acc else acc ++ [x]) d acc) <= length acc + length d)%nat).
  { clear. induction d as [|y d IH]; intros acc N; cbn [fold_left].
    - split; [exact N|]. split; [intros; cbn; tauto|lia].
    - destruct (smem acc y) eqn:E.
      + destruct (IH acc N) as (A & B & C). split; [exact A|]. split; [|cbn [length]; lia]. intros x. rewrite B. cbn [In].
        apply smem_true in E. intuition (subst; auto).
      + assert (Ny : ~ In y acc) by (intros C; apply smem_true in C; congruence).
        destruct (IH (acc ++ [y])) as (A & B & C).
        * { clear -N Ny. induction acc as [|z acc IHa]; cbn [app]; [repeat constructor; auto|]. inversion N; subst. constructor; [rewrite in_app_iff; cbn [In] in *; intuition|apply IHa; cbn [In] in *; auto]. }
        * split; [exact A|]. split; [|rewrite app_length in C; cbn [length] in *; lia]. intros x. rewrite B, in_app_iff. cbn [In]. intuition. }
  destruct (G d [] ltac:(constructor)) as (A & B & C). split; [exact A|]. split; [|exact C]. intros x. rewrite B. cbn. tauto.
Qed.

(** state of the transport in a window *)
Definition inv (set : Z * Z) (drawn : list Z) (pos : Z) (c : cet) : Prop :=
  c_set c = set /\ c_index c = pos /\ 0 <= pos /\ strict (c_bad c) /\ Forall (fun b => pos <= b) (c_bad c) /\
  (forall k, pos <= k -> (In k (c_bad c) <-> In k drawn)).
Lemma inv_reset set d : draws_ok set d -> inv set d 0 (reset set 0 d).
Proof.
  intros (_ & F). destruct (distinct_spec d) as (N & I & _). unfold reset, inv. cbn [c_set c_index c_bad].
  split; [reflexivity|]. split; [reflexivity|]. split; [lia|]. split; [apply sort_strict; exact N|]. split.
  - apply Forall_forall. intros x Hx. apply sort_in, I in Hx. rewrite Forall_forall in F. specialize (F _ Hx). lia.
  - intros k _. rewrite sort_in. apply I.
Qed.
Lemma strict_filter f l : strict l -> strict (filter f l).
Proof.
  induction 1 as [|x l S IH F]; cbn [filter]; [constructor|]. destruct (f x); [|exact IH]. constructor; [exact IH|].
  apply Forall_forall. intros y Hy. apply filter_In in Hy. rewrite Forall_forall in F. apply F, Hy.
Qed.
Lemma write_inv set d1 d2 drawn pos c data : inv set drawn pos c -> draws_ok set d2 ->
  exists c', ce_write set d1 d2 data c = Ok (c', flipped drawn pos data) /\
    (if snd set <? pos + zlen data then inv set d2 0 c' else inv set drawn (pos + zlen data) c').
Proof.
  intros (E1 & E2 & P & S & F & I) D. unfold ce_write. rewrite E1. cbv zeta. replace (eqb set set) with true by (unfold eqb; destruct (eq_dec set set); congruence).
  rewrite E2. rewrite corrupt_flipped by assumption.
  assert (EF : flipped (c_bad c) pos data = flipped drawn pos data) by (apply flipped_ext; intros k Hk; apply I; lia).
  rewrite EF. assert (EL : zlen (flipped drawn pos data) = zlen data) by (unfold zlen; rewrite flipped_length; reflexivity). rewrite EL.
  destruct (Z.ltb_spec (snd set) (pos + zlen data)) as [Hh|Hh]; eexists; (split; [reflexivity|]).
  - apply inv_reset. exact D.
  - pose proof (zlen_nonneg data). unfold inv. cbn [c_set c_index c_bad]. split; [exact E1|]. split; [reflexivity|]. split; [lia|]. split; [apply strict_filter; exact S|]. split.
    + apply Forall_forall. intros x Hx. apply filter_In in Hx. destruct Hx as [_ Hx]. apply Z.leb_le in Hx. lia.
    + intros k Hk. rewrite filter_In, Z.leb_le, I by lia. intuition lia.
Qed.
Lemma writes_inv set ws : forall drawn pos c, inv set drawn pos c -> Forall (fun w => draws_ok set (snd (snd w))) ws ->
  exists c', ce_writes set ws c = Ok (c', windows (snd set) drawn pos (map (fun w => (fst w, snd (snd w))) ws)).
Proof.
  induction ws as [|[data [d1 d2]] ws IH]; intros drawn pos c I F; cbn [ce_writes map windows fst snd]; [eauto|].
  inversion F as [|? ? F1 F2]; subst. cbn [snd] in F1. destruct (write_inv set d1 d2 drawn pos c data I F1) as (c1 & E & I1). rewrite E.
  destruct (snd set <? pos + zlen data).
  - destruct (IH _ _ _ I1 F2) as (c2 & E2). rewrite E2. eauto.
  - destruct (IH _ _ _ I1 F2) as (c2 & E2). rewrite E2. eauto.
Qed.
(** counting *)
Lemma lxor_255_neq b : Z.lxor b 255 <> b.
Proof. intros C. assert (X : Z.lxor (Z.lxor b 255) b = 255) by (rewrite (Z.lxor_comm b 255), Z.lxor_assoc, Z.lxor_nilpotent, Z.lxor_0_r; reflexivity). rewrite C, Z.lxor_nilpotent in X. discriminate. Qed.
Lemma differences_flipped B d : forall p, differences d (flipped B p d) = length (filter (fun k => smem B (p + Z.of_nat k)) (seq 0 (length d))).
Proof.
  induction d as [|x d IH]; intros p; [reflexivity|]. cbn [differences flipped length seq filter]. rewrite Z.add_0_r, IH.
  assert (E : length (filter (fun k => smem B (p + Z.of_nat k)) (seq 1 (length d))) = length (filter (fun k => smem B (p + 1 + Z.of_nat k)) (seq 0 (length d)))).
  { rewrite <- seq_shift. generalize (seq 0 (length d)). induction l as [|y l IHl]; [reflexivity|]. cbn [map filter].
    replace (p + Z.of_nat (S y)) with (p + 1 + Z.of_nat y) by lia. destruct (smem B (p + 1 + Z.of_nat y)); cbn [length]; rewrite ?IHl; reflexivity. }
  destruct (smem B p); cbn [length]; rewrite E.
  - destruct (Z.eqb_spec x (Z.lxor x 255)) as [C|_]; [exfalso; exact (lxor_255_neq x (eq_sym C))|reflexivity].
  - rewrite Z.eqb_refl. reflexivity.
Qed.
Lemma differences_all B d : (forall k, In k B -> 0 <= k < zlen d) -> differences d (flipped B 0 d) = length (distinct B).
Proof.
  intros Hb. rewrite differences_flipped. destruct (distinct_spec B) as (N & I & _).
  rewrite <- (map_length Z.of_nat). apply Permutation_length. apply NoDup_Permutation.
  - apply FinFun.Injective_map_NoDup; [intros a b; lia|]. apply NoDup_filter, seq_NoDup.
  - exact N.
  - intros x. rewrite in_map_iff, I. split.
    + intros (k & <- & Hk). apply filter_In in Hk. destruct Hk as [_ Hk]. apply smem_true in Hk. rewrite Z.add_0_l in Hk. exact Hk.
    + intros Hx. specialize (Hb x Hx). exists (Z.to_nat x). split; [lia|]. apply filter_In. split; [apply in_seq; unfold zlen in Hb; lia|].
      apply smem_true. rewrite Z.add_0_l, Z2Nat.id by lia. exact Hx.
Qed.
