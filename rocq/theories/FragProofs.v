(** * Proofs about fragmentation and reassembly *)
From Coq Require Import List ZArith Bool Lia Permutation.
From Verif Require Import PyBase PyLemmas StreamModel StreamProofs FragModel FragSpec.
Import ListNotations.
Open Scope Z_scope.

(** ** sending *)
Fixpoint cut (max : Z) (fuel : nat) (data : bytes) : list bytes :=
  match fuel, data with
  | O, _ | _, [] => []
  | S f, _ => firstn (Z.to_nat max) data :: cut max f (skipn (Z.to_nat max) data)
  end.
Lemma frag_loop_cut max fuel mk i t : forall o data,
  frag_loop max fuel mk i t o data = map (fun oc => mk (Some (i, t, fst oc)) (snd oc)) (with_offsets o (cut max fuel data)).
Proof.
  induction fuel as [|fuel IH]; intros o data; [reflexivity|]. destruct data as [|x data]; [reflexivity|].
  cbn [frag_loop cut with_offsets map fst snd]. rewrite IH. reflexivity.
Qed.
Lemma cut_concat max fuel : 0 < max -> forall data, (length data <= fuel)%nat -> concat (cut max fuel data) = data.
Proof.
  intros M. induction fuel as [|fuel IH]; intros data L.
  - destruct data; [reflexivity|cbn in L; lia].
  - destruct data as [|x data]; [reflexivity|]. cbn [cut concat]. rewrite IH; [apply firstn_skipn|].
    rewrite skipn_length. cbn [length] in *. lia.
Qed.
Lemma cut_sizes max fuel : 0 < max -> forall data, Forall (fun c => 0 < zlen c <= max) (cut max fuel data).
Proof.
  intros M. induction fuel as [|fuel IH]; intros data; [constructor|]. destruct data as [|x data]; [constructor|].
  cbn [cut]. constructor; [|apply IH]. unfold zlen. rewrite firstn_length. cbn [length]. lia.
Qed.

(** ** pieces of a message *)
Lemma with_offsets_split cs : forall o p c, In (p, c) (with_offsets o cs) ->
  exists pre post, cs = pre ++ c :: post /\ p = o + zlen (concat pre).
Proof.
  induction cs as [|c0 cs IH]; intros o p c H; cbn [with_offsets In] in H; [contradiction|]. destruct H as [H|H].
  - injection H as <- <-. exists [], cs. split; [reflexivity|]. cbn. lia.
  - destruct (IH _ _ _ H) as (pre & post & -> & ->). exists (c0 :: pre), post. split; [reflexivity|]. cbn [concat]. rewrite zlen_app. lia.
Qed.
Lemma with_offsets_data cs p c : In (p, c) (with_offsets 0 cs) ->
  0 <= p /\ p + zlen c <= zlen (concat cs) /\ forall k, (k < length c)%nat -> nth k c 0 = nth (Z.to_nat p + k) (concat cs) 0.
Proof.
  intros H. destruct (with_offsets_split _ _ _ _ H) as (pre & post & -> & ->). rewrite concat_app. cbn [concat].
  rewrite !zlen_app. pose proof (zlen_nonneg (concat pre)). pose proof (zlen_nonneg (concat post)). split; [lia|]. split; [lia|].
  intros k Hk. rewrite app_nth2 by (unfold zlen in *; lia).
  replace (Z.to_nat (0 + zlen (concat pre)) + k - length (concat pre))%nat with k by (unfold zlen; lia).
  rewrite app_nth1 by lia. reflexivity.
Qed.
Lemma with_offsets_ge cs : forall o p c, In (p, c) (with_offsets o cs) -> o <= p.
Proof.
  intros o p c H. destruct (with_offsets_split _ _ _ _ H) as (pre & post & -> & ->). pose proof (zlen_nonneg (concat pre)). lia.
Qed.
Lemma with_offsets_nodup cs : Forall (fun c => 0 < zlen c) cs -> forall o, NoDup (map fst (with_offsets o cs)).
Proof.
  induction 1 as [|c cs Hc F IH]; intros o; cbn [with_offsets map fst]; constructor; [|apply IH].
  intros H. apply in_map_iff in H. destruct H as ([p c'] & E & H). cbn [fst] in E. subst p. apply with_offsets_ge in H. lia.
Qed.
Definition sumlen (S : list (Z * bytes)) : Z := fold_right (fun oc n => zlen (snd oc) + n) 0 S.
Lemma sumlen_offsets cs : forall o, sumlen (with_offsets o cs) = zlen (concat cs).
Proof.
  induction cs as [|c cs IH]; intros o; cbn [with_offsets sumlen fold_right concat snd]; [reflexivity|].
  fold (sumlen (with_offsets (o + zlen c) cs)). rewrite IH, zlen_app. reflexivity.
Qed.
Lemma sumlen_app a b : sumlen (a ++ b) = sumlen a + sumlen b.
Proof. induction a as [|x a IH]; cbn [app sumlen fold_right]; [reflexivity|]. fold (sumlen (a ++ b)) (sumlen a). lia. Qed.
Lemma sumlen_perm a b : Permutation a b -> sumlen a = sumlen b.
Proof. induction 1; cbn [sumlen fold_right] in *; try (fold (sumlen l) (sumlen l') in *); lia. Qed.
Lemma sumlen_pos a : Forall (fun oc => 0 < zlen (snd oc)) a -> 0 <= sumlen a /\ (sumlen a = 0 -> a = []).
Proof.
  induction 1 as [|x a Hx F [IH1 IH2]]; cbn [sumlen fold_right]; [split; [lia|auto]|]. fold (sumlen a). split; [lia|]. intros; lia.
Qed.
(** a duplicate-free part of the pieces has the full length only if it is all *)
Lemma part_extend {A} `{EqDec A} (S L : list A) : NoDup S -> incl S L -> exists R, Permutation L (S ++ R).
Proof.
  revert L. induction S as [|x S IH]; intros L N I.
  - exists L. reflexivity.
  - apply NoDup_cons_iff in N. destruct N as [Nx N].
    assert (Ix : In x L) by (apply I; left; reflexivity). apply in_split in Ix. destruct Ix as (l1 & l2 & ->).
    destruct (IH (l1 ++ l2) N) as [R P].
    { intros y Hy. assert (In y (l1 ++ x :: l2)) by (apply I; right; exact Hy). apply in_app_or in H0. apply in_or_app.
      destruct H0 as [H0|[H0|H0]]; [auto| |auto]. subst y. contradiction. }
    exists R. cbn [app]. apply Permutation_sym, Permutation_cons_app, Permutation_sym. exact P.
Qed.
Lemma all_received cs S : Forall (fun c => 0 < zlen c) cs -> NoDup S -> incl S (with_offsets 0 cs) ->
  (sumlen S = zlen (concat cs) <-> incl (with_offsets 0 cs) S).
Proof.
  intros F N I. destruct (part_extend S (with_offsets 0 cs) N I) as [R P].
  assert (E : sumlen (with_offsets 0 cs) = sumlen S + sumlen R) by (rewrite (sumlen_perm _ _ P); apply sumlen_app).
  rewrite sumlen_offsets in E.
  assert (FR : Forall (fun oc => 0 < zlen (snd oc)) R).
  { apply Forall_forall. intros [p c] H. cbn [snd]. assert (H' : In (p, c) (with_offsets 0 cs)).
    { eapply Permutation_in; [apply Permutation_sym; exact P|]. apply in_or_app. right. exact H. }
    destruct (with_offsets_split _ _ _ _ H') as (pre & post & -> & _). rewrite Forall_app in F. destruct F as [_ F]. inversion F; assumption. }
  destruct (sumlen_pos R FR) as [R0 R1]. split.
  - intros G. rewrite R1 in P by lia. rewrite app_nil_r in P. intros x Hx. eapply Permutation_in; eauto.
  - intros G. destruct R as [|r R]; [cbn in E; lia|]. exfalso.
    assert (ND : NoDup (S ++ r :: R)).
    { eapply Permutation_NoDup; [exact P|]. apply (NoDup_map_inv fst). apply with_offsets_nodup. exact F. }
    apply NoDup_remove_2 in ND. apply ND. apply in_or_app. left. apply G. eapply Permutation_in; [apply Permutation_sym; exact P|].
    apply in_or_app. right. left. reflexivity.
Qed.

(** ** the buffer *)
Lemma write_len d b p : 0 <= p -> d <> [] -> zlen (b_data (bio_write d (Bio b p))) = Z.max (zlen b) (p + zlen d).
Proof.
  intros Hp Hd. destruct d as [|x d]; [congruence|]. unfold bio_write. cbn [b_data b_pos].
  unfold zlen. rewrite !app_length, firstn_length, repeat_length, skipn_length. lia.
Qed.
Lemma write_nth d b p j : 0 <= p -> d <> [] -> nth j (b_data (bio_write d (Bio b p))) 0 =
  if (Z.to_nat p <=? j)%nat && (j <? Z.to_nat p + length d)%nat then nth (j - Z.to_nat p) d 0 else nth j b 0.
Proof.
  intros Hp Hd. destruct d as [|x d]; [congruence|]. unfold bio_write. cbn [b_data b_pos].
  set (q := Z.to_nat p). set (dd := x :: d).
  assert (Lb : length (firstn q b ++ repeat 0 (q - length b)) = q) by (rewrite app_length, firstn_length, repeat_length; lia).
  destruct (Nat.leb_spec q j) as [A|A]; cbn [andb].
  - rewrite app_nth2 by lia. rewrite Lb. destruct (Nat.ltb_spec j (q + length dd)) as [B|B].
    + rewrite app_nth1 by lia. reflexivity.
    + rewrite app_nth2 by lia. rewrite <- (firstn_skipn (q + length dd) b) at 2.
      destruct (Nat.le_gt_cases (length b) (q + length dd)).
      * rewrite skipn_all2 by lia. rewrite !nth_overflow; auto; [rewrite app_nil_r, firstn_length; lia|cbn; lia].
      * rewrite (app_nth2 (firstn _ _)) by (rewrite firstn_length; lia). rewrite firstn_length. f_equal. lia.
  - rewrite app_nth1 by lia. destruct (Nat.lt_ge_cases j (length b)) as [B|B].
    + rewrite app_nth1 by (rewrite firstn_length; lia). rewrite <- (firstn_skipn q b) at 2.
      rewrite (app_nth1 (firstn q b)) by (rewrite firstn_length; lia). reflexivity.
    + rewrite (nth_overflow b) by lia. rewrite app_nth2 by (rewrite firstn_length; lia). apply nth_repeat.
Qed.

(** storage of a message given the pieces received so far *)
Record holds (cs : list bytes) (S : list (Z * bytes)) (f : fstore) : Prop := {
  h_total : fs_total f = zlen (concat cs);
  h_recv : fs_received f = sumlen S;
  h_offs : forall o, In o (fs_offsets f) <-> In o (map fst S);
  h_len : zlen (fs_data f) <= zlen (concat cs);
  h_end : forall o c, In (o, c) S -> o + zlen c <= zlen (fs_data f);
  h_bytes : forall o c k, In (o, c) S -> (k < length c)%nat -> nth (Z.to_nat o + k) (fs_data f) 0 = nth (Z.to_nat o + k) (concat cs) 0 }.
Lemma holds_new cs : holds cs [] (fs_new (zlen (concat cs))).
Proof.
  constructor; cbn; try tauto; auto. pose proof (zlen_nonneg (concat cs)). unfold fs_data. cbn. unfold zlen at 1. cbn. lia.
Qed.
Lemma holds_insert cs S f o c : Forall (fun c => 0 < zlen c) cs -> holds cs S f -> incl S (with_offsets 0 cs) -> In (o, c) (with_offsets 0 cs) ->
  exists S', holds cs S' (fs_insert o c f) /\ incl S' (with_offsets 0 cs) /\ (forall x, In x S' <-> x = (o, c) \/ In x S) /\
    (NoDup S -> NoDup S') /\ S' <> [].
Proof.
  intros F H I Hoc. pose proof (with_offsets_nodup cs F 0) as ND.
  assert (Uniq : forall c', In (o, c') (with_offsets 0 cs) -> c' = c).
  { intros c' H'. clear -ND Hoc H'. induction (with_offsets 0 cs) as [|[p e] l IH]; [contradiction|]. cbn [map fst] in ND. apply NoDup_cons_iff in ND. destruct ND as [N1 N2].
    destruct Hoc as [E|Hoc], H' as [E'|H']; try congruence; auto.
    - injection E as <- <-. exfalso. apply N1. apply in_map_iff. exists (p, c'). auto.
    - injection E' as <- <-. exfalso. apply N1. apply in_map_iff. exists (p, c). auto. }
  unfold fs_insert. destruct (smem (fs_offsets f) o) eqn:M.
  - apply smem_true in M. rewrite (h_offs _ _ _ H) in M. apply in_map_iff in M. destruct M as ([p c'] & E & M). cbn [fst] in E. subst p.
    pose proof (Uniq c' (I _ M)) as ->. exists S. split; [exact H|]. split; [exact I|]. split; [|split].
    + intros x. split; [auto|]. intros [->|]; auto.
    + auto.
    + intros ->. destruct M.
  - assert (Ni : ~ In o (map fst S)). { rewrite <- (h_offs _ _ _ H). intros C. apply smem_true in C. congruence. }
    destruct (with_offsets_data cs o c Hoc) as (O0 & O1 & O2).
    assert (Hc : c <> []). { destruct (with_offsets_split _ _ _ _ Hoc) as (pre & post & -> & _). rewrite Forall_app in F. destruct F as [_ F]. inversion F; subst. intros ->. cbn in *. lia. }
    exists ((o, c) :: S). split; [|split; [|split; [|split]]].
    + constructor; cbn [fs_total fs_received fs_offsets].
      * apply H.
      * rewrite (h_recv _ _ _ H). cbn [sumlen fold_right snd]. fold (sumlen S). lia.
      * intros p. rewrite in_sadd, (h_offs _ _ _ H). cbn [map fst In]. intuition.
      * unfold fs_data. cbn [fs_buf]. fold (fs_data f). rewrite write_len by auto. pose proof (h_len _ _ _ H). lia.
      * intros p e Hin. unfold fs_data. cbn [fs_buf]. fold (fs_data f). rewrite write_len by auto.
        destruct Hin as [E|Hin]; [injection E as <- <-; lia|]. pose proof (h_end _ _ _ H p e Hin). lia.
      * intros p e k Hin Hk. unfold fs_data. cbn [fs_buf]. fold (fs_data f). rewrite write_nth by auto.
        destruct (Nat.leb_spec (Z.to_nat o) (Z.to_nat p + k)); destruct (Nat.ltb_spec (Z.to_nat p + k) (Z.to_nat o + length c)); cbn [andb].
        -- rewrite O2 by lia. f_equal. lia.
        -- destruct Hin as [E|Hin]; [injection E as <- <-; lia|]. apply (h_bytes _ _ _ H p e); auto.
        -- destruct Hin as [E|Hin]; [injection E as <- <-; lia|]. apply (h_bytes _ _ _ H p e); auto.
        -- destruct Hin as [E|Hin]; [injection E as <- <-; lia|]. apply (h_bytes _ _ _ H p e); auto.
    + intros x [<-|Hx]; auto.
    + intros x. split; [intros [<-|]; auto|]. intros [->|]; [left|right]; auto.
    + intros N. constructor; auto. intros C. apply Ni. apply in_map_iff. exists (o, c). auto.
    + discriminate.
Qed.
Lemma holds_complete cs S f : Forall (fun c => 0 < zlen c) cs -> cs <> [] -> holds cs S f -> NoDup S -> incl S (with_offsets 0 cs) ->
  (fs_complete f = true <-> incl (with_offsets 0 cs) S) /\ (fs_complete f = true -> fs_data f = concat cs).
Proof.
  intros F Hne H N I. assert (A : fs_complete f = true <-> incl (with_offsets 0 cs) S).
  { unfold fs_complete. rewrite Z.eqb_eq, (h_recv _ _ _ H), (h_total _ _ _ H). apply all_received; auto. }
  split; [exact A|]. intros C. apply A in C.
  assert (Len : length (fs_data f) = length (concat cs)).
  { pose proof (h_len _ _ _ H). destruct (exists_last Hne) as (pre & c & ->).
    assert (Hin : In (zlen (concat pre), c) (with_offsets 0 (pre ++ [c]))).
    { clear. assert (G : forall o, In (o + zlen (concat pre), c) (with_offsets o (pre ++ [c]))).
      { induction pre as [|x pre IH]; intros o; cbn [app with_offsets concat]; [left; f_equal; cbn; lia|]. right. rewrite zlen_app, Z.add_assoc. apply IH. }
      apply (G 0). }
    pose proof (h_end _ _ _ H _ _ (C _ Hin)) as E. rewrite concat_app, zlen_app in *. cbn [concat] in *. rewrite app_nil_r in *.
    rewrite app_length. unfold zlen in *. lia. }
  apply nth_ext with (d := 0) (d' := 0); [exact Len|]. intros j Hj. rewrite Len in Hj.
  assert (G : exists o c k, In (o, c) (with_offsets 0 cs) /\ (k < length c)%nat /\ j = (Z.to_nat o + k)%nat).
  { clear -Hj. assert (G : forall cs o j, 0 <= o -> (j < length (concat cs))%nat ->
      exists p c k, In (p, c) (with_offsets o cs) /\ (k < length c)%nat /\ (Z.to_nat o + j = Z.to_nat p + k)%nat).
    { clear. induction cs as [|c cs IH]; intros o j Ho Hj; cbn [concat] in Hj; [cbn in Hj; lia|]. rewrite app_length in Hj.
      destruct (Nat.lt_ge_cases j (length c)).
      - exists o, c, j. split; [left; reflexivity|]. auto.
      - pose proof (zlen_nonneg c). destruct (IH (o + zlen c) (j - length c)%nat) as (p & e & k & A & B & D); [lia|lia|].
        exists p, e, k. split; [right; exact A|]. split; [exact B|]. unfold zlen in D. lia. }
    destruct (G cs 0 j ltac:(lia) Hj) as (p & c & k & A & B & D). exists p, c, k. split; [exact A|]. split; [exact B|]. cbn in D. exact D. }
  destruct G as (o & c & k & A' & B & ->). apply (h_bytes _ _ _ H o c); auto.
Qed.

(** ** the receiver *)
Definition tracked (cs : list bytes) (i : Z) (S : list (Z * bytes)) (st : storage) : Prop :=
  NoDup (dkeys st) /\ NoDup S /\ incl S (with_offsets 0 cs) /\ ~ incl (with_offsets 0 cs) S /\
  ((S = [] /\ dget st i = None) \/ (S <> [] /\ exists f, dget st i = Some f /\ holds cs S f)).
Definition fragment (i : Z) (cs : list bytes) (s : pystr) (sp : Z) (d : pystr) (dp : Z) (oc : Z * bytes) : wire :=
  Wire s sp d dp (Some (i, zlen (concat cs), fst oc)) (snd oc).

Lemma tracked_start cs i st : cs <> [] -> NoDup (dkeys st) -> dget st i = None -> tracked cs i [] st.
Proof.
  intros Hne N G. split; [exact N|]. split; [constructor|]. split; [intros x []|]. split; [|left; auto].
  intros C. destruct cs as [|c cs]; [congruence|]. apply (C (0, c)). left. reflexivity.
Qed.
Lemma rx_single p st : rx_call [p] st =
  let (st', d) := rx_packet p st None in (st', match d with Some x => [deliver p x] | None => [] end).
Proof. unfold rx_call. cbn [rx_loop]. destruct (rx_packet p st None) as [st' d]. destruct d; reflexivity. Qed.

Lemma track_mine cs i S st oc : Forall (fun c => 0 < zlen c) cs -> cs <> [] -> tracked cs i S st -> In oc (with_offsets 0 cs) ->
  forall s sp d dp, let p := fragment i cs s sp d dp oc in
  exists S', (forall x, In x S' <-> x = oc \/ In x S) /\
    ((incl (with_offsets 0 cs) S' /\ exists st', rx_call [p] st = (st', [deliver p (concat cs)]) /\ tracked cs i [] st') \/
     (~ incl (with_offsets 0 cs) S' /\ exists st', rx_call [p] st = (st', []) /\ tracked cs i S' st')).
Proof.
  intros F Hne (N & NS & I & NC & D) Hoc s sp d dp p. destruct oc as [o c].
  assert (X : exists f, holds cs S f /\ (if dhas st i then dget st i = Some f else f = fs_new (zlen (concat cs)))).
  { destruct D as [[-> G]|[_ (f & G & Hf)]].
    - exists (fs_new (zlen (concat cs))). split; [apply holds_new|]. unfold dhas. rewrite G. reflexivity.
    - exists f. split; [exact Hf|]. unfold dhas. rewrite G. reflexivity. }
  destruct X as (f & Hf & Ef).
  destruct (holds_insert cs S f o c F Hf I Hoc) as (S' & H' & I' & Q & ND' & Ne'). specialize (ND' NS).
  exists S'. split; [exact Q|].
  destruct (holds_complete cs S' _ F Hne H' ND' I') as [C1 C2].
  rewrite rx_single. unfold rx_packet, p, fragment. cbn [w_frag w_data fst snd].
  set (st1 := if dhas st i then st else dset st i (fs_new (zlen (concat cs)))).
  assert (G1 : dget st1 i = Some f).
  { unfold st1. destruct (dhas st i); [exact Ef|]. subst f. apply dget_dset_same. }
  assert (N1 : NoDup (dkeys st1)) by (unfold st1; destruct (dhas st i); [exact N|apply nodup_dset; exact N]).
  rewrite G1. destruct (fs_complete (fs_insert o c f)) eqn:E.
  - left. split; [apply C1; reflexivity|]. eexists. rewrite (C2 eq_refl). split; [reflexivity|].
    apply tracked_start; [exact Hne|apply nodup_ddel, nodup_dset, N1|]. rewrite dget_ddel by (apply nodup_dset, N1).
    destruct (eq_dec i i); [reflexivity|congruence].
  - right. split; [intros C; apply C1 in C; discriminate|]. eexists. split; [reflexivity|].
    split; [apply nodup_dset, N1|]. split; [exact ND'|]. split; [exact I'|]. split; [intros C; apply C1 in C; discriminate|].
    right. split; [exact Ne'|]. eexists. split; [apply dget_dset_same|exact H'].
Qed.
Lemma track_keep cs i S st st' : tracked cs i S st -> NoDup (dkeys st') -> dget st' i = dget st i -> tracked cs i S st'.
Proof. intros (N & NS & I & NC & D) N' G. unfold tracked. rewrite G. auto. Qed.
Lemma track_other cs i S st e : tracked cs i S st -> of_id i e = false -> e <> RTimeout i ->
  exists st' out, rx_event e st = (st', out) /\ tracked cs i S st'.
Proof.
  intros T O NT. pose proof T as (N & _). destruct e as [p|j]; cbn [rx_event].
  - cbn [of_id] in O. rewrite rx_single. unfold rx_packet. unfold pkt_id in O. destruct (w_frag p) as [[[j t] o]|] eqn:W.
    + assert (Nij : i <> j) by (intros ->; unfold eqb in O; destruct (eq_dec (Some j) (Some j)); congruence).
      set (st1 := if dhas st j then st else dset st j (fs_new t)).
      assert (N1 : NoDup (dkeys st1)) by (unfold st1; destruct (dhas st j); [exact N|apply nodup_dset; exact N]).
      assert (G1 : dget st1 i = dget st i) by (unfold st1; destruct (dhas st j); [reflexivity|apply dget_dset_other; exact Nij]).
      destruct (fs_complete _).
      * eexists _, _. split; [reflexivity|]. apply (track_keep _ _ _ _ _ T); [apply nodup_ddel, nodup_dset, N1|].
        rewrite dget_ddel_other by exact Nij. rewrite dget_dset_other by exact Nij. exact G1.
      * eexists _, _. split; [reflexivity|]. apply (track_keep _ _ _ _ _ T); [apply nodup_dset, N1|].
        rewrite dget_dset_other by exact Nij. exact G1.
    + eexists _, _. split; [reflexivity|]. exact T.
  - assert (Nij : i <> j) by congruence. unfold rx_timeout. eexists _, _. split; [reflexivity|].
    destruct (dhas st j); [|exact T]. apply (track_keep _ _ _ _ _ T); [apply nodup_ddel; exact N|]. apply dget_ddel_other. exact Nij.
Qed.
Lemma track_timeout cs i S st : cs <> [] -> tracked cs i S st -> tracked cs i [] (rx_timeout i st).
Proof.
  intros Hne (N & _). unfold rx_timeout. destruct (dhas st i) eqn:E.
  - apply tracked_start; auto; [apply nodup_ddel; exact N|]. rewrite dget_ddel by exact N. destruct (eq_dec i i); congruence.
  - apply tracked_start; auto. apply dhas_false. exact E.
Qed.

Definition honest (i : Z) (frags : list wire) (h : list rev) : Prop := forall p, In (RPkt p) h -> pkt_id p = Some i -> In p frags.
Definition frags_of (i : Z) cs s sp d dp : list wire := map (fragment i cs s sp d dp) (with_offsets 0 cs).
Lemma fragment_inj i cs s sp d dp a b : fragment i cs s sp d dp a = fragment i cs s sp d dp b -> a = b.
Proof. destruct a, b. unfold fragment. cbn [fst snd]. intros H. injection H as -> ->. reflexivity. Qed.
Lemma delivered_cons i e o r : delivered_by i ((e, o) :: r) = (if of_id i e then o else []) ++ delivered_by i r.
Proof. unfold delivered_by. cbn [filter fst]. destruct (of_id i e); reflexivity. Qed.

(** while some fragment has not come, nothing is delivered *)
Lemma incomplete_run cs i s sp d dp h : Forall (fun c => 0 < zlen c) cs -> cs <> [] ->
  forall S st, tracked cs i S st -> honest i (frags_of i cs s sp d dp) h ->
  (exists oc, In oc (with_offsets 0 cs) /\ ~ In oc S /\ ~ In (RPkt (fragment i cs s sp d dp oc)) h) ->
  exists st' out S', rx_events h st = (st', out) /\ delivered_by i out = [] /\ tracked cs i S' st' /\
    (forall oc, In oc S' -> In oc S \/ In (RPkt (fragment i cs s sp d dp oc)) h) /\
    ((forall x, In x h -> x <> RTimeout i) -> forall oc, In oc S \/ In (RPkt (fragment i cs s sp d dp oc)) h -> In oc (with_offsets 0 cs) -> In oc S').
Proof.
  intros F Hne. induction h as [|e h IH]; intros S st T Hh (oc & L1 & L2 & L3).
  - exists st, [], S. split; [reflexivity|]. split; [reflexivity|]. split; [exact T|]. split; [auto|]. intros _ x [H|[]] _. exact H.
  - assert (Hh' : honest i (frags_of i cs s sp d dp) h) by (intros p Hp; apply Hh; right; exact Hp).
    cbn [rx_events]. destruct (of_id i e) eqn:O.
    + destruct e as [p|]; [|discriminate]. cbn [of_id] in O.
      assert (Pi : pkt_id p = Some i). { unfold eqb in O. destruct (eq_dec (pkt_id p) (Some i)); congruence. }
      assert (Pf : In p (frags_of i cs s sp d dp)) by (apply Hh; [left; reflexivity|exact Pi]).
      unfold frags_of in Pf. apply in_map_iff in Pf. destruct Pf as (pc & <- & Hpc).
      destruct (track_mine cs i S st pc F Hne T Hpc s sp d dp) as (S1 & Q & [[C _]|[_ (st1 & E1 & T1)]]).
      { exfalso. apply C in L1. apply Q in L1. destruct L1 as [->|L1]; [|contradiction]. apply L3. left. reflexivity. }
      cbn [rx_event]. rewrite E1.
      destruct (IH S1 st1 T1 Hh') as (st' & out & S' & E & D & T' & A & B).
      { exists oc. split; [exact L1|]. split; [|intros C; apply L3; right; exact C]. intros C. apply Q in C. destruct C as [->|C]; [|contradiction].
        apply L3. left. reflexivity. }
      rewrite E. eexists st', _, S'. split; [reflexivity|]. rewrite delivered_cons. cbn [of_id] in *. rewrite O, D. split; [reflexivity|]. split; [exact T'|]. split.
      * intros x Hx. destruct (A x Hx) as [H|H]; [|right; right; exact H]. apply Q in H. destruct H as [->|H]; [right; left; reflexivity|left; exact H].
      * intros NT x Hx Lx. apply B; auto. { intros y Hy. apply NT. right. exact Hy. }
        destruct Hx as [H|[H|H]]; [left; apply Q; right; exact H| |right; exact H].
        assert (H' : pc = x) by (destruct pc, x; cbn [fragment fst snd] in H; unfold fragment in H; cbn [fst snd] in H; injection H as -> ->; reflexivity). subst x. left. apply Q. left. reflexivity.
    + assert (Not : forall oc0, RPkt (fragment i cs s sp d dp oc0) <> e).
      { intros oc0 <-. cbn [of_id] in O. unfold pkt_id, fragment in O. cbn [w_frag] in O. unfold eqb in O. destruct (eq_dec (Some i) (Some i)); congruence. }
      assert (X : exists st1 o S1, rx_event e st = (st1, o) /\ tracked cs i S1 st1 /\ incl S1 S /\ (e <> RTimeout i -> S1 = S)).
      { destruct e as [p|j].
        - destruct (track_other cs i S st (RPkt p) T O) as (st1 & o & E & T1); [discriminate|]. exists st1, o, S. split; [exact E|]. split; [exact T1|]. split; [apply incl_refl|reflexivity].
        - destruct (Z.eq_dec j i) as [->|Nj].
          + exists (rx_timeout i st), [], []. split; [reflexivity|]. split; [apply (track_timeout _ _ _ _ Hne T)|]. split; [intros x []|]. congruence.
          + destruct (track_other cs i S st (RTimeout j) T O) as (st1 & o & E & T1); [congruence|]. exists st1, o, S. split; [exact E|]. split; [exact T1|]. split; [apply incl_refl|reflexivity]. }
      destruct X as (st1 & o & S1 & E1 & T1 & I1 & K1). rewrite E1.
      destruct (IH S1 st1 T1 Hh') as (st' & out & S' & E & D & T' & A & B).
      { exists oc. split; [exact L1|]. split; [intros C; apply L2, I1, C|intros C; apply L3; right; exact C]. }
      rewrite E. eexists st', _, S'. split; [reflexivity|]. rewrite delivered_cons, O, D. split; [reflexivity|]. split; [exact T'|]. split.
      * intros x Hx. destruct (A x Hx) as [H|H]; [left; apply I1; exact H|right; right; exact H].
      * intros NT x Hx Lx. apply B; auto. { intros y Hy. apply NT. right. exact Hy. }
        rewrite K1 by (apply NT; left; reflexivity). destruct Hx as [H|[H|H]]; [left; exact H|exfalso; exact (Not x (eq_sym H))|right; exact H].
Qed.
Lemma rx_events_app h1 h2 st : rx_events (h1 ++ h2) st =
  let (st1, o1) := rx_events h1 st in let (st2, o2) := rx_events h2 st1 in (st2, o1 ++ o2).
Proof.
  revert st. induction h1 as [|e h1 IH]; intros st; cbn [app rx_events].
  - destruct (rx_events h2 st); reflexivity.
  - destruct (rx_event e st) as [st1 o]. rewrite IH. destruct (rx_events h1 st1) as [st2 o2]. destruct (rx_events h2 st2). reflexivity.
Qed.
Lemma delivered_app i a b : delivered_by i (a ++ b) = delivered_by i a ++ delivered_by i b.
Proof. unfold delivered_by. rewrite filter_app, map_app, concat_app. reflexivity. Qed.

Lemma complete_run cs i s sp d dp h1 oc h2 st : Forall (fun c => 0 < zlen c) cs -> cs <> [] ->
  let pk := fragment i cs s sp d dp in
  NoDup (dkeys st) -> dget st i = None ->
  honest i (frags_of i cs s sp d dp) (h1 ++ RPkt (pk oc) :: h2) ->
  (forall x, In x h1 -> x <> RTimeout i) ->
  In oc (with_offsets 0 cs) -> ~ In (RPkt (pk oc)) h1 ->
  (forall oc', In oc' (with_offsets 0 cs) -> oc' <> oc -> In (RPkt (pk oc')) h1) ->
  (exists oc', In oc' (with_offsets 0 cs) /\ ~ In (RPkt (pk oc')) h2) ->
  exists st' o1 o2, rx_events (h1 ++ RPkt (pk oc) :: h2) st = (st', o1 ++ (RPkt (pk oc), [deliver (pk oc) (concat cs)]) :: o2) /\
    length o1 = length h1 /\ delivered_by i o1 = [] /\ delivered_by i o2 = [].
Proof.
  intros F Hne pk N G Hh NT Loc N1 All (oc' & L' & N2).
  destruct (incomplete_run cs i s sp d dp h1 F Hne [] st (tracked_start _ _ _ Hne N G)) as (st1 & o1 & S1 & E1 & D1 & T1 & A1 & B1).
  { intros p Hp. apply Hh. apply in_or_app. left. exact Hp. }
  { exists oc. auto. }
  destruct (track_mine cs i S1 st1 oc F Hne T1 Loc s sp d dp) as (S2 & Q & [[_ (st2 & E2 & T2)]|[C _]]).
  2:{ exfalso. apply C. intros x Hx. apply Q. destruct (eq_dec x oc) as [->|Nx]; [left; reflexivity|right]. apply (B1 NT); auto. }
  destruct (incomplete_run cs i s sp d dp h2 F Hne [] st2 T2) as (st3 & o3 & S3 & E3 & D3 & _).
  { intros p Hp. apply Hh. apply in_or_app. right. right. exact Hp. }
  { exists oc'. auto. }
  exists st3, o1, o3. split; [|split; [|split; [exact D1|exact D3]]].
  - rewrite rx_events_app, E1. cbn [rx_events rx_event]. fold pk in E2. rewrite E2, E3. reflexivity.
  - clear -E1. revert st st1 o1 E1. induction h1 as [|e h1 IH]; intros st st1 o1 E1; cbn [rx_events] in E1; [injection E1 as <- <-; reflexivity|].
    destruct (rx_event e st) as [sa o]. destruct (rx_events h1 sa) as [sb ob] eqn:Eb. injection E1 as <- <-. cbn [length]. f_equal. eapply IH; eauto.
Qed.

(** ** several packets in one call *)
Lemma rx_packet_none p st dd : rx_packet p st dd =
  let (st', d) := rx_packet p st None in (st', match d with Some x => Some x | None => dd end).
Proof.
  unfold rx_packet. destruct (w_frag p) as [[[j t] o]|]; [|reflexivity]. destruct (fs_complete _); reflexivity.
Qed.
Lemma rx_loop_repeated ps : forall st dd,
  rx_loop ps st dd = (fst (rx_events (map RPkt ps) st), repeated dd (snd (rx_events (map RPkt ps) st))).
Proof.
  induction ps as [|p ps IH]; intros st dd; [reflexivity|]. cbn [rx_loop map rx_events rx_event]. rewrite rx_single, rx_packet_none.
  destruct (rx_packet p st None) as [st' d]. rewrite IH. destruct (rx_events (map RPkt ps) st') as [st'' os]. cbn [fst snd].
  destruct d as [x|].
  - cbn [repeated]. reflexivity.
  - cbn [repeated]. destruct dd; reflexivity.
Qed.
Lemma rx_events_short ps : forall st, Forall (fun eo => exists p, fst eo = RPkt p /\ (snd eo = [] \/ exists d, snd eo = [deliver p d])) (snd (rx_events (map RPkt ps) st)).
Proof.
  induction ps as [|p ps IH]; intros st; [constructor|]. cbn [map rx_events rx_event]. rewrite rx_single.
  destruct (rx_packet p st None) as [st' d]. specialize (IH st'). destruct (rx_events (map RPkt ps) st') as [st'' os]. cbn [snd] in *.
  constructor; [|exact IH]. exists p. cbn [fst snd]. split; [reflexivity|]. destruct d; [right; eauto|left; reflexivity].
Qed.
Lemma repeated_loud out : Forall (fun eo => snd eo <> []) out -> forall l, repeated l out = concat (map snd out).
Proof.
  induction 1 as [|[e o] out H F IH]; intros l; [reflexivity|]. cbn [snd] in H. destruct o as [|x o]; [congruence|].
  cbn [repeated map concat snd]. destruct e; cbn [repeated]; rewrite IH; reflexivity.
Qed.
Lemma repeated_quiet out : quiet_first out -> repeated None out = concat (map snd out).
Proof.
  induction out as [|[e o] out IH]; intros Q; [reflexivity|]. destruct o as [|x o]; cbn [quiet_first] in Q.
  - cbn [map concat snd app]. destruct e; cbn [repeated app]; apply IH; exact Q.
  - cbn [map concat snd]. destruct e; cbn [repeated]; rewrite repeated_loud by exact Q; reflexivity.
Qed.
