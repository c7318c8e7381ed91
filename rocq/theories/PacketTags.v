(** * C20: tag assignment *)
From Coq Require Import List ZArith Bool Lia.
From Verif Require Import PyBase PyLemmas StreamModel StreamProofs PacketModel PacketSpec.
Import ListNotations.
Open Scope Z_scope.

Lemma filter_le_S (used : list Z) t : In t used ->
  (length (filter (fun u => (t + 1 <=? u)%Z) used) < length (filter (fun u => (t <=? u)%Z) used))%nat.
Proof.
  intro I. induction used as [|x r IH]; [destruct I|]. cbn.
  assert (M : (length (filter (fun u => (t + 1 <=? u)%Z) r) <= length (filter (fun u => (t <=? u)%Z) r))%nat).
  { clear. induction r as [|y r IH]; cbn; [lia|]. destruct (Z.leb_spec (t + 1) y), (Z.leb_spec t y); cbn; lia. }
  destruct I as [->|I].
  - destruct (Z.leb_spec (t + 1) t); [lia|]. destruct (Z.leb_spec t t); [|lia]. cbn. lia.
  - specialize (IH I). destruct (Z.leb_spec (t + 1) x), (Z.leb_spec t x); cbn; lia.
Qed.
Lemma auto_tag_spec fuel : forall used t,
  (length (filter (fun u => (t <=? u)%Z) used) < fuel)%nat -> 0 <= t -> (forall u, 0 <= u < t -> In u used) ->
  least_unused used (auto_tag fuel used t).
Proof.
  induction fuel as [|f IH]; intros used t F T U; [lia|]. cbn.
  destruct (smem used t) eqn:M.
  - apply smem_true in M. apply IH; [pose proof (filter_le_S used t M); lia|lia|].
    intros u Hu. destruct (Z.eq_dec u t) as [->|]; [exact M|apply U; lia].
  - assert (~ In t used) by (intro I; apply smem_true in I; congruence). split; auto.
Qed.
Lemma least_unused_fun used t t' : least_unused used t -> least_unused used t' -> t = t'.
Proof.
  intros (P & N & L) (P' & N' & L'). destruct (Z.lt_trichotomy t t') as [H|[H|H]]; [|exact H|].
  - destruct N. apply L'. lia.
  - destruct N'. apply L. lia.
Qed.
Lemma filter_len {A} (f : A -> bool) l : (length (filter f l) <= length l)%nat.
Proof. induction l as [|x l IH]; cbn; [lia|destruct (f x); cbn; lia]. Qed.

(** an assignment, one field at a time *)
Lemma tagging_snoc fs tags name fa t :
  length tags = length fs ->
  (tagging (fs ++ [(name, fa)]) (tags ++ [t]) <->
   tagging fs tags /\ ~ In name (map fst fs) /\ ~ In t tags /\
   match fa_tag fa with Some e => t = e | None => least_unused tags t end).
Proof.
  intro L. unfold tagging. rewrite map_app, !app_length. cbn [map fst length]. split.
  - intros (N & _ & H). split; [|].
    + split; [|split; [exact L|]].
      * apply NoDup_app_l in N. exact N.
      * intros i n f x Hf Ht. specialize (H i n f x).
        assert (i < length fs)%nat by (apply nth_error_Some; congruence).
        rewrite nth_error_app1, nth_error_app1 in H by lia. rewrite firstn_app in H.
        replace (i - length tags)%nat with 0%nat in H by lia. rewrite firstn_O, app_nil_r in H. auto.
    + split; [apply NoDup_remove_2 in N; now rewrite app_nil_r in N|].
      specialize (H (length fs) name fa t). rewrite nth_error_app2, Nat.sub_diag in H by lia.
      rewrite nth_error_app2 in H by lia. replace (length fs - length tags)%nat with 0%nat in H by lia.
      rewrite firstn_app, firstn_all2 in H by lia. replace (length fs - length tags)%nat with 0%nat in H by lia.
      rewrite firstn_O, app_nil_r in H. cbn in H. auto.
  - intros ((N & _ & H) & Nn & Nt & C). split; [|split; [lia|]].
    + apply NoDup_snoc; auto.
    + intros i n f x Hf Ht. destruct (Nat.lt_ge_cases i (length fs)) as [Hi|Hi].
      * rewrite nth_error_app1 in Hf by lia. rewrite nth_error_app1 in Ht by lia. rewrite firstn_app.
        replace (i - length tags)%nat with 0%nat by lia. rewrite firstn_O, app_nil_r. eauto.
      * assert (i = length fs) as ->.
        { assert (i < length (fs ++ [(name, fa)]))%nat by (apply nth_error_Some; congruence). rewrite app_length in *. cbn in *. lia. }
        rewrite nth_error_app2, Nat.sub_diag in Hf by lia. injection Hf as <- <-.
        rewrite nth_error_app2 in Ht by lia. replace (length fs - length tags)%nat with 0%nat in Ht by lia. injection Ht as <-.
        rewrite firstn_app, firstn_all2 by lia. replace (length fs - length tags)%nat with 0%nat by lia.
        rewrite firstn_O, app_nil_r. auto.
Qed.
Lemma tagging_prefix fs gs tags : tagging (fs ++ gs) tags -> tagging fs (firstn (length fs) tags).
Proof.
  intros (N & L & H). rewrite app_length in L. split; [|split].
  - rewrite map_app in N. apply NoDup_app_l in N. exact N.
  - rewrite firstn_length. lia.
  - intros i n f x Hf Ht. assert (i < length fs)%nat by (apply nth_error_Some; congruence).
    rewrite firstn_firstn. replace (Init.Nat.min i (length fs)) with i by lia. apply (H i n f x).
    + rewrite nth_error_app1; auto.
    + rewrite <- Ht. rewrite <- (firstn_skipn (length fs) tags) at 1. rewrite nth_error_app1; [reflexivity|rewrite firstn_length; lia].
Qed.
Lemma tagging_nil : tagging [] [].
Proof. split; [constructor|split; [reflexivity|intros [|i]; discriminate]]. Qed.
Lemma tagging_len fs tags : tagging fs tags -> length tags = length fs.
Proof. now intros (_ & L & _). Qed.
Lemma tagging_nodup fs : forall tags, tagging fs tags -> NoDup tags.
Proof.
  induction fs as [|[n fa] fs IH] using rev_ind; intros tags T.
  - pose proof (tagging_len _ _ T). destruct tags; [constructor|discriminate].
  - pose proof (tagging_len _ _ T) as L. rewrite app_length in L. cbn in L.
    destruct tags as [|t tags _] using rev_ind; [cbn in L; lia|]. rewrite app_length in L. cbn in L.
    apply tagging_snoc in T as (T & _ & Nt & _); [|lia]. apply NoDup_snoc; auto.
Qed.

Definition auto_inv (tags : list Z) (auto : Z) : Prop := 0 <= auto /\ forall u, 0 <= u < auto -> In u tags.
Lemma auto_of tags auto : auto_inv tags auto -> least_unused tags (auto_tag (S (length tags)) tags auto).
Proof. intros (P & U). apply auto_tag_spec; auto. pose proof (filter_len (fun u => auto <=? u) tags). lia. Qed.
Lemma auto_inv_next tags t : least_unused tags t -> auto_inv (tags ++ [t]) t.
Proof. intros (P & _ & U). split; [exact P|]. intros u Hu. apply in_or_app. left. auto. Qed.
Lemma auto_inv_more tags auto t : auto_inv tags auto -> auto_inv (tags ++ [t]) auto.
Proof. intros (P & U). split; [exact P|]. intros u Hu. apply in_or_app. left. auto. Qed.

Lemma process_from_spec fs : forall done tags auto,
  tagging done tags -> auto_inv tags auto ->
  match process_fields_from fs (map fst done) tags auto with
  | Ok out => tagging (done ++ fs) out
  | Raise e => e = GenericException /\ forall out, ~ tagging (done ++ fs) out
  end.
Proof.
  induction fs as [|[name fa] fs IH]; intros done tags auto T A; cbn [process_fields_from].
  { now rewrite app_nil_r. }
  pose proof (tagging_len _ _ T) as L.
  assert (FIN : forall out, tagging (done ++ (name, fa) :: fs) out ->
     ~ In name (map fst done) /\ exists t, tagging (done ++ [(name, fa)]) (tags ++ [t])).
  { intros out H. replace (done ++ (name, fa) :: fs) with ((done ++ [(name, fa)]) ++ fs) in H by (rewrite <- app_assoc; reflexivity).
    apply tagging_prefix in H. rewrite app_length in H. cbn in H. set (o := firstn (length done + 1) out) in *.
    pose proof (tagging_len _ _ H) as Lo. rewrite app_length in Lo. cbn in Lo.
    destruct o as [|t o _] using rev_ind; [cbn in Lo; lia|]. rewrite app_length in Lo. cbn in Lo.
    assert (o = tags) as ->.
    { apply tagging_snoc in H as (H & _); [|lia]. clear -H T. revert tags o T H.
      induction done as [|[n f] d IHd] using rev_ind; intros tags o T H.
      - pose proof (tagging_len _ _ T). pose proof (tagging_len _ _ H). destruct tags, o; try discriminate; reflexivity.
      - pose proof (tagging_len _ _ T) as L1. pose proof (tagging_len _ _ H) as L2. rewrite app_length in L1, L2. cbn in L1, L2.
        destruct tags as [|t1 tags _] using rev_ind; [cbn in L1; lia|]. rewrite app_length in L1. cbn in L1.
        destruct o as [|t2 o _] using rev_ind; [cbn in L2; lia|]. rewrite app_length in L2. cbn in L2.
        apply tagging_snoc in T as (T & _ & _ & C1); [|lia]. apply tagging_snoc in H as (H & _ & _ & C2); [|lia].
        rewrite (IHd _ _ T H) in *. f_equal. f_equal. destruct (fa_tag f); [congruence|eapply least_unused_fun; eauto]. }
    split; [|eauto]. apply tagging_snoc in H as (_ & N & _); auto. }
  destruct (smem (map fst done) name) eqn:M.
  { apply smem_true in M. split; auto. intros out H. apply (FIN out H), M. }
  assert (Nn : ~ In name (map fst done)) by (intro I; apply smem_true in I; congruence).
  destruct (fa_tag fa) as [t|] eqn:Tg.
  - destruct (smem tags t) eqn:M2.
    { apply smem_true in M2. split; auto. intros out H. destruct (FIN out H) as (_ & t' & H').
      apply tagging_snoc in H' as (_ & _ & Nt & C); [|lia]. rewrite Tg in C. subst. auto. }
    assert (Nt : ~ In t tags) by (intro I; apply smem_true in I; congruence).
    replace (map fst done ++ [name]) with (map fst (done ++ [(name, fa)])) by (now rewrite map_app).
    replace (done ++ (name, fa) :: fs) with ((done ++ [(name, fa)]) ++ fs) by (rewrite <- app_assoc; reflexivity).
    apply IH; [|now apply auto_inv_more]. apply tagging_snoc; auto. rewrite Tg. auto.
  - pose proof (auto_of tags auto A) as LU. set (t := auto_tag _ _ _) in *.
    replace (map fst done ++ [name]) with (map fst (done ++ [(name, fa)])) by (now rewrite map_app).
    replace (done ++ (name, fa) :: fs) with ((done ++ [(name, fa)]) ++ fs) by (rewrite <- app_assoc; reflexivity).
    apply IH; [|now apply auto_inv_next]. apply tagging_snoc; auto. rewrite Tg.
    split; [exact T|]. split; [exact Nn|]. split; [apply LU|exact LU].
Qed.
Lemma process_fields_spec fs :
  match process_fields fs with
  | Ok out => tagging fs out
  | Raise e => e = GenericException /\ forall out, ~ tagging fs out
  end.
Proof. apply (process_from_spec fs [] [] 0 tagging_nil). split; [lia|intros; lia]. Qed.
Lemma tagging_fun fs t1 t2 : tagging fs t1 -> tagging fs t2 -> t1 = t2.
Proof.
  revert t1 t2. induction fs as [|[n f] d IHd] using rev_ind; intros tags o T H.
  - pose proof (tagging_len _ _ T). pose proof (tagging_len _ _ H). destruct tags, o; try discriminate; reflexivity.
  - pose proof (tagging_len _ _ T) as L1. pose proof (tagging_len _ _ H) as L2. rewrite app_length in L1, L2. cbn in L1, L2.
    destruct tags as [|t1 tags _] using rev_ind; [cbn in L1; lia|]. rewrite app_length in L1. cbn in L1.
    destruct o as [|t2 o _] using rev_ind; [cbn in L2; lia|]. rewrite app_length in L2. cbn in L2.
    apply tagging_snoc in T as (T & _ & _ & C1); [|lia]. apply tagging_snoc in H as (H & _ & _ & C2); [|lia].
    rewrite (IHd _ _ T H) in *. f_equal. f_equal. destruct (fa_tag f); [congruence|eapply least_unused_fun; eauto].
Qed.
Lemma process_fields_iff fs tags : process_fields fs = Ok tags <-> tagging fs tags.
Proof.
  pose proof (process_fields_spec fs) as S. destruct (process_fields fs) as [out|e].
  - split; [intros [= <-]; exact S|]. intro T. f_equal. eapply tagging_fun; eauto.
  - destruct S as (_ & N). split; [discriminate|]. intro T. destruct (N _ T).
Qed.
Lemma process_fields_err fs e : process_fields fs = Raise e -> e = GenericException.
Proof. pose proof (process_fields_spec fs) as S. destruct (process_fields fs); [discriminate|]. intros [= <-]. apply S. Qed.
