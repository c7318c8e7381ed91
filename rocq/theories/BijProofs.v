From Coq Require Import List ZArith Bool Lia Permutation.
From Verif Require Import PyBase PyLemmas BijModel BijSpec.
Import ListNotations.

Section BijP.
  Context {U : Type} `{EqDec U}.

  Definition inv2 (f r : dict U U) : Prop :=
    NoDup (dkeys f) /\ NoDup (dkeys r) /\ forall k v, dget f k = Some v <-> dget r v = Some k.
  Definition binv (h : heap U) : Prop := inv2 (hF h) (hR h).

  Lemma inv2_sym f r : inv2 f r -> inv2 r f.
  Proof. intros (A & B & C). repeat split; auto; apply C. Qed.

  Lemma inv2_inj f r a b v : inv2 f r -> dget f a = Some v -> dget f b = Some v -> a = b.
  Proof. intros (_ & _ & C) E F. apply C in E, F. congruence. Qed.

  (** one generic statement about the two bodies over an abstract pair of dicts *)
  Definition set2 (f r : dict U U) (k x : U) : dict U U * dict U U :=
    let r1 := match dget f k with Some dv => ddel r dv | None => r end in
    let f1 := match dget r1 x with Some dk => ddel f dk | None => f end in
    (dset f1 k x, dset r1 x k).

  Lemma set2_inv f r k x : inv2 f r ->
    inv2 (fst (set2 f r k x)) (snd (set2 f r k x)) /\
    (forall a b, dget (fst (set2 f r k x)) a = Some b <->
                 (a = k /\ b = x) \/ (dget f a = Some b /\ a <> k /\ b <> x)).
  Proof.
    intros (NF & NR & I). unfold set2. cbn zeta.
    set (r1 := match dget f k with Some dv => ddel r dv | None => r end).
    set (f1 := match dget r1 x with Some dk => ddel f dk | None => f end).
    assert (NR1 : NoDup (dkeys r1)) by (unfold r1; destruct (dget f k); auto using nodup_ddel).
    assert (NF1 : NoDup (dkeys f1)) by (unfold f1; destruct (dget r1 x); auto using nodup_ddel).
    assert (R1 : forall b a, dget r1 b = Some a <-> dget r b = Some a /\ a <> k).
    { intros b a. unfold r1. destruct (dget f k) as [dv|] eqn:E.
      - rewrite dget_ddel by auto. destruct (eq_dec b dv).
        + subst. split; [discriminate|]. intros [A B]. apply I in A. exfalso; apply B.
          apply I in E. apply I in A. congruence.
        + split; [|tauto]. intros A. split; auto. intros ->. apply I in A. congruence.
      - split; [|tauto]. intros A. split; auto. intros ->. apply I in A. congruence. }
    assert (F1 : forall a b, a <> k -> (dget f1 a = Some b <-> dget f a = Some b /\ b <> x)).
    { intros a b N. unfold f1. destruct (dget r1 x) as [dk|] eqn:E.
      - apply R1 in E as [E E']. rewrite dget_ddel by auto. destruct (eq_dec a dk).
        + subst. split; [discriminate|]. intros [A B]. apply I in E. congruence.
        + split; [|tauto]. intros A. split; auto. intros ->. apply I in A. congruence.
      - split; [|tauto]. intros A. split; auto. intros ->. apply I in A.
        assert (dget r1 x = Some a) by (apply R1; auto). congruence. }
    assert (F : forall a b, dget (dset f1 k x) a = Some b <->
                 (a = k /\ b = x) \/ (dget f a = Some b /\ a <> k /\ b <> x)).
    { intros a b. rewrite dget_dset. destruct (eq_dec a k).
      - subst. split; [intros [= ->]; auto|]. intros [[_ ->]|[_ [C _]]]; congruence.
      - rewrite F1 by auto. intuition. }
    split; [|exact F]. cbn [fst snd]. split; [auto using nodup_dset|]. split; [auto using nodup_dset|].
    intros a b. rewrite F. rewrite dget_dset. destruct (eq_dec b x).
    - subst. split.
      + intros [[-> _]|[_ [_ C]]]; congruence.
      + intros [= ->]. auto.
    - rewrite R1. rewrite <- I. intuition.
  Qed.

  Lemma set_body_fwd (h : heap U) k x : binv h ->
    bij_set_body (views VSelf) k x h =
      (Heap (fst (set2 (hF h) (hR h) k x)) (snd (set2 (hF h) (hR h) k x)), Done).
  Proof.
    destruct h as [f r]. intros (NF & NR & I). unfold bij_set_body, set2. simpl in *.
    destruct (dget f k) as [dv|] eqn:E; simpl.
    - unfold ddel_e. replace (dhas r dv) with true by (symmetry; apply dhas_true; exists k; now apply I).
      simpl. destruct (dget (ddel r dv) x) as [dk|] eqn:G; simpl; auto.
      replace (dhas f dk) with true; auto. symmetry. apply dhas_true. exists x. apply I.
      rewrite dget_ddel in G by auto. destruct (eq_dec x dv); congruence.
    - destruct (dget r x) as [dk|] eqn:G; simpl; auto.
      unfold ddel_e. replace (dhas f dk) with true; auto. symmetry. apply dhas_true. exists x. now apply I.
  Qed.
  Lemma set_body_inv (h : heap U) k x : binv h ->
    bij_set_body (views VInvMut) k x h =
      (Heap (snd (set2 (hR h) (hF h) k x)) (fst (set2 (hR h) (hF h) k x)), Done).
  Proof.
    destruct h as [f r]. intros (NF & NR & I). unfold bij_set_body, set2. simpl in *.
    destruct (dget r k) as [dv|] eqn:E; simpl.
    - unfold ddel_e. replace (dhas f dv) with true by (symmetry; apply dhas_true; exists k; now apply I).
      simpl. destruct (dget (ddel f dv) x) as [dk|] eqn:G; simpl; auto.
      replace (dhas r dk) with true; auto. symmetry. apply dhas_true. exists x. apply I.
      rewrite dget_ddel in G by auto. destruct (eq_dec x dv); congruence.
    - destruct (dget f x) as [dk|] eqn:G; simpl; auto.
      unfold ddel_e. replace (dhas r dk) with true; auto. symmetry. apply dhas_true. exists x. now apply I.
  Qed.

  Lemma del2_inv f r k x : inv2 f r -> dget f k = Some x ->
    inv2 (ddel f k) (ddel r x) /\
    (forall a b, dget (ddel f k) a = Some b <-> dget f a = Some b /\ a <> k).
  Proof.
    intros (NF & NR & I) E.
    assert (F : forall a b, dget (ddel f k) a = Some b <-> dget f a = Some b /\ a <> k).
    { intros. rewrite dget_ddel by auto. destruct (eq_dec a k); [subst|]; intuition congruence. }
    split; auto. repeat split; auto using nodup_ddel; intros A.
    - apply F in A as [A N]. rewrite dget_ddel by auto. destruct (eq_dec v x).
      + subst. apply I in A, E. congruence.
      + now apply I.
    - apply F. rewrite dget_ddel in A by auto. destruct (eq_dec v x); [discriminate|].
      apply I in A. split; auto. congruence.
  Qed.

  Lemma del_body_fwd (h : heap U) k : binv h ->
    bij_del_body (views VSelf) k h =
    match dget (hF h) k with
    | Some x => (Heap (ddel (hF h) k) (ddel (hR h) x), Done)
    | None => (h, Threw KeyError)
    end.
  Proof.
    destruct h as [f r]. intros (NF & NR & I). unfold bij_del_body, dget_e. simpl in *.
    destruct (dget f k) as [x|] eqn:E; auto. unfold ddel_e.
    replace (dhas r x) with true by (symmetry; apply dhas_true; exists k; now apply I). simpl.
    replace (dhas f k) with true by (symmetry; apply dhas_true; eauto). reflexivity.
  Qed.
  Lemma del_body_inv (h : heap U) k : binv h ->
    bij_del_body (views VInvMut) k h =
    match dget (hR h) k with
    | Some x => (Heap (ddel (hF h) x) (ddel (hR h) k), Done)
    | None => (h, Threw KeyError)
    end.
  Proof.
    destruct h as [f r]. intros (NF & NR & I). unfold bij_del_body, dget_e. simpl in *.
    destruct (dget r k) as [x|] eqn:E; auto. unfold ddel_e.
    replace (dhas f x) with true by (symmetry; apply dhas_true; exists k; now apply I). simpl.
    replace (dhas r k) with true by (symmetry; apply dhas_true; eauto). reflexivity.
  Qed.

  Definition models (h : heap U) (R : rel) : Prop :=
    binv h /\ forall k v, dget (hF h) k = Some v <-> R k v.

  Lemma step_models o h R : models h R -> models (fst (bij_step o h)) (r_step o R).
  Proof.
    intros [B M]. destruct o as [v k x|v k]; destruct v; simpl; unfold bij_set, bij_del, guarded;
      try (split; assumption).
    - change (vw_imm (views VSelf)) with false. cbn iota. rewrite set_body_fwd by auto.
      destruct (set2_inv (hF h) (hR h) k x B) as [B' F]. split; [exact B'|].
      cbn [fst hF]. intros. rewrite F. unfold r_put. rewrite M. tauto.
    - change (vw_imm (views VInvMut)) with false. cbn iota. rewrite set_body_inv by auto.
      destruct (set2_inv (hR h) (hF h) k x (inv2_sym _ _ B)) as [B' F]. split; [apply inv2_sym; exact B'|].
      cbn [fst hF]. intros a b. unfold r_put.
      destruct B' as (_ & _ & I'). rewrite <- I'. rewrite F. destruct B as (_ & _ & I).
      rewrite <- I, M. tauto.
    - change (vw_imm (views VSelf)) with false. cbn iota. rewrite del_body_fwd by auto.
      destruct (dget (hF h) k) as [x|] eqn:E; simpl.
      + destruct (del2_inv _ _ _ _ B E) as [B' F]. split; auto. intros. cbn [hF]. rewrite F, M. reflexivity.
      + split; auto. intros. unfold r_dropL. rewrite <- M. split; [|tauto]. intros A; split; auto. congruence.
    - change (vw_imm (views VInvMut)) with false. cbn iota. rewrite del_body_inv by auto.
      destruct (dget (hR h) k) as [x|] eqn:E; simpl.
      + destruct (del2_inv _ _ _ _ (inv2_sym _ _ B) E) as [B' F]. split; [apply inv2_sym; auto|].
        intros a b. cbn [hF]. unfold r_dropR. destruct B' as (_ & _ & I'). rewrite <- I', F.
        destruct B as (_ & _ & I). rewrite <- I, M. tauto.
      + split; auto. intros a b. unfold r_dropR. rewrite <- M. split; [|tauto]. intros A; split; auto.
        intros ->. destruct B as (_ & _ & I). apply I in A. congruence.
  Qed.

  Lemma empty_models : models bij_empty r_empty.
  Proof. split; [repeat split; try constructor; simpl; discriminate|]. simpl. unfold r_empty. intuition discriminate. Qed.

  Lemma run_models os : forall h R, models h R -> models (bij_run os h) (r_run os R).
  Proof. induction os; simpl; auto. intros. apply IHos. now apply step_models. Qed.

  Lemma reach_models os : models (bij_run os bij_empty) (r_run os r_empty).
  Proof. apply run_models, empty_models. Qed.

  Lemma models_unflip h R v k x : models h R ->
    (bij_get v k h = Ok x <-> (if flipped v then R x k else R k x)).
  Proof.
    intros [B M]. destruct B as (_ & _ & I). destruct v; unfold bij_get, dget_e; simpl.
    - rewrite <- M. destruct (dget (hF h) k); intuition congruence.
    - rewrite <- M, I. destruct (dget (hR h) k); intuition congruence.
    - rewrite <- M, I. destruct (dget (hR h) k); intuition congruence.
    - rewrite <- M. destruct (dget (hF h) k); intuition congruence.
  Qed.

  Lemma get_only_keyerror (h : heap U) v k e : bij_get v k h = Raise e -> e = KeyError.
  Proof. unfold bij_get, dget_e. destruct (dget _ _); congruence. Qed.

  Lemma inv2_len_le f r : inv2 f r -> (length f <= length r)%nat.
  Proof.
    intros (NF & NR & I).
    assert (Hs : NoDup (map snd f)).
    { clear NR. assert (Hall : forall k v, In (k, v) f -> dget r v = Some k).
      { intros k v A. apply I. now apply in_dget. }
      clear I. induction f as [|[a b] f IH]; simpl; [constructor|].
      inversion NF; subst. constructor.
      - intros C. apply in_map_iff in C as [[c d] [E C]]. simpl in E. subst.
        assert (dget r b = Some a) by (apply Hall; simpl; auto).
        assert (dget r b = Some c) by (apply Hall; simpl; auto).
        assert (a = c) by congruence. subst. apply H2. change c with (fst (c, b)). now apply in_map.
      - apply IH; auto. intros. apply Hall. simpl; auto. }
    rewrite <- (map_length snd f), <- (map_length fst r).
    apply NoDup_incl_length; auto. intros v A. apply in_map_iff in A as [[c d] [E A]]. simpl in E; subst.
    assert (dget r v = Some c) by (apply I; now apply in_dget).
    now apply dget_some_in_keys in H0.
  Qed.

  Lemma binv_len h : binv h -> length (hF h) = length (hR h).
  Proof. intros B. apply Nat.le_antisymm; apply inv2_len_le; auto. now apply inv2_sym. Qed.

  (** C01 *)
  Lemma bij_inverse_always os (h := bij_run os bij_empty : heap U) :
    (forall k v, bij_get VSelf k h = Ok v <-> bij_get VInv v h = Ok k) /\
    bij_len VSelf h = bij_len VInv h /\
    (exists pairs : list (U * U),
       NoDup (map fst pairs) /\ NoDup (map snd pairs) /\
       (forall k v, In (k, v) pairs <-> bij_get VSelf k h = Ok v) /\
       length pairs = bij_len VSelf h).
  Proof.
    destruct (reach_models os) as [B M]. fold h in B, M.
    split; [|split; [|exists (hF h); split; [|split; [|split]]]].
    - intros. rewrite !(models_unflip h _ _ _ _ (conj B M)). simpl. tauto.
    - apply binv_len; auto.
    - apply B.
    - destruct B as (NF & NR & I).
      assert (Hall : forall k v, In (k, v) (hF h) -> dget (hR h) v = Some k).
      { intros k v A. apply I. now apply in_dget. }
      revert NF Hall. clear. generalize (hF h), (hR h). induction d as [|[a b] f IH]; simpl; intros r NF Hall; [constructor|].
      inversion NF; subst. constructor.
      + intros C. apply in_map_iff in C as [[c d] [E C]]. simpl in E. subst.
        assert (dget r b = Some a) by auto. assert (dget r b = Some c) by auto.
        assert (a = c) by congruence. subst. apply H2. change c with (fst (c, b)). now apply in_map.
      + eapply IH; eauto.
    - intros k v. unfold bij_get, dget_e. simpl. destruct B as (NF & _ & _). split.
      + intros A. apply in_dget in A; auto. now rewrite A.
      + intros A. apply dget_in. destruct (dget (hF h) k); congruence.
    - reflexivity.
  Qed.

  (** C02 outcome part *)
  Lemma set_outcome os v k x : let h := bij_run os bij_empty : heap U in
    snd (bij_set v k x h) = if writable v then Done else Threw TypeError.
  Proof.
    intros h. destruct (reach_models os) as [B _]. fold h in B.
    destruct v; simpl; unfold bij_set, guarded; auto; simpl vw_imm; cbn iota.
    - now rewrite set_body_fwd.
    - now rewrite set_body_inv.
  Qed.
  Lemma del_outcome os v k : let h := bij_run os bij_empty : heap U in
    (writable v = false -> bij_del v k h = (h, Threw TypeError)) /\
    (writable v = true -> (exists x, bij_get v k h = Ok x) -> snd (bij_del v k h) = Done) /\
    (writable v = true -> ~ (exists x, bij_get v k h = Ok x) -> bij_del v k h = (h, Threw KeyError)).
  Proof.
    intros h. destruct (reach_models os) as [B _]. fold h in B.
    destruct v; (split; [|split]); try discriminate; auto; intros _ E;
      unfold bij_del, guarded; simpl vw_imm; cbn iota; unfold bij_get, dget_e in E; simpl in E.
    - rewrite del_body_fwd by auto. destruct (dget (hF h) k); auto. destruct E; discriminate.
    - rewrite del_body_fwd by auto. destruct (dget (hF h) k); auto. exfalso; eauto.
    - rewrite del_body_inv by auto. destruct (dget (hR h) k); auto. destruct E; discriminate.
    - rewrite del_body_inv by auto. destruct (dget (hR h) k); auto. exfalso; eauto.
  Qed.
End BijP.
