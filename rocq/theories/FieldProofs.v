(** * Proofs about field assignment and list fields *)
From Coq Require Import List ZArith Bool Lia.
From Verif Require Import PyBase PyLemmas FloatModel FloatSpec FloatProofs FieldModel FieldSpec.
Import ListNotations.
Open Scope Z_scope.

(** the attributes of a field made from [given] *)
Definition full_attrs (given : dict attr Z) : dict attr Z :=
  match dget given ABits, dget given AMax with
  | Some n, None => dset given AMax (2 ^ n - 1)
  | _, _ => given
  end.

Lemma py_bool_falsy x : x <> PUnset -> (py_bool x = false <-> falsy x).
Proof.
  intros N. unfold falsy.
  assert (NF : (forall b, x <> PFloat b) -> (exists b, x = PFloat b /\ abs64 b = 0) -> False) by (intros A (b & E & _); exact (A b E)).
  destruct x as [| |b|z|s|s|b|c i]; cbn [py_bool]; try congruence; try (specialize (NF ltac:(discriminate))).
  - intuition.
  - destruct b; intuition (congruence || discriminate).
  - destruct (Z.eqb_spec z 0); cbn [negb]; intuition (congruence || discriminate).
  - destruct s; intuition (congruence || discriminate).
  - destruct s; intuition (congruence || discriminate).
  - rewrite f64_true_iff. clear NF. split.
    + intros Z0. do 5 right. exists b. auto.
    + intros [H|[H|[H|[H|[H|(b' & H & Z0)]]]]]; try discriminate. injection H as <-. exact Z0.
  - intuition (congruence || discriminate).
Qed.
Lemma py_int_iff x z : py_int x = Ok z <-> reads_int x z.
Proof.
  split.
  - destruct x as [| |b|n|s|s|b|c i]; cbn [py_int]; intros E; try discriminate; try (injection E as <-); try (constructor; assumption).
    constructor. now apply f64_trunc_iff.
  - intros H. inversion H; subst; cbn [py_int]; auto. now apply f64_trunc_iff.
Qed.
Lemma one_pattern b : int_to_double 1 = Ok b <-> finite64 b /\ is_double b /\ val64 b = 2 ^ 1074.
Proof.
  change (int_to_double 1) with (@Ok Z (1023 * 2 ^ 52)). split.
  - intros E. apply Ok_inj in E. subst b. split; [reflexivity|]. split; [split; [discriminate|reflexivity]|]. vm_compute. reflexivity.
  - intros (F & D & E). f_equal. apply val64_inj; [split; [discriminate|reflexivity]|exact D| |].
    + unfold val64 in E. destruct (neg64 b); [|reflexivity]. exfalso. cbn [signed] in E.
      pose proof (mag_nonneg 52 ltac:(lia) (abs64 b) ltac:(apply abs64_range)). pose proof (V_pos). lia.
    + rewrite E. vm_compute. reflexivity.
Qed.

Lemma add_bases_other a d : a <> ABits -> add_bases a (base_attrs a) d = d.
Proof. destruct a; cbn; congruence. Qed.
Lemma add_bases_bits d : add_bases ABits (base_attrs ABits) d =
  match dget d ABits, dget d AMax with Some n, None => dset d AMax (2 ^ n - 1) | _, _ => d end.
Proof.
  cbn [base_attrs add_bases]. unfold dhas. destruct (dget d AMax); destruct (dget d ABits); reflexivity.
Qed.
Lemma fold_bases_stable ks d :
  (dget d AMax <> None \/ dget d ABits = None) ->
  fold_left (fun d a => add_bases a (base_attrs a) d) ks d = d.
Proof.
  induction ks as [|a ks IH]; intros H; cbn [fold_left]; [reflexivity|].
  destruct (EqDec_attr a ABits) as [->|N].
  - rewrite add_bases_bits.
    destruct (dget d ABits) eqn:E1; destruct (dget d AMax) eqn:E2; try (apply IH; assumption).
    exfalso. destruct H as [H|H]; congruence.
  - rewrite add_bases_other by assumption. apply IH. assumption.
Qed.
Lemma fold_bases ks d : (dget d ABits <> None -> In ABits ks) ->
  fold_left (fun d a => add_bases a (base_attrs a) d) ks d = full_attrs d.
Proof.
  induction ks as [|a ks IH]; intros H; cbn [fold_left].
  - unfold full_attrs. destruct (dget d ABits) eqn:E; [|reflexivity].
    exfalso. apply (H ltac:(discriminate)).
  - destruct (EqDec_attr a ABits) as [->|N].
    + rewrite add_bases_bits. fold (full_attrs d). unfold full_attrs.
      destruct (dget d ABits) eqn:E1; [destruct (dget d AMax) eqn:E2|].
      * apply fold_bases_stable. left. congruence.
      * apply fold_bases_stable. left. rewrite dget_dset_same. discriminate.
      * apply fold_bases_stable. right. assumption.
    + rewrite add_bases_other by assumption. apply IH. intros X. destruct (H X) as [?|?]; [congruence|assumption].
Qed.
Lemma init_attrs k given : f_attrs (init_field k given) = full_attrs given.
Proof.
  cbn [init_field f_attrs]. apply fold_bases. intros H.
  destruct (dget given ABits) eqn:E; [|congruence]. eapply dget_some_in_keys; eauto.
Qed.
Lemma full_attrs_idem d : full_attrs (full_attrs d) = full_attrs d.
Proof.
  unfold full_attrs. destruct (dget d ABits) eqn:E1; [|rewrite E1; reflexivity].
  destruct (dget d AMax) eqn:E2; [rewrite E1, E2; reflexivity|].
  rewrite dget_dset_same. rewrite dget_dset_other, E1 by discriminate. reflexivity.
Qed.
(** the two facts about a field of a packet *)
Lemma packet_field_eq k given :
  packet_field (init_field k given) =
  Field k (full_attrs given) (filter is_validator (dkeys (full_attrs given))) PUnset.
Proof.
  unfold packet_field, call_field. cbn [fold_left]. rewrite init_attrs.
  unfold init_field at 1. cbn [f_kind].
  f_equal. change (f_attrs (init_field k (full_attrs given)) = full_attrs given).
  rewrite init_attrs, full_attrs_idem. reflexivity.
Qed.

Lemma run_validators_num vs d x :
  (exists z, x = PInt z) \/ (exists b, x = PFloat b) ->
  (forall a, In a vs -> is_validator a = true /\ dget d a <> None) ->
  ((forall a v, In a vs -> dget d a = Some v -> validate_one a v x = Ok true) /\ run_validators vs d x = Ok tt) \/
  ((exists a v, In a vs /\ dget d a = Some v /\ validate_one a v x = Ok false) /\ run_validators vs d x = Raise ValueError).
Proof.
  intros Nx. induction vs as [|a vs IH]; intros H; cbn [run_validators].
  - left. split; [intros ? ? []|reflexivity].
  - destruct (H a (or_introl eq_refl)) as [Va Da]. destruct (dget d a) as [v|] eqn:E; [|congruence].
    assert (Hb : exists b, validate_one a v x = Ok b)
      by (destruct Nx as [(z & ->)|(z & ->)]; unfold validate_one; destruct a; eexists; reflexivity).
    destruct Hb as [b Hb]. rewrite Hb. destruct b.
    + destruct (IH (fun b Hb => H b (or_intror Hb))) as [[A B]|[(b & w & I & D & W) B]].
      * left. split; [|exact B]. intros b w [<-|I] Dw; [congruence|]. eapply A; eauto.
      * right. split; [|exact B]. exists b, w. auto using in_cons.
    + right. split; [|reflexivity]. exists a, v. auto using in_eq.
Qed.

(** numeric fields: the validators accept exactly the declared range (apart
    from the sign of Uint) *)
Lemma full_attrs_get given a : dget (full_attrs given) a =
  match a with
  | AMax => match dget given AMax, dget given ABits with
            | Some m, _ => Some m | None, Some n => Some (2 ^ n - 1) | None, None => None end
  | _ => dget given a
  end.
Proof.
  unfold full_attrs. destruct (dget given ABits) as [n|] eqn:E1; destruct (dget given AMax) as [m|] eqn:E2;
    try (destruct a; congruence).
  destruct a; try (rewrite dget_dset_other by discriminate; reflexivity).
  rewrite dget_dset_same. reflexivity.
Qed.
Lemma full_vals given a : In a (filter is_validator (dkeys (full_attrs given))) <->
  is_validator a = true /\ dget (full_attrs given) a <> None.
Proof.
  rewrite filter_In, <- dhas_in, dhas_true. split.
  - intros [[v H] ?]. split; congruence.
  - intros [? H]. split; [|assumption]. destruct (dget (full_attrs given) a) eqn:E; [eauto|congruence].
Qed.

Definition limits (given : dict attr Z) (z : Z) : Prop :=
  (forall m, dget given AMax = Some m -> z <= m) /\
  (forall m, dget given AMin = Some m -> m <= z) /\
  (forall n, dget given ABits = Some n -> z < 2 ^ n).

Lemma validators_range k given z : well_declared k given ->
  (limits given z /\
   run_validators (filter is_validator (dkeys (full_attrs given))) (full_attrs given) (PInt z) = Ok tt) \/
  (~ limits given z /\
   run_validators (filter is_validator (dkeys (full_attrs given))) (full_attrs given) (PInt z) = Raise ValueError).
Proof.
  intros (Nd & Mb & _).
  destruct (run_validators_num (filter is_validator (dkeys (full_attrs given))) (full_attrs given) (PInt z) (or_introl (ex_intro _ z eq_refl)))
    as [[A B]|[(a & v & I & D & W) B]].
  - intros a I. apply full_vals in I. exact I.
  - assert (A' : forall a v, is_validator a = true -> dget (full_attrs given) a = Some v ->
                 validate_one a v (PInt z) = Ok true).
    { intros a v V D. apply (A a v); [|exact D]. apply full_vals. split; [exact V|]. rewrite D. discriminate. }
    clear A. left. split; [|exact B]. split; [|split].
    + intros m Hm. pose proof (A' AMax m eq_refl) as X. rewrite full_attrs_get, Hm in X.
      specialize (X eq_refl). cbn [validate_one] in X. apply Ok_inj in X. apply Z.leb_le; assumption.
    + intros m Hm. pose proof (A' AMin m eq_refl) as X. rewrite full_attrs_get, Hm in X.
      specialize (X eq_refl). cbn [validate_one] in X. apply Ok_inj in X. apply Z.leb_le; assumption.
    + intros n Hn. pose proof (A' AMax) as X. rewrite full_attrs_get, Hn in X.
      destruct (dget given AMax) as [m|] eqn:Em.
      * specialize (X m eq_refl eq_refl). cbn [validate_one] in X. apply Ok_inj in X. apply Z.leb_le in X.
        specialize (Mb m n eq_refl Hn). lia.
      * specialize (X _ eq_refl eq_refl). cbn [validate_one] in X. apply Ok_inj in X. apply Z.leb_le in X. lia.
  - right. split; [|exact B]. intros (L1 & L2 & L3).
    rewrite full_attrs_get in D.
    destruct a; cbn [validate_one] in W; apply Ok_inj in W; try discriminate; apply Z.leb_gt in W.
    + destruct (dget given AMax) as [m|] eqn:Em.
      * injection D as <-. specialize (L1 m eq_refl). lia.
      * destruct (dget given ABits) as [n|] eqn:En; [|discriminate].
        assert (v = 2 ^ n - 1) by (injection D; congruence). subst v.
        specialize (L3 n eq_refl). lia.
    + specialize (L2 v D). lia.
    + specialize (L3 v D). lia.
Qed.

Lemma at_most_le b m n : m <= n -> at_most b m -> at_most b n.
Proof. intros L [(F & H)|H]; [left|right; exact H]. split; [exact F|]. pose proof V_pos. nia. Qed.
Lemma validators_range_f k given b : well_declared k given ->
  (declared_range_f given b /\
   run_validators (filter is_validator (dkeys (full_attrs given))) (full_attrs given) (PFloat b) = Ok tt) \/
  (~ declared_range_f given b /\
   run_validators (filter is_validator (dkeys (full_attrs given))) (full_attrs given) (PFloat b) = Raise ValueError).
Proof.
  intros (Nd & Mb & _).
  destruct (run_validators_num (filter is_validator (dkeys (full_attrs given))) (full_attrs given) (PFloat b) (or_intror (ex_intro _ b eq_refl)))
    as [[A B]|[(a & v & I & D & W) B]].
  - intros a I. apply full_vals in I. exact I.
  - assert (A' : forall a v, is_validator a = true -> dget (full_attrs given) a = Some v ->
                 validate_one a v (PFloat b) = Ok true).
    { intros a v V D. apply (A a v); [|exact D]. apply full_vals. split; [exact V|]. rewrite D. discriminate. }
    clear A. left. split; [|exact B]. split; [|split].
    + intros m Hm. pose proof (A' AMax m eq_refl) as X. rewrite full_attrs_get, Hm in X.
      specialize (X eq_refl). cbn [validate_one] in X. apply Ok_inj in X. now apply f64_le_int_iff.
    + intros m Hm. pose proof (A' AMin m eq_refl) as X. rewrite full_attrs_get, Hm in X.
      specialize (X eq_refl). cbn [validate_one] in X. apply Ok_inj in X. now apply int_le_f64_iff.
    + intros n Hn Em. pose proof (A' AMax) as X. rewrite full_attrs_get, Hn, Em in X.
      specialize (X _ eq_refl eq_refl). cbn [validate_one] in X. apply Ok_inj in X. now apply f64_le_int_iff.
  - right. split; [|exact B]. intros (L1 & L2 & L3).
    rewrite full_attrs_get in D.
    destruct a; cbn [validate_one] in W; apply Ok_inj in W; try discriminate; apply not_true_iff_false in W; apply W.
    + apply f64_le_int_iff. destruct (dget given AMax) as [m|] eqn:Em.
      * injection D as <-. auto.
      * destruct (dget given ABits) as [n|] eqn:En; [|discriminate].
        assert (v = 2 ^ n - 1) by (injection D; congruence). subst v. auto.
    + apply int_le_f64_iff. auto.
    + apply f64_le_int_iff. destruct (dget given AMax) as [m|] eqn:Em.
      * specialize (Mb m v eq_refl D). eapply at_most_le; [|exact (L1 m eq_refl)]. lia.
      * eapply at_most_le; [|exact (L3 v D eq_refl)]. lia.
Qed.

Lemma no_validators given :
  dget given AMax = None -> dget given AMin = None -> dget given ABits = None ->
  filter is_validator (dkeys (full_attrs given)) = [].
Proof.
  intros A B C. destruct (filter is_validator (dkeys (full_attrs given))) as [|a r] eqn:E; [reflexivity|].
  assert (I : In a (filter is_validator (dkeys (full_attrs given)))) by (rewrite E; left; reflexivity).
  apply full_vals in I. rewrite full_attrs_get, A, C in I. destruct I as [V N].
  destruct a; cbn in V; congruence.
Qed.

Lemma unset_dec x : {x = PUnset} + {x <> PUnset}.
Proof. destruct x; (left; reflexivity) || (right; discriminate). Qed.

Section P.
  Variable str_of : pyobj -> pystr.
  Variable float_of : pystr -> option Z.
  Variable is_sub : nat -> nat -> bool.
  Notation acc := (accepts str_of float_of is_sub).

  Lemma py_float_iff x b : py_float float_of x = Ok b <-> reads_float float_of x b.
  Proof.
    split.
    - destruct x as [| |c|n|s|s|c|c i]; cbn [py_float]; intros E; try discriminate.
      + destruct c; [apply one_pattern in E; constructor; tauto|]. apply Ok_inj in E. subst b. constructor.
      + constructor; [|now apply int_to_double_nearest]. destruct (int_to_double_overflow n) as (O & _).
        rewrite E in O. destruct (Z.lt_ge_cases (Z.abs n) overflow64) as [L|L]; [exact L|]. apply O in L. discriminate.
      + constructor. destruct (float_of s); congruence.
      + constructor. destruct (float_of s); congruence.
      + apply Ok_inj in E. subst b. constructor.
    - intros H. inversion H as [|z ? Ov Nr|? F D V| |s ? E|s ? E]; subst; cbn [py_float]; auto.
      + now apply nearest_double_unique.
      + now apply one_pattern.
      + now rewrite E.
      + now rewrite E.
  Qed.
  Ltac conv := repeat match goal with
    | H : reads_int _ _ |- _ => apply py_int_iff in H
    | H : reads_float _ _ _ |- _ => apply py_float_iff in H end.

  (** a field with the shape of a packet field of this declaration *)
  Definition shaped (k : kind) (given : dict attr Z) (f : field) : Prop :=
    f_kind f = k /\ f_attrs f = full_attrs given /\
    f_vals f = filter is_validator (dkeys (full_attrs given)).
  Lemma shaped_packet k given : shaped k given (packet_field (init_field k given)).
  Proof. rewrite packet_field_eq. repeat split. Qed.
  Lemma shaped_with k given f x : shaped k given f -> shaped k given (with_data f x).
  Proof. unfold shaped. cbn. auto. Qed.
  Lemma set_typed_shaped k given f x : shaped k given f -> shaped k given (fst (set_typed str_of float_of is_sub f x)).
  Proof.
    intros H. unfold set_typed.
    destruct (f_kind f); [destruct (py_int x)|destruct (py_int x)| | | |destruct (py_float float_of x)|];
      try (cbn [fst]; auto using shaped_with; fail); destruct x; cbn [fst]; auto using shaped_with.
    destruct (is_sub _ _); cbn [fst]; auto using shaped_with.
  Qed.
  Lemma set_data_unfold f x : x <> PUnset ->
    set_data str_of float_of is_sub f x = match set_typed str_of float_of is_sub f x with
           | (f', Raise e) => (f', Raise e)
           | (f', Ok _) => (f', run_validators (f_vals f') (f_attrs f') (f_data f'))
           end.
  Proof. destruct x; cbn [set_data]; congruence. Qed.

  Lemma set_data_shaped k given f x : shaped k given f -> shaped k given (fst (set_data str_of float_of is_sub f x)).
  Proof.
    intros H. destruct (unset_dec x) as [->|Nx].
    { cbn. auto using shaped_with. }
    rewrite set_data_unfold by assumption. pose proof (set_typed_shaped k given f x H) as S.
    destruct (set_typed str_of float_of is_sub f x) as [f' [u|e]]; exact S.
  Qed.
  (** the characterisation: accepted exactly as specified, ValueError otherwise *)
  Lemma set_data_spec k given f x : well_declared k given -> shaped k given f ->
    (exists v, acc k given x v /\ set_data str_of float_of is_sub f x = (with_data f v, Ok tt)) \/
    ((forall v, ~ acc k given x v) /\ snd (set_data str_of float_of is_sub f x) = Raise ValueError).
  Proof.
    intros W (Hk & Ha & Hv).
    destruct (unset_dec x) as [->|Nx].
    { left. exists PUnset. split; [constructor|reflexivity]. }
    rewrite set_data_unfold by assumption.
    assert (NoV : k <> KUint -> k <> KInt -> k <> KFloat -> f_vals f = []).
    { intros A B C. destruct W as (_ & _ & W). destruct (W A B C) as (? & ? & ?). rewrite Hv. apply no_validators; assumption. }
    unfold set_typed. rewrite Hk. destruct k.
    - destruct (py_int x) as [z|e] eqn:E.
      + destruct (Z.ltb_spec z 0) as [L|L].
        * right. split; [|reflexivity]. intros v A. inversion A; subst; conv; try congruence.
          match goal with H : declared_range _ _ _ |- _ => destruct H as [P _] end. specialize (P eq_refl).
          assert (z0 = z) by congruence. lia.
        * cbn [with_data f_vals f_attrs f_data]. rewrite Hv, Ha.
          destruct (validators_range _ _ z W) as [[A B]|[A B]]; rewrite B.
          -- left. exists (PInt z). split; [|reflexivity]. apply acc_num; auto; [now apply py_int_iff|]. split; [auto|exact A].
          -- right. split; [|reflexivity]. intros v X. inversion X; subst; conv; try congruence.
             match goal with H : declared_range _ _ _ |- _ => destruct H as [_ P] end.
             assert (z0 = z) by congruence. subst. apply A. exact P.
      + right. split; [|reflexivity]. intros v X. inversion X; subst; conv; congruence.
    - destruct (py_int x) as [z|e] eqn:E.
      + cbn [with_data f_vals f_attrs f_data]. rewrite Hv, Ha.
        destruct (validators_range _ _ z W) as [[A B]|[A B]]; rewrite B.
        * left. exists (PInt z). split; [|reflexivity]. apply acc_num; auto; [now apply py_int_iff|]. split; [discriminate|exact A].
        * right. split; [|reflexivity]. intros v X. inversion X; subst; conv; try congruence.
          match goal with H : declared_range _ _ _ |- _ => destruct H as [_ P] end.
          assert (z0 = z) by congruence. subst. apply A. exact P.
      + right. split; [|reflexivity]. intros v X. inversion X; subst; conv; congruence.
    - left. exists (PBool (py_bool x)). split; [apply acc_bool; auto using py_bool_falsy|].
      cbn [with_data f_vals f_attrs f_data]. rewrite NoV by discriminate. reflexivity.
    - left. exists (PStr (py_str str_of x)). split.
      + destruct x; cbn [py_str]; try (apply acc_str_conv; [reflexivity|assumption|discriminate]); congruence || (apply acc_str; reflexivity).
      + cbn [with_data f_vals f_attrs f_data]. rewrite NoV by discriminate. reflexivity.
    - destruct x; try (right; split; [intros v X; inversion X; subst; conv; try congruence;
        match goal with H : _ \/ _ |- _ => destruct H; discriminate end|reflexivity]).
      left. exists (PBytes b). split; [apply acc_buf; reflexivity|].
      cbn [with_data f_vals f_attrs f_data]. rewrite NoV by discriminate. reflexivity.
    - destruct (py_float float_of x) as [b|e] eqn:E.
      + cbn [with_data f_vals f_attrs f_data]. rewrite Hv, Ha.
        destruct (validators_range_f _ _ b W) as [[A B]|[A B]]; rewrite B.
        * left. exists (PFloat b). split; [|reflexivity]. apply acc_float; auto. now apply py_float_iff.
        * right. split; [|reflexivity]. intros v X. inversion X; subst; conv; try congruence.
          match goal with H : _ \/ _ |- _ => destruct H; discriminate end.
      + right. split; [|reflexivity]. intros v X. inversion X; subst; conv; try congruence.
        match goal with H : _ \/ _ |- _ => destruct H; discriminate end.
    - destruct x as [| | | | | | |d i]; try (right; split; [intros v X; inversion X; subst; conv; try congruence;
        match goal with H : _ \/ _ |- _ => destruct H; discriminate end|reflexivity]).
      destruct (is_sub d c) eqn:E.
      + left. exists (PObj d i). split; [eapply acc_obj; eauto|].
        cbn [with_data f_vals f_attrs f_data]. rewrite NoV by discriminate. reflexivity.
      + right. split; [|reflexivity]. intros v X. inversion X; subst; conv; try congruence.
        match goal with H : _ \/ _ |- _ => destruct H; discriminate end.
  Qed.
  Lemma accepts_fun k given x v w : acc k given x v -> acc k given x w -> v = w.
  Proof.
    intros A B. inversion A; subst; inversion B; subst; conv; try congruence;
      try (match goal with H : py_float _ PUnset = _ |- _ => discriminate H end);
      try (match goal with H : forall s, PStr ?t <> PStr s |- _ => destruct (H t eq_refl) end);
      match goal with H : KUint = _ \/ _ |- _ => destruct H; discriminate
                    | H1 : ?b = false <-> _, H2 : ?c = false <-> _ |- PBool ?b = PBool ?c =>
                        destruct b, c; try reflexivity; exfalso;
                        destruct H1 as [H1 H1'], H2 as [H2 H2'];
                        first [specialize (H1' (H2 eq_refl)) | specialize (H2' (H1 eq_refl))]; discriminate
                    | H : _ \/ _ |- _ => destruct H; congruence end.
  Qed.
  Lemma set_data_accepts k given f x v : well_declared k given -> shaped k given f -> acc k given x v ->
    set_data str_of float_of is_sub f x = (with_data f v, Ok tt).
  Proof.
    intros W S A. destruct (set_data_spec k given f x W S) as [(w & Aw & E)|[N _]].
    - rewrite (accepts_fun _ _ _ _ _ A Aw). exact E.
    - destruct (N v A).
  Qed.

  (** ** packets *)
  Definition pkt_inv (ds : decls) (p : pkt) : Prop :=
    forall n k given, In (n, (k, given)) ds -> exists f, dget p n = Some f /\ shaped k given f.

  Lemma pkt_init_other fs init p p' r n : ~ In n (map fst fs) ->
    pkt_init str_of float_of is_sub fs init p = (p', r) -> dget p' n = dget p n.
  Proof.
    revert p. induction fs as [|[m d] fs IH]; intros p N E; cbn [pkt_init] in E; [congruence|].
    cbn in N. destruct (dget init m) as [x|].
    - destruct (set_data str_of float_of is_sub (packet_field d) x) as [f' [|e]].
      + rewrite (IH _ ltac:(tauto) E). apply dget_dset_other. intros ->. tauto.
      + injection E as <- _. apply dget_dset_other. intros ->. tauto.
    - rewrite (IH _ ltac:(tauto) E). apply dget_dset_other. intros ->. tauto.
  Qed.
  Lemma map_fst_class ds : map fst (class_fields ds) = map fst ds.
  Proof. unfold class_fields. rewrite map_map. reflexivity. Qed.
  Lemma pkt_init_inv ds init p0 p : NoDup (map fst ds) ->
    pkt_init str_of float_of is_sub (class_fields ds) init p0 = (p, Ok tt) -> pkt_inv ds p.
  Proof.
    revert p0. induction ds as [|[n [k given]] ds IH]; intros p0 Nd E m k' g' I; [destruct I|].
    inversion Nd; subst.
    change (class_fields ((n, (k, given)) :: ds)) with ((n, init_field k given) :: class_fields ds) in E.
    cbn [pkt_init] in E.
    assert (G : exists f p1, shaped k given f /\ dget p1 n = Some f /\
              pkt_init str_of float_of is_sub (class_fields ds) init p1 = (p, Ok tt)).
    { destruct (dget init n) as [x|].
      - destruct (set_data str_of float_of is_sub (packet_field (init_field k given)) x) as [f' [u|e]] eqn:Es; [|congruence].
        exists f', (dset p0 n f'). rewrite dget_dset_same. repeat split; auto.
        all: pose proof (set_data_shaped _ _ _ x (shaped_packet k given)) as S; rewrite Es in S;
          destruct S as (? & ? & ?); assumption.
      - eexists _, _. split; [apply shaped_packet|]. split; [apply dget_dset_same|exact E]. }
    destruct G as (f & p1 & S & G & E1).
    destruct I as [I|I].
    - injection I as <- <- <-. exists f. split; [|exact S]. rewrite <- G.
      eapply pkt_init_other; [|exact E1]. rewrite map_fst_class. assumption.
    - eapply IH; eauto.
  Qed.
  Lemma reach_inv ds p : NoDup (map fst ds) -> pkt_reach str_of float_of is_sub ds p -> pkt_inv ds p.
  Proof.
    intros Nd R. induction R as [init p E|p n x p' r R IH E].
    - eapply pkt_init_inv; eauto.
    - intros m k given I. destruct (IH m k given I) as (f & G & S).
      unfold pkt_set in E. destruct (is_private n); [discriminate|].
      destruct (dget p n) as [fn|] eqn:En; [|discriminate].
      destruct (set_data str_of float_of is_sub fn x) as [f' r'] eqn:Es. injection E as <- <-.
      rewrite dget_dset. destruct (eq_dec m n) as [->|Nm].
      + assert (fn = f) by congruence. subst. exists f'. split; [reflexivity|].
        pose proof (set_data_shaped _ _ _ x S) as S'. rewrite Es in S'. exact S'.
      + eauto.
  Qed.

  (** ** lists *)
  Definition linv (k : kind) (given : dict attr Z) (l : lfield) : Prop :=
    l_type l = init_field k given /\ Forall (shaped k given) (l_items l).

  Lemma append_ok k given l x v : well_declared k given -> linv k given l -> acc k given x v ->
    exists l', list_append str_of float_of is_sub l x = (l', Ok tt) /\ linv k given l' /\
      l_set l' = true /\ list_iter l' = list_iter l ++ [v].
  Proof.
    intros W [T F] A. unfold list_append. rewrite T. fold (packet_field (init_field k given)).
    rewrite (set_data_accepts k given _ x v W (shaped_packet _ _) A).
    eexists. split; [reflexivity|]. split; [split; cbn; [reflexivity|]|split; [reflexivity|]].
    - apply Forall_app. split; [exact F|]. constructor; [|constructor]. apply shaped_with, shaped_packet.
    - unfold list_iter. cbn. rewrite map_app. reflexivity.
  Qed.
  Lemma extend_ok k given xs vs l : well_declared k given -> linv k given l -> Forall2 (acc k given) xs vs ->
    exists l', list_extend str_of float_of is_sub l xs = (l', Ok tt) /\ linv k given l' /\
      list_iter l' = list_iter l ++ vs.
  Proof.
    intros W. revert vs l. induction xs as [|x xs IH]; intros vs l I F; inversion F; subst; cbn [list_extend].
    - exists l. rewrite app_nil_r. auto.
    - destruct (append_ok k given l x y W I H1) as (l1 & E & I1 & _ & D). rewrite E.
      destruct (IH _ l1 I1 H3) as (l2 & E2 & I2 & D2). exists l2. split; [exact E2|]. split; [exact I2|].
      rewrite D2, D, <- app_assoc. reflexivity.
  Qed.

  Lemma py_index_split {A} (l : list A) i a x b : splits l i a x b -> py_index (zlen l) i = Some (length a).
  Proof.
    intros [-> [H|H]]; unfold py_index, zlen in *; rewrite app_length in *; cbn [length] in *.
    - subst i. destruct (Z.leb_spec 0 (Z.of_nat (length a))); [|lia].
      destruct (Z.ltb_spec (Z.of_nat (length a)) (Z.of_nat (length a + S (length b)))); [|lia].
      cbn. f_equal. lia.
    - subst i.
      match goal with |- context [0 <=? ?e] => destruct (Z.leb_spec 0 e); [lia|] end. cbn [andb].
      match goal with |- context [?m <=? ?e] => destruct (Z.leb_spec m e); [|lia] end.
      match goal with |- context [?m <? ?e] => destruct (Z.ltb_spec m e); [|lia] end. cbn. f_equal. lia.
  Qed.
  Lemma py_index_bad {A} (l : list A) i : bad_index l i -> py_index (zlen l) i = None.
  Proof.
    unfold bad_index, py_index. intros H. pose proof (Zle_0_nat (length l)) as P. fold (zlen l) in P.
    destruct (Z.leb_spec 0 i); destruct (Z.ltb_spec i (zlen l)); destruct (Z.leb_spec (- zlen l) i);
      destruct (Z.ltb_spec i 0); cbn [andb]; try reflexivity; try lia.
  Qed.
  Lemma remove_nth_app {A} (a : list A) x b : remove_nth (length a) (a ++ x :: b) = a ++ b.
  Proof. induction a; cbn; congruence. Qed.
  Lemma set_nth_app {A} (a : list A) x y b : set_nth (length a) y (a ++ x :: b) = a ++ y :: b.
  Proof. induction a; cbn; congruence. Qed.
  Lemma nth_error_mid {A} (a : list A) x b : nth_error (a ++ x :: b) (length a) = Some x.
  Proof. induction a; cbn; auto. Qed.
  Lemma zlen_map {A B} (g : A -> B) l : zlen (map g l) = zlen l.
  Proof. unfold zlen. rewrite map_length. reflexivity. Qed.
  Lemma map_split {A B} (g : A -> B) l a x b : map g l = a ++ x :: b ->
    exists a' x' b', l = a' ++ x' :: b' /\ map g a' = a /\ g x' = x /\ map g b' = b.
  Proof.
    intros H. apply map_eq_app in H. destruct H as (l1 & l2 & -> & <- & H).
    destruct l2 as [|x' b']; [discriminate|]. injection H as <- <-. exists l1, x', b'. auto.
  Qed.
  Lemma lstep_plain k given l o vs r : well_declared k given -> linv k given l ->
    plain (acc k given) (list_iter l) o vs r ->
    exists l', lstep str_of float_of is_sub l o = (l', r) /\ linv k given l' /\ list_iter l' = vs /\
      (l_set l = true \/ (exists xs, o = OAssign xs) -> l_set l' = true).
  Proof.
    intros W I P.
    assert (G : (exists l', lstep str_of float_of is_sub l o = (l', r) /\ linv k given l' /\ list_iter l' = vs /\
      ((exists xs, o = OAssign xs) -> l_set l' = true) /\ (l_set l = true -> l_set l' = true)) ->
      exists l', lstep str_of float_of is_sub l o = (l', r) /\ linv k given l' /\ list_iter l' = vs /\
      (l_set l = true \/ (exists xs, o = OAssign xs) -> l_set l' = true)).
    { intros (l' & A & B & C & D & E). exists l'. tauto. }
    apply G. clear G.
    inversion P; subst; cbn [lstep].
    - destruct (append_ok k given l x v W I H) as (l' & E & I' & S & D). exists l'. auto.
    - pose proof (py_index_split _ _ _ _ _ H) as Ix. unfold list_iter in Ix. rewrite zlen_map in Ix.
      destruct H as [Hl Hi]. apply map_split in Hl. destruct Hl as (a' & y' & b' & El & <- & <- & <-).
      unfold list_pop. rewrite Ix, El. rewrite map_length, remove_nth_app.
      eexists. split; [reflexivity|]. destruct I as [T F]. rewrite El in F. apply Forall_app in F.
      destruct F as [Fa Fb]. inversion Fb; subst.
      repeat split; cbn; auto.
      + apply Forall_app; auto.
      + unfold list_iter. cbn. apply map_app.
      + intros [? ?]; discriminate.
    - unfold list_pop. unfold bad_index, list_iter in H. rewrite zlen_map in H.
      rewrite (py_index_bad (l_items l)) by assumption. exists l. repeat split; auto; try apply I. intros [? ?]; discriminate.
    - pose proof (py_index_split _ _ _ _ _ H) as Ix. unfold list_iter in Ix. rewrite zlen_map in Ix.
      destruct H as [Hl Hi]. apply map_split in Hl. destruct Hl as (a' & y' & b' & El & <- & <- & <-).
      unfold list_set. rewrite Ix. rewrite map_length, El, nth_error_mid.
      destruct I as [T F]. rewrite El in F. apply Forall_app in F.
      destruct F as [Fa Fb]. inversion Fb; subst.
      rewrite (set_data_accepts k given _ x v W H2 H0). rewrite set_nth_app.
      eexists. split; [reflexivity|].
      repeat split; cbn; auto.
      + apply Forall_app; split; auto.
      + unfold list_iter. cbn. apply map_app.
      + intros [? ?]; discriminate.
    - unfold list_set. unfold bad_index, list_iter in H. rewrite zlen_map in H.
      rewrite (py_index_bad (l_items l)) by assumption. exists l. repeat split; auto; try apply I. intros [? ?]; discriminate.
    - unfold list_assign. destruct I as [T F].
      destruct (extend_ok k given xs vs (list_clear l) W) as (l' & E & I' & D); auto.
      { split; cbn; [exact T|constructor]. }
      rewrite E. eexists. split; [reflexivity|]. repeat split; cbn; auto; try apply I'.
  Qed.
  Lemma lrun_plain k given os l vs rs : well_declared k given -> linv k given l ->
    plain_run (acc k given) (list_iter l) os vs rs -> l_set l = true ->
    exists l', lrun str_of float_of is_sub l os = (l', rs) /\ linv k given l' /\ list_iter l' = vs /\ l_set l' = true.
  Proof.
    intros W. revert l rs. induction os as [|o os IH]; intros l rs I R S; inversion R; subst; cbn [lrun].
    - exists l. auto.
    - match goal with P : plain _ _ _ _ _, Q : plain_run _ _ _ _ _ |- _ =>
        destruct (lstep_plain k given l o l' r W I P) as (l1 & E & I1 & D & Sx); rewrite E;
        rewrite <- D in Q; destruct (IH l1 _ I1 Q (Sx (or_introl S))) as (l2 & E2 & I2 & D2 & S2)
      end.
      rewrite E2. exists l2. auto.
  Qed.

  (** any operation, failed ones included, keeps the shape *)
  Lemma append_inv k given l x : linv k given l -> linv k given (fst (list_append str_of float_of is_sub l x)).
  Proof.
    intros [T F]. unfold list_append. rewrite T. fold (packet_field (init_field k given)).
    pose proof (set_data_shaped k given _ x (shaped_packet k given)) as S.
    destruct (set_data str_of float_of is_sub (packet_field (init_field k given)) x) as [e [u|ex]]; cbn [fst] in *;
      (split; cbn; [reflexivity|apply Forall_app; split; [exact F|constructor; [exact S|constructor]]]).
  Qed.
  Lemma extend_inv k given xs l : linv k given l -> linv k given (fst (list_extend str_of float_of is_sub l xs)).
  Proof.
    revert l. induction xs as [|x xs IH]; intros l I; cbn [list_extend]; [exact I|].
    pose proof (append_inv k given l x I) as J. destruct (list_append str_of float_of is_sub l x) as [l' [u|e]]; auto.
  Qed.
  Lemma Forall_remove_nth {A} (Q : A -> Prop) n l : Forall Q l -> Forall Q (remove_nth n l).
  Proof. intros H. revert n. induction H; intros [|n]; cbn; auto. Qed.
  Lemma Forall_set_nth {A} (Q : A -> Prop) n x l : Q x -> Forall Q l -> Forall Q (set_nth n x l).
  Proof. intros Hx H. revert n. induction H; intros [|n]; cbn; auto. Qed.
  Lemma lstep_inv k given l o : linv k given l -> linv k given (fst (lstep str_of float_of is_sub l o)).
  Proof.
    intros I. destruct o; cbn [lstep].
    - apply append_inv, I.
    - unfold list_pop. destruct (py_index _ _); [|exact I]. destruct I as [T F]. split; [exact T|].
      apply Forall_remove_nth, F.
    - unfold list_set. destruct (py_index _ _); [|exact I].
      destruct (nth_error (l_items l) n) as [f|] eqn:E; [|exact I].
      pose proof I as [T F]. apply nth_error_In in E. rewrite Forall_forall in F. specialize (F f E).
      pose proof (set_data_shaped k given f x F) as S. destruct (set_data str_of float_of is_sub f x) as [f' r].
      split; [exact T|]. apply Forall_set_nth; [exact S|apply I].
    - unfold list_assign. pose proof (extend_inv k given xs (list_clear l)) as J.
      destruct (list_extend str_of float_of is_sub (list_clear l) xs) as [l' [u|e]]; cbn [fst] in *.
      + destruct J as [A B]; [|split; [exact A|exact B]]. split; [apply I|constructor].
      + apply J. split; [apply I|constructor].
  Qed.
  Lemma lrun_inv k given os l : linv k given l -> linv k given (fst (lrun str_of float_of is_sub l os)).
  Proof.
    revert l. induction os as [|o os IH]; intros l I; cbn [lrun]; [exact I|].
    pose proof (lstep_inv k given l o I) as J. destruct (lstep str_of float_of is_sub l o) as [l1 x].
    specialize (IH l1 J). destruct (lrun str_of float_of is_sub l1 os). exact IH.
  Qed.

  Lemma accepts_stable k given x v : acc k given x v -> acc k given v v.
  Proof.
    intros A. inversion A; subst; try (constructor; auto; fail).
    - apply acc_num; auto; [discriminate|constructor].
    - apply acc_float; auto. constructor.
    - apply acc_bool; [reflexivity|discriminate|]. unfold falsy. destruct b; [|intuition congruence].
      split; [discriminate|]. intros [Hf|[Hf|[Hf|[Hf|[Hf|(b & Hf & _)]]]]]; discriminate.
    - eapply acc_obj; eauto.
  Qed.
  Lemma stable_list k given xs vs : Forall2 (acc k given) xs vs -> Forall2 (acc k given) vs vs.
  Proof. induction 1; constructor; eauto using accepts_stable. Qed.
  Lemma plain_stable k given l o l' r : Forall2 (acc k given) l l ->
    plain (acc k given) l o l' r -> Forall2 (acc k given) l' l'.
  Proof.
    assert (F2 : forall l, Forall2 (acc k given) l l <-> Forall (fun v => acc k given v v) l).
    { induction l0; split; intros H; inversion H; subst; constructor; tauto. }
    intros S P. inversion P; subst; auto; try (eapply stable_list; eassumption);
      rewrite F2 in *.
    - apply Forall_app. split; [exact S|constructor; [eapply accepts_stable; eassumption|constructor]].
    - destruct H as [-> _]. apply Forall_app in S. destruct S as [S1 S2]. inversion S2; subst. apply Forall_app; auto.
    - destruct H as [-> _]. apply Forall_app in S. destruct S as [S1 S2]. inversion S2; subst. apply Forall_app.
      split; [exact S1|constructor; [eapply accepts_stable; eassumption|assumption]].
  Qed.
  Lemma plain_run_stable k given l os l' rs : Forall2 (acc k given) l l ->
    plain_run (acc k given) l os l' rs -> Forall2 (acc k given) l' l'.
  Proof. intros S R. induction R; eauto using plain_stable. Qed.
End P.
