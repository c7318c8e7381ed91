(** * C22, C23: field assignment and list fields *)
From Coq Require Import String.
From Coq Require Import List ZArith Bool Lia.
From Verif Require Import PyBase PyLemmas FloatModel FloatSpec FloatProofs FieldModel FieldSpec FieldProofs PacketModel.
Import ListNotations.
Open Scope Z_scope.

(** ** C22 *)

(** In a packet reached by any construction and any history of assignments
    (failed ones included), assigning [x] to a field succeeds exactly if the
    declaration accepts [x], the field then reads as the accepted value;
    otherwise ValueError is raised.  No other field changes. *)
Theorem C22_assignment_accepts_exactly :
  forall str_of float_of is_sub ds p n k given x,
    NoDup (map fst ds) -> pkt_reach str_of float_of is_sub ds p ->
    In (n, (k, given)) ds -> is_private n = false -> well_declared k given ->
    exists p' r, pkt_set str_of float_of is_sub p n x = Some (p', r) /\
      ((exists v, accepts str_of float_of is_sub k given x v /\ r = Ok tt /\ pkt_get p' n = Some v) \/
       ((forall v, ~ accepts str_of float_of is_sub k given x v) /\ r = Raise ValueError)) /\
      forall m, m <> n -> pkt_get p' m = pkt_get p m.
Proof.
  intros str_of float_of is_sub ds p n k given x Nd R I Pn W.
  destruct (reach_inv str_of float_of is_sub ds p Nd R n k given I) as (f & G & S).
  unfold pkt_set. rewrite Pn, G.
  destruct (set_data str_of float_of is_sub f x) as [f' r] eqn:E. exists (dset p n f'), r.
  split; [reflexivity|]. split.
  - destruct (set_data_spec str_of float_of is_sub k given f x W S) as [(v & A & Es)|[A Es]]; rewrite E in Es.
    + left. exists v. apply pair_equal_spec in Es. destruct Es as [-> ->].
      split; [exact A|]. split; [reflexivity|].
      unfold pkt_get. rewrite Pn, dget_dset_same. reflexivity.
    + right. split; [exact A|exact Es].
  - intros m Nm. unfold pkt_get. destruct (is_private m); [reflexivity|].
    rewrite dget_dset_other by assumption. reflexivity.
Qed.
Print Assumptions C22_assignment_accepts_exactly.

(** Two packets of the same class, whatever was assigned to them, compare equal
    exactly if every declared field of the one reads as a value equal to that of
    the other. *)
Theorem C22_packet_equality :
  forall str_of float_of is_sub obj_eq ds p q,
    NoDup (map fst ds) -> pkt_reach str_of float_of is_sub ds p -> pkt_reach str_of float_of is_sub ds q ->
    Forall (fun d => is_private (fst d) = false) ds ->
    (pkt_eq obj_eq (map fst ds) p q = true <->
     forall n, In n (map fst ds) -> exists v w, pkt_get p n = Some v /\ pkt_get q n = Some w /\ py_eq obj_eq v w = true).
Proof.
  intros str_of float_of is_sub obj_eq ds p q Nd Rp Rq F. unfold pkt_eq. rewrite forallb_forall. rewrite Forall_forall in F.
  assert (G : forall n, In n (map fst ds) -> exists f g, dget p n = Some f /\ dget q n = Some g /\ pkt_get p n = Some (f_data f) /\ pkt_get q n = Some (f_data g)).
  { intros n I. apply in_map_iff in I. destruct I as ([m [k given]] & <- & I). cbn [fst] in *.
    destruct (reach_inv str_of float_of is_sub ds p Nd Rp m k given I) as (f & Gf & _).
    destruct (reach_inv str_of float_of is_sub ds q Nd Rq m k given I) as (g & Gg & _).
    exists f, g. specialize (F _ I). cbn [fst] in F. unfold pkt_get. rewrite F, Gf, Gg. auto. }
  split.
  - intros H n I. destruct (G n I) as (f & g & Ef & Eg & Pf & Pg). specialize (H n I). rewrite Ef, Eg in H. eauto.
  - intros H n I. destruct (G n I) as (f & g & Ef & Eg & Pf & Pg). destruct (H n I) as (v & w & Hv & Hw & E). rewrite Ef, Eg. congruence.
Qed.
Print Assumptions C22_packet_equality.

(** UINT with width n: exactly the integers 0 .. 2^n - 1. *)
Theorem C22_uint_width :
  forall str_of float_of is_sub ds p n w z,
    NoDup (map fst ds) -> pkt_reach str_of float_of is_sub ds p ->
    In (n, (KUint, [(ABits, w)])) ds -> is_private n = false ->
    exists p' r, pkt_set str_of float_of is_sub p n (PInt z) = Some (p', r) /\
      (r = Ok tt <-> 0 <= z < 2 ^ w) /\ (r <> Ok tt -> r = Raise ValueError) /\
      (0 <= z < 2 ^ w -> pkt_get p' n = Some (PInt z)).
Proof.
  intros str_of float_of is_sub ds p n w z Nd R I Pn.
  assert (W : well_declared KUint [(ABits, w)]).
  { split; [|split].
    - cbn. constructor; [intros []|constructor].
    - cbn. discriminate.
    - congruence. }
  assert (D : declared_range KUint [(ABits, w)] z <-> 0 <= z < 2 ^ w).
  { unfold declared_range. cbn [dget]. destruct (eq_dec AMax ABits); [discriminate|].
    destruct (eq_dec AMin ABits); [discriminate|]. destruct (eq_dec ABits ABits); [|congruence].
    split.
    - intros (A & _ & _ & B). specialize (A eq_refl). specialize (B w eq_refl). lia.
    - intros H. repeat split; try discriminate; try lia. intros m E. injection E as <-. lia. }
  destruct (C22_assignment_accepts_exactly str_of float_of is_sub ds p n _ _ (PInt z) Nd R I Pn W)
    as (p' & r & E & [(v & A & -> & G)|[A ->]] & _); exists p'.
  - exists (Ok tt). split; [exact E|].
    assert (z = z /\ declared_range KUint [(ABits, w)] z /\ v = PInt z) as (_ & Dz & ->).
    { inversion A; subst; try discriminate. match goal with H : reads_int _ _ |- _ => inversion H; subst end. auto. }
    apply D in Dz. repeat split; try tauto; try lia.
  - exists (Raise ValueError). split; [exact E|]. repeat split; try discriminate; auto.
    + intros H. exfalso. apply (A (PInt z)). apply acc_num; auto; [discriminate|constructor|]. apply D; lia.
    + intros H. exfalso. apply (A (PInt z)). apply acc_num; auto; [discriminate|constructor|]. apply D; lia.
Qed.
Print Assumptions C22_uint_width.

(** Constructing a packet with initial values: succeeds exactly if every
    initial value of a field is accepted; fields without one read UNSET. *)
Theorem C22_constructor_accepts_exactly :
  forall str_of float_of is_sub (ds : decls) (init : dict pystr pyobj),
    NoDup (map fst ds) ->
    (forall n k given, In (n, (k, given)) ds -> is_private n = false /\ well_declared k given) ->
    let '(p, r) := pkt_init str_of float_of is_sub (class_fields ds) init [] in
    (r = Ok tt <->
       forall n k given x, In (n, (k, given)) ds -> dget init n = Some x ->
         exists v, accepts str_of float_of is_sub k given x v) /\
    (r <> Ok tt -> r = Raise ValueError) /\
    (r = Ok tt -> forall n k given, In (n, (k, given)) ds ->
       match dget init n with
       | None => pkt_get p n = Some PUnset
       | Some x => exists v, accepts str_of float_of is_sub k given x v /\ pkt_get p n = Some v
       end).
Proof.
  intros str_of float_of is_sub ds init. generalize (@nil (pystr * field)) as p0.
  induction ds as [|[n [k given]] ds IH]; intros p0 Nd HW.
  - cbn. repeat split; try tauto; congruence.
  - change (class_fields ((n, (k, given)) :: ds)) with ((n, init_field k given) :: class_fields ds).
    inversion Nd as [|? ? N1 N2]; subst.
    assert (HW' : forall n k given, In (n, (k, given)) ds -> is_private n = false /\ well_declared k given)
      by (intros; eapply HW; right; eassumption).
    destruct (HW n k given (or_introl eq_refl)) as [Pn W].
    cbn [pkt_init].
    assert (Key : forall f x, (forall y, dget init n = Some y -> exists v, accepts str_of float_of is_sub k given y v) ->
      f_data f = x ->
      match dget init n with None => x = PUnset | Some y => accepts str_of float_of is_sub k given y x end ->
      let '(p, r) := pkt_init str_of float_of is_sub (class_fields ds) init (dset p0 n f) in
      (r = Ok tt <-> forall n0 k0 given0 x0, In (n0, (k0, given0)) ((n, (k, given)) :: ds) -> dget init n0 = Some x0 ->
         exists v, accepts str_of float_of is_sub k0 given0 x0 v) /\
      (r <> Ok tt -> r = Raise ValueError) /\
      (r = Ok tt -> forall n0 k0 given0, In (n0, (k0, given0)) ((n, (k, given)) :: ds) ->
       match dget init n0 with
       | None => pkt_get p n0 = Some PUnset
       | Some x0 => exists v, accepts str_of float_of is_sub k0 given0 x0 v /\ pkt_get p n0 = Some v
       end)).
    { intros f x Acc Fx HX. specialize (IH (dset p0 n f) N2 HW').
      destruct (pkt_init str_of float_of is_sub (class_fields ds) init (dset p0 n f)) as [p r] eqn:E.
      destruct IH as (I1 & I2 & I3). split; [|split; [exact I2|]].
      - rewrite I1. split.
        + intros H n0 k0 g0 x0 [I|I] D; [|eauto]. injection I as <- <- <-. auto.
        + intros H n0 k0 g0 x0 I D. eapply H; [right; exact I|exact D].
      - intros Hr n0 k0 g0 [I|I]; [|exact (I3 Hr n0 k0 g0 I)]. injection I as <- <- <-.
        assert (Gp : pkt_get p n = Some x).
        { unfold pkt_get. rewrite Pn.
          assert (N1' : ~ In n (map fst (class_fields ds))) by (rewrite map_fst_class; exact N1).
          rewrite (pkt_init_other str_of float_of is_sub _ _ _ _ _ n N1' E).
          rewrite dget_dset_same. congruence. }
        revert HX. destruct (dget init n); intros HX; [exists x; auto|congruence]. }
    destruct (dget init n) as [x|] eqn:Ex.
    + destruct (set_data_spec str_of float_of is_sub k given _ x W (shaped_packet k given)) as [(v & A & Es)|[A Es]].
      * rewrite Es. apply (Key _ v); auto.
        intros y H. injection H as <-. eauto.
      * destruct (set_data str_of float_of is_sub (packet_field (init_field k given)) x) as [f' r'] eqn:Eq. cbn [snd] in Es. subst r'.
        split; [|split]; try congruence.
        split; [discriminate|]. intros H. destruct (H n k given x (or_introl eq_refl) Ex) as [v Av]. destruct (A v Av).
    + apply (Key _ PUnset); auto. discriminate.
Qed.
Print Assumptions C22_constructor_accepts_exactly.

(** Every value a UINT field of declared width up to 64 accepts can be encoded
    (struct.pack does not fail). *)
Theorem C22_accepted_uint_encodes :
  forall w z, 0 <= w <= 64 -> 0 <= z < 2 ^ w ->
    exists b, sc_enc (SUint (bits_attrs w)) (SvInt z) = Ok b.
Proof.
  intros w z Hw Hz.
  assert (M : forall n, (0 < n)%nat -> 2 ^ w - 1 < 256 ^ Z.of_nat n -> exists b, pack_u n z = Ok b).
  { intros n _ H. unfold pack_u. destruct (Z.leb_spec 0 z); [|lia].
    destruct (Z.ltb_spec z (256 ^ Z.of_nat n)); [|lia]. cbn [andb]. eauto. }
  cbn [sc_enc]. unfold int_width, eff_max, bits_attrs. cbn [at_max at_bits].
  unfold max_width.
  assert (P64 : 2 ^ w <= 2 ^ 64) by (apply Z.pow_le_mono_r; lia).
  destruct (Z.ltb_spec (2 ^ w - 1) (2 ^ 8)); [apply M; [lia|exact H]|].
  destruct (Z.ltb_spec (2 ^ w - 1) (2 ^ 16)); [apply M; [lia|exact H0]|].
  destruct (Z.ltb_spec (2 ^ w - 1) (2 ^ 32)); [apply M; [lia|exact H1]|].
  destruct (Z.ltb_spec (2 ^ w - 1) (2 ^ 64)); [apply M; [lia|exact H2]|]. lia.
Qed.
Print Assumptions C22_accepted_uint_encodes.

(** *** What is false *)
Definition no_str : pyobj -> pystr := fun _ => [].
Definition no_flt : pystr -> option Z := fun _ => None.
Definition no_sub : nat -> nat -> bool := Nat.eqb.
Definition u8 : field := init_field KUint [(ABits, 8)].
Definition i8 : field := init_field KInt [(ABits, 8)].

(** INT8 does not enforce the signed range: 200 and -1000 are accepted, and
    then cannot be encoded. *)
Theorem C22_int_signed_range_refuted :
  snd (set_data no_str no_flt no_sub (packet_field i8) (PInt 200)) = Ok tt /\
  snd (set_data no_str no_flt no_sub (packet_field i8) (PInt (-1000))) = Ok tt /\
  sc_enc (SInt (bits_attrs 8)) (SvInt 200) = Raise StructError /\
  sc_enc (SInt (bits_attrs 8)) (SvInt (-1000)) = Raise StructError.
Proof. vm_compute. auto. Qed.

(** A failed assignment is not without effect: the rejected value is stored.
    For every declaration and every state of the field, assigning an integer
    above the declared width leaves exactly that integer in the field. *)
Theorem C22_failed_assignment_stores_value_refuted :
  forall str_of float_of is_sub ds p n w z,
    NoDup (map fst ds) -> pkt_reach str_of float_of is_sub ds p ->
    In (n, (KUint, [(ABits, w)])) ds -> is_private n = false -> ~ (0 <= z < 2 ^ w) ->
    exists p', pkt_set str_of float_of is_sub p n (PInt z) = Some (p', Raise ValueError) /\
               pkt_get p' n = Some (PInt z).
Proof.
  intros str_of float_of is_sub ds p n w z Nd R I Pn Hz.
  destruct (C22_uint_width str_of float_of is_sub ds p n w z Nd R I Pn) as (p' & r & E & Hr & He & _).
  destruct (reach_inv str_of float_of is_sub ds p Nd R n _ _ I) as (f & G & S).
  assert (r = Raise ValueError) as -> by (apply He; intros X; apply Hz, Hr, X).
  exists p'. split; [exact E|].
  unfold pkt_set in E. rewrite Pn, G in E.
  assert (Ds : f_data (fst (set_data str_of float_of is_sub f (PInt z))) = PInt z).
  { destruct S as (Sk & _ & _). cbn [set_data]. unfold set_typed. rewrite Sk. cbn [py_int].
    destruct (z <? 0); reflexivity. }
  destruct (set_data str_of float_of is_sub f (PInt z)) as [f' r']. injection E as <- _.
  unfold pkt_get. rewrite Pn, dget_dset_same. cbn in Ds. congruence.
Qed.
Print Assumptions C22_failed_assignment_stores_value_refuted.

(** A declared field used directly (not through a packet) accepts 2^n. *)
Theorem C22_uncloned_field_accepts_overflow_refuted :
  snd (set_data no_str no_flt no_sub u8 (PInt 256)) = Ok tt /\
  snd (set_data no_str no_flt no_sub (packet_field u8) (PInt 256)) = Raise ValueError.
Proof. vm_compute. auto. Qed.

(** Re-declaring a width by calling a declared field keeps the old maximum:
    UINT8({Bits: 16}) still rejects 300. *)
Theorem C22_rewidened_field_keeps_limit_refuted :
  snd (set_data no_str no_flt no_sub (packet_field (call_field u8 [(ABits, 16)])) (PInt 300)) = Raise ValueError.
Proof. vm_compute. reflexivity. Qed.

(** *** Examples: the hypotheses are met *)
Definition ex_ds : decls :=
  (lit "f"%string, (KFloat, [(ABits, 32)])) ::
  [(lit "a"%string, (KUint, [(ABits, 8)])); (lit "b"%string, (KInt, [(AMin, -5); (AMax, 5)]));
   (lit "s"%string, (KString, [])); (lit "d"%string, (KBuffer, [(AOptional, 1)]))].
Definition ex_p : pkt := fst (pkt_init no_str no_flt no_sub (class_fields ex_ds) [(lit "a"%string, PInt 7)] []).
Example ex_nodup : NoDup (map fst ex_ds).
Proof. cbn. repeat constructor; cbn; intros H; repeat (destruct H as [H|H]; [discriminate|]); exact H. Qed.
Example ex_reach : exists p, pkt_reach no_str no_flt no_sub ex_ds p /\ pkt_get p (lit "a"%string) = Some (PInt 300)
                             /\ pkt_get p (lit "b"%string) = Some (PInt 5).
Proof.
  eexists. split; [|split].
  - apply pr_set with (n := lit "b"%string) (x := PStr (lit "5"%string)) (r := Ok tt)
      (p := fst (match pkt_set no_str no_flt no_sub ex_p (lit "a"%string) (PInt 300) with Some q => q | None => (ex_p, Ok tt) end));
      [|vm_compute; reflexivity].
    apply pr_set with (p := ex_p) (n := lit "a"%string) (x := PInt 300) (r := Raise ValueError); [|vm_compute; reflexivity].
    apply pr_init with (init := [(lit "a"%string, PInt 7)]). vm_compute. reflexivity.
  - vm_compute. reflexivity.
  - vm_compute. reflexivity.
Qed.
Example ex_declared : well_declared KInt [(AMin, -5); (AMax, 5)] /\ well_declared KBuffer [(AOptional, 1)].
Proof.
  split; (split; [|split]).
  - cbn. repeat constructor; cbn; intuition discriminate.
  - cbn. discriminate.
  - congruence.
  - cbn. repeat constructor; cbn; intuition discriminate.
  - cbn. discriminate.
  - cbn. auto.
Qed.

(** ** C23 *)

(** Once a list has been assigned, after any history of append, pop, indexed
    assignment and assignment of lists, with element values the element type
    accepts, every call returned what it returns on a plain list (IndexError
    included) and the contents are those of the plain list: iteration, len,
    indexing with any index, membership, comparison. *)
Theorem C23_list_field_is_a_list :
  forall str_of float_of is_sub obj_eq k given xs os vs rs,
    well_declared k given ->
    plain_run (accepts str_of float_of is_sub k given) [] (OAssign xs :: os) vs rs ->
    exists l, lrun str_of float_of is_sub (list_init (init_field k given)) (OAssign xs :: os) = (l, rs) /\
      list_data l = Some vs /\ list_iter l = vs /\ list_len l = zlen vs /\
      (forall i a y b, splits vs i a y b -> list_get l i = Ok y) /\
      (forall i, bad_index vs i -> list_get l i = Raise IndexError) /\
      (forall x, list_contains obj_eq l x = true <-> exists v, In v vs /\ py_eq obj_eq v x = true) /\
      (forall ys, list_eq obj_eq l ys = true <-> Forall2 (fun v y => py_eq obj_eq v y = true) vs ys).
Proof.
  intros str_of float_of is_sub obj_eq k given xs os vs rs W R. inversion R as [|? ? l' r ? ? rs0 H2 H4]; subst.
  assert (I0 : linv k given (list_init (init_field k given))) by (split; [reflexivity|constructor]).
  destruct (lstep_plain str_of float_of is_sub k given (list_init (init_field k given)) (OAssign xs) l' r W I0 H2)
    as (l1 & E & I1 & D & S). rewrite <- D in H4.
  destruct (lrun_plain str_of float_of is_sub k given os l1 vs rs0 W I1 H4 (S (or_intror (ex_intro _ xs eq_refl))))
    as (l2 & E2 & I2 & D2 & S2).
  exists l2. split; [cbn [lrun]; rewrite E, E2; reflexivity|].
  split; [unfold list_data; rewrite S2, D2; reflexivity|]. split; [exact D2|].
  split; [unfold list_len; rewrite <- D2; unfold list_iter; rewrite zlen_map; reflexivity|].
  assert (Zl : zlen (l_items l2) = zlen vs) by (rewrite <- D2; unfold list_iter; rewrite zlen_map; reflexivity).
  split; [|split; [|split]].
  - intros i a y b Sp. unfold list_get. rewrite Zl, (py_index_split _ _ _ _ _ Sp).
    destruct Sp as [Ev _]. rewrite Ev in D2. apply map_split in D2.
    destruct D2 as (a' & y' & b' & El & <- & <- & _). rewrite El, map_length, nth_error_mid. reflexivity.
  - intros i B. unfold list_get. rewrite Zl, (py_index_bad vs i B). reflexivity.
  - intros x. unfold list_contains. rewrite existsb_exists. rewrite <- D2. unfold list_iter. split.
    + intros (f & If & Ef). exists (f_data f). split; [apply in_map; exact If|exact Ef].
    + intros (v & Iv & Ev). apply in_map_iff in Iv. destruct Iv as (f & <- & If). eauto.
  - intros ys. unfold list_eq. rewrite D2. clear. revert ys. induction vs as [|v vs IH]; intros [|y ys]; cbn.
    + split; [constructor|reflexivity].
    + split; [discriminate|]. intros H; inversion H.
    + split; [discriminate|]. intros H; inversion H.
    + rewrite andb_true_iff, IH. split; [intros [? ?]; constructor; assumption|].
      intros H; inversion H; auto.
Qed.
Print Assumptions C23_list_field_is_a_list.

(** Assigning a list field to another list field of the same element type,
    itself in any state (failed operations included), succeeds and makes the
    contents compare equal, unless a NaN, which equals nothing, is among them. *)
Theorem C23_copy_from_list_field :
  forall str_of float_of is_sub obj_eq k given xs os vs rs os',
    well_declared k given -> (forall o, obj_eq o o = true) -> (forall b, In (PFloat b) vs -> ~ nan64 b) ->
    plain_run (accepts str_of float_of is_sub k given) [] (OAssign xs :: os) vs rs ->
    let src := fst (lrun str_of float_of is_sub (list_init (init_field k given)) (OAssign xs :: os)) in
    let dst := fst (lrun str_of float_of is_sub (list_init (init_field k given)) os') in
    exists d, list_copy_from str_of float_of is_sub obj_eq dst src = (d, Ok tt) /\
      list_data d <> None /\ list_eq obj_eq d vs = true.
Proof.
  intros str_of float_of is_sub obj_eq k given xs os vs rs os' W Oe NN R src dst.
  assert (Hv : Forall2 (accepts str_of float_of is_sub k given) vs vs).
  { eapply plain_run_stable; [|exact R]. constructor. }
  assert (Id : linv k given dst) by (apply lrun_inv; split; [reflexivity|constructor]).
  destruct (C23_list_field_is_a_list str_of float_of is_sub obj_eq k given xs os vs rs W R)
    as (l & El & Dl & Il & _). unfold src. rewrite El. cbn [fst].
  assert (Sl : l_set l = true) by (unfold list_data in Dl; destruct (l_set l); congruence).
  unfold list_copy_from. rewrite Sl. cbn [negb].
  assert (Refl : list_eq_vals obj_eq vs vs = true).
  { clear - Oe NN. induction vs as [|w ws IHw]; cbn [list_eq_vals]; [reflexivity|].
    rewrite IHw by (intros b Ib; apply NN; right; exact Ib). rewrite andb_true_r.
    destruct w; cbn [py_eq]; try reflexivity; unfold eqb; repeat (destruct (eq_dec _ _); try congruence); auto using Z.eqb_refl.
    - destruct b; reflexivity.
    - apply f64_eq_iff. specialize (NN b (or_introl eq_refl)). unfold equal_floats, finite64, nan64 in *.
      destruct (Z.lt_trichotomy (abs64 b) inf64) as [L|[L|L]]; tauto. }
  destruct (list_eq obj_eq dst (list_iter l)) eqn:Eq.
  - eexists. split; [reflexivity|]. rewrite Il in Eq. split; [cbn; discriminate|exact Eq].
  - destruct (extend_ok str_of float_of is_sub k given vs vs (list_clear dst) W) as (d & Ed & Id' & Dd); auto.
    { split; [apply Id|constructor]. }
    rewrite Il, Ed. eexists. split; [reflexivity|]. split; [cbn; discriminate|].
    unfold list_eq. cbn in Dd. unfold with_set, list_iter in *. cbn [l_items]. rewrite Dd. apply Refl.
Qed.
Print Assumptions C23_copy_from_list_field.

(** *** What is false *)
Definition lst8 : lfield := fst (list_assign no_str no_flt no_sub (list_init u8) [PInt 1; PInt 2]).

(** An append that raises leaves the rejected value in the list. *)
Theorem C23_failed_append_extends_list_refuted :
  let '(l, r) := list_append no_str no_flt no_sub lst8 (PInt 999) in
  r = Raise ValueError /\ list_data l = Some [PInt 1; PInt 2; PInt 999].
Proof. vm_compute. auto. Qed.
(** The same for values that are not numbers at all: an unset element stays. *)
Theorem C23_failed_append_leaves_unset_refuted :
  let '(l, r) := list_append no_str no_flt no_sub lst8 PNone in
  r = Raise ValueError /\ list_data l = Some [PInt 1; PInt 2; PUnset].
Proof. vm_compute. auto. Qed.
(** Assigning UNSET does not clear the list: a later append brings the old
    elements back. *)
Theorem C23_unset_does_not_clear_refuted :
  let l := list_unset lst8 in
  list_data l = None /\
  list_data (fst (list_append no_str no_flt no_sub l (PInt 3))) = Some [PInt 1; PInt 2; PInt 3].
Proof. vm_compute. auto. Qed.
(** Assigning a list field whose elements compare equal keeps the old element
    objects. *)
Theorem C23_assign_equal_keeps_old_objects_refuted :
  let objf := init_field (KObj 0) [] in
  let eqc := fun a b : nat * nat => Nat.eqb (fst a) (fst b) in
  let dst := fst (list_assign no_str no_flt no_sub (list_init objf) [PObj 0 1]) in
  let src := fst (list_assign no_str no_flt no_sub (list_init objf) [PObj 0 2]) in
  list_data (fst (list_copy_from no_str no_flt no_sub eqc dst src)) = Some [PObj 0 1].
Proof. vm_compute. reflexivity. Qed.

(** A list with a NaN is not equal to itself once copied, and assigning -0.0 over
    0.0 keeps 0.0. *)
Definition nan_bits : Z := 0x7ff8000000000000.
Theorem C23_nan_copy_unequal_refuted :
  let eqc := fun _ _ : nat * nat => true in
  let src := fst (list_assign no_str no_flt no_sub (list_init (init_field KFloat [])) [PFloat nan_bits]) in
  let '(d, r) := list_copy_from no_str no_flt no_sub eqc (list_init (init_field KFloat [])) src in
  r = Ok tt /\ list_eq eqc d (list_iter src) = false.
Proof. vm_compute. auto. Qed.
Theorem C23_negative_zero_lost_refuted :
  let eqc := fun _ _ : nat * nat => true in
  let dst := fst (list_assign no_str no_flt no_sub (list_init (init_field KFloat [])) [PFloat 0]) in
  let src := fst (list_assign no_str no_flt no_sub (list_init (init_field KFloat [])) [PFloat (2 ^ 63)]) in
  list_data (fst (list_copy_from no_str no_flt no_sub eqc dst src)) = Some [PFloat 0].
Proof. vm_compute. reflexivity. Qed.

(** *** Example: a history that meets the hypotheses of C23 *)
Example ex_u8_acc : forall z, 0 <= z < 256 -> accepts no_str no_flt no_sub KUint [(ABits, 8)] (PInt z) (PInt z).
Proof.
  intros z H. apply acc_num; auto; [discriminate|constructor|]. unfold declared_range. cbn.
  repeat split; try discriminate; try lia. intros n E. injection E as <-. change (2 ^ 8) with 256. lia.
Qed.
Example ex_history :
  plain_run (accepts no_str no_flt no_sub KUint [(ABits, 8)]) []
    [OAssign [PInt 5; PInt 6]; OAppend (PInt 7); OPop (-2); OSet 0 (PInt 9); OPop 17]
    [PInt 9; PInt 7] [Ok tt; Ok tt; Ok tt; Ok tt; Raise IndexError].
Proof.
  econstructor; [apply pl_assign with (vs := [PInt 5; PInt 6]); apply Forall2_cons; [apply ex_u8_acc; lia|apply Forall2_cons; [apply ex_u8_acc; lia|apply Forall2_nil]]|].
  econstructor; [apply pl_append, ex_u8_acc; lia|].
  econstructor; [apply pl_pop with (a := [PInt 5]) (y := PInt 6) (b := [PInt 7]); split; [reflexivity|right; reflexivity]|].
  econstructor; [apply pl_set with (a := []) (y := PInt 5) (b := [PInt 7]); [split; [reflexivity|left; reflexivity]|apply ex_u8_acc; lia]|].
  econstructor; [apply pl_pop_bad; right; cbn; unfold zlen; cbn; lia|].
  constructor.
Qed.
