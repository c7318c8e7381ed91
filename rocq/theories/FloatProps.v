(** * C56: float fields *)
From Coq Require Import String.
From Coq Require Import List ZArith Bool Lia.
From Verif Require Import PyBase PyLemmas FloatModel FloatSpec FloatProofs PacketModel PacketSpec PacketRound FieldModel FieldSpec FieldProofs FieldProps.
Import ListNotations.
Open Scope Z_scope.

(** the value field [a] holds is encoded, and what the same field decodes from
    the bytes *)
Definition send (a : attrs) (b : Z) : res bytes := sc_enc (SFloat a) (SvFloat b).
Definition receive (a : attrs) (bs : bytes) : res sval := sc_dec (SFloat a) bs.

(** A 64-bit field writes the eight bytes of the double and reads back the same
    float, NaN payloads and the sign of zero included; a value outside the limits
    the receiver declares is a ValueError. *)
Theorem C56_double_exact :
  forall a b, declared_bits a = 64 -> is_double b ->
    exists bs, send a b = Ok bs /\ length bs = 8%nat /\ be_dec bs = b /\
    forall a', declared_bits a' = 64 ->
      (satisfies_f a' b -> receive a' bs = Ok (SvFloat b)) /\
      (~ satisfies_f a' b -> receive a' bs = Raise ValueError).
Proof.
  intros a b A D. exists (be_enc 8 b). unfold send, receive. cbn [sc_enc sc_dec]. unfold float_width, declared_bits in *. rewrite A.
  cbn [Z.eqb Pos.eqb bind Nat.eqb]. rewrite be_dec_enc by exact D. split; [reflexivity|]. split; [apply be_enc_length|].
  split; [reflexivity|]. intros a' ->. cbn [Z.eqb Pos.eqb bind Nat.eqb]. rewrite <- validate_f_iff.
  destruct (validate_f a' b); split; congruence.
Qed.
Print Assumptions C56_double_exact.

(** A 32-bit field (the default) writes the single nearest to a finite value, the
    even one of two equally near; if the value is half way to the next power of
    two beyond the largest single, or more, it raises OverflowError, and only
    then. *)
Theorem C56_single_nearest :
  forall a b, declared_bits a = 32 -> is_double b -> finite64 b ->
    (Z.abs (val64 b) < overflow32 -> exists bs, send a b = Ok bs /\ length bs = 4%nat /\ nearest_single b (be_dec bs)) /\
    (overflow32 <= Z.abs (val64 b) -> send a b = Raise OverflowError).
Proof.
  intros a b A D F. unfold send. cbn [sc_enc]. unfold float_width, declared_bits in *. rewrite A.
  cbn [Z.eqb Pos.eqb bind Nat.eqb]. destruct (to_single_overflow b F) as (O1 & O2). split.
  - intros L. destruct (to_single b) as [c|e] eqn:E.
    + pose proof (to_single_nearest b c D F E) as N. exists (be_enc 4 c). cbn [bind]. split; [reflexivity|].
      split; [apply be_enc_length|]. destruct N as (S & R). rewrite be_dec_enc by exact S. now split.
    + exfalso. specialize (O2 e eq_refl). subst e. assert (overflow32 <= Z.abs (val64 b)) by now apply O1. lia.
  - intros L. apply O1 in L. rewrite L. reflexivity.
Qed.
Print Assumptions C56_single_nearest.

(** What a 32-bit field reads from any four bytes is exactly the single they are:
    the same number, infinity or quiet NaN. *)
Theorem C56_single_decodes_exactly :
  forall a bs, declared_bits a = 32 -> bytes_ok bs -> length bs = 4%nat ->
    exists b, same_float b (be_dec bs) /\
      (satisfies_f a b -> receive a bs = Ok (SvFloat b)) /\
      (~ satisfies_f a b -> receive a bs = Raise ValueError).
Proof.
  intros a bs A B L. pose proof (be_dec_range bs B) as R. unfold zlen in R. rewrite L in R. change (256 ^ Z.of_nat 4) with (2 ^ 32) in R.
  exists (to_double (be_dec bs)). split; [now apply to_double_same|]. unfold receive. cbn [sc_dec].
  unfold float_width, declared_bits in *. rewrite A. cbn [Z.eqb Pos.eqb bind Nat.eqb]. rewrite <- validate_f_iff.
  destruct (validate_f a _); split; congruence.
Qed.
Print Assumptions C56_single_decodes_exactly.

(** So a value goes through a 32-bit field unchanged exactly if it is a single:
    then the receiver has the same float, otherwise another number (or none). *)
Theorem C56_single_round_trip_iff :
  forall a b, declared_bits a = 32 -> is_double b -> finite64 b -> satisfies_f a b ->
    ((exists bs, send a b = Ok bs /\ receive a bs = Ok (SvFloat b)) <-> exact_single b).
Proof.
  intros a b A D F Sat. unfold send, receive. cbn [sc_enc sc_dec]. unfold float_width, declared_bits in *. rewrite A.
  cbn [Z.eqb Pos.eqb bind Nat.eqb]. split.
  - intros (bs & E & R). destruct (to_single b) as [c|e] eqn:T; [|discriminate]. cbn [bind] in E. apply Ok_inj in E. subst bs.
    pose proof (to_single_nearest b c D F T) as (S & _). rewrite be_dec_enc in R by exact S.
    destruct (validate_f a (to_double c)); [|discriminate]. apply Ok_inj in R. assert (E : to_double c = b) by congruence.
    rewrite <- E. now apply to_double_exact.
  - intros X. destruct (exact_round b X) as (c & T1 & S & T2). exists (be_enc 4 c). rewrite T1. cbn [bind]. split; [reflexivity|].
    rewrite be_dec_enc by exact S. rewrite T2. apply validate_f_iff in Sat. now rewrite Sat.
Qed.
Print Assumptions C56_single_round_trip_iff.

(** Infinities and NaNs pass a 32-bit field that declares no limits *)
Theorem C56_single_specials :
  forall b, is_double b -> ~ finite64 b ->
    exists bs b', send no_attrs b = Ok bs /\ length bs = 4%nat /\ receive no_attrs bs = Ok (SvFloat b') /\
      neg64 b' = neg64 b /\ (abs64 b = inf64 -> b' = b) /\ (nan64 b -> nan64 b').
Proof.
  intros b D NF. unfold send, receive. cbn [sc_enc sc_dec]. change (float_width no_attrs) with (@Ok nat 4%nat). cbn [bind Nat.eqb].
  pose proof (proj2 (exp2047 b) NF) as E. pose proof (abs64_range b) as R. unfold finite64 in NF.
  assert (X : exists c, to_single b = Ok c /\ is_single c /\ neg32 c = neg64 b /\ (abs64 b = inf64 -> abs32 c = inf32) /\ (nan64 b -> nan32 c)).
  { unfold to_single. rewrite E, Z.eqb_refl, f64_neg_b, f64_man_abs. destruct (Z.eqb_spec (abs64 b mod 2 ^ 52) 0) as [M|M].
    - destruct (mk32 (neg64 b) (255 * 2 ^ 23) ltac:(lia)) as (S & Sn & Sa). rewrite Z.add_0_r. eexists. split; [reflexivity|].
      split; [exact S|]. split; [exact Sn|]. split; [auto|]. unfold nan64. intros N. exfalso.
      rewrite <- f64_man_abs in M. apply (man0 b ltac:(unfold finite64; lia)) in M. lia.
    - set (f := abs64 b mod 2 ^ 52) in *. assert (Hf : 0 <= f < 2 ^ 52) by (apply Z.mod_pos_bound; reflexivity).
      assert (Hg : 0 <= f / 2 ^ 29 < 2 ^ 23) by (split; [apply Z.div_pos; lia|apply Z.div_lt_upper_bound; lia]).
      pose proof (lor_range 23 22 _ ltac:(lia) Hg) as LR. set (g := Z.lor (2 ^ 22) (f / 2 ^ 29)) in *.
      destruct (mk32 (neg64 b) (255 * 2 ^ 23 + g) ltac:(lia)) as (S & Sn & Sa). rewrite <- Z.add_assoc. eexists. split; [reflexivity|].
      split; [exact S|]. split; [exact Sn|]. unfold nan32. rewrite Sa. split; [|unfold inf32; lia].
      intros I. exfalso. apply M. unfold f. rewrite I. reflexivity. }
  destruct X as (c & T & S & Sn & Si & Sq). rewrite T. cbn [bind]. exists (be_enc 4 c), (to_double c). split; [reflexivity|].
  split; [apply be_enc_length|]. rewrite be_dec_enc by exact S. split; [reflexivity|].
  pose proof (to_double_same c S) as (Dd & _ & Dn & Dv). split; [congruence|]. split.
  - intros I. apply double_ext; auto; [congruence|]. specialize (Si I).
    destruct Dv as [(_ & G & _)|[(J & _)|(G & _)]]; [unfold finite32 in G; lia|congruence|unfold nan32 in G; lia].
  - intros N. specialize (Sq N). unfold nan32, finite32 in *. unfold nan64. destruct Dv as [(_ & G & _)|[(_ & J)|(_ & ->)]]; try lia.
    assert (Hx : 0 <= (abs32 c - inf32) * 2 ^ 29 < 2 ^ 52) by (pose proof (abs32_range c); unfold inf32 in *; lia).
    pose proof (lor_range 52 51 _ ltac:(lia) Hx) as LR. lia.
Qed.
Print Assumptions C56_single_specials.

(** Only 32 and 64 can be encoded: any other width fails for every value *)
Theorem C56_other_widths_fail :
  forall a b, declared_bits a <> 32 -> declared_bits a <> 64 -> send a b = Raise KeyError.
Proof.
  intros a b N1 N2. unfold send. cbn [sc_enc]. unfold float_width, declared_bits in *.
  destruct (Z.eqb_spec (match at_bits a with Some n => n | None => 32 end) 32); [congruence|].
  destruct (Z.eqb_spec (match at_bits a with Some n => n | None => 32 end) 64); [congruence|]. reflexivity.
Qed.
Print Assumptions C56_other_widths_fail.

(** Assigning a float to a field declared with width [w] (FLOAT32, FLOAT64): the
    width limits the value, not the precision.  Exactly the floats up to 2^w - 1
    are taken, and stored unrounded; NaN and +infinity are refused; there is no
    lower limit. *)
Theorem C56_assignment :
  forall str_of float_of is_sub ds p n w b,
    NoDup (map fst ds) -> pkt_reach str_of float_of is_sub ds p ->
    In (n, (KFloat, [(ABits, w)])) ds -> is_private n = false ->
    exists p' r, pkt_set str_of float_of is_sub p n (PFloat b) = Some (p', r) /\
      (r = Ok tt <-> at_most b (2 ^ w - 1)) /\ (r <> Ok tt -> r = Raise ValueError) /\
      (r = Ok tt -> pkt_get p' n = Some (PFloat b)).
Proof.
  intros str_of float_of is_sub ds p n w b Nd R I Pn.
  assert (W : well_declared KFloat [(ABits, w)]).
  { split; [|split].
    - cbn. constructor; [intros []|constructor].
    - cbn. discriminate.
    - congruence. }
  assert (Dr : declared_range_f [(ABits, w)] b <-> at_most b (2 ^ w - 1)).
  { unfold declared_range_f. cbn [dget]. destruct (eq_dec AMax ABits); [discriminate|].
    destruct (eq_dec AMin ABits); [discriminate|]. destruct (eq_dec ABits ABits); [|congruence].
    split; [intros (_ & _ & H); auto|]. intros H. repeat split; try discriminate. intros m E _. injection E as <-. exact H. }
  destruct (C22_assignment_accepts_exactly str_of float_of is_sub ds p n _ _ (PFloat b) Nd R I Pn W)
    as (p' & r & E & [(v & A & -> & G)|[A ->]] & _); exists p'.
  - exists (Ok tt). split; [exact E|].
    assert (X : at_most b (2 ^ w - 1) /\ v = PFloat b).
    { inversion A as [|? ? K|? ? K Rf Df|? ? K|? K|? K|? K|? ? ? K]; subst; try discriminate.
      - destruct K; discriminate.
      - inversion Rf; subst. split; [exact (proj1 Dr Df)|reflexivity]. }
    destruct X as (X & ->). split; [tauto|]. split; [congruence|auto].
  - exists (Raise ValueError). split; [exact E|]. split; [|split; [auto|discriminate]]. split; [discriminate|].
    intros H. exfalso. apply (A (PFloat b)). apply acc_float; [reflexivity|constructor|]. exact (proj2 Dr H).
Qed.
Print Assumptions C56_assignment.

(** An integer assigned to a float field becomes the nearest double. *)
Theorem C56_assign_integer :
  forall str_of float_of is_sub ds p n z,
    NoDup (map fst ds) -> pkt_reach str_of float_of is_sub ds p ->
    In (n, (KFloat, [])) ds -> is_private n = false ->
    exists p' r, pkt_set str_of float_of is_sub p n (PInt z) = Some (p', r) /\
      (Z.abs z < overflow64 -> r = Ok tt /\ exists b, pkt_get p' n = Some (PFloat b) /\ nearest_double z b) /\
      (overflow64 <= Z.abs z -> r = Raise ValueError /\ pkt_get p' n = pkt_get p n).
Proof.
  intros str_of float_of is_sub ds p n z Nd R I Pn.
  destruct (reach_inv str_of float_of is_sub ds p Nd R n _ _ I) as (f & G & (Sk & Sa & Sv)).
  unfold pkt_set. rewrite Pn, G. cbn [set_data]. unfold set_typed. rewrite Sk. cbn [py_float].
  destruct (int_to_double_overflow z) as (O1 & O2). destruct (int_to_double z) as [b|e] eqn:E.
  - do 2 eexists. split; [reflexivity|]. split.
    + intros _. cbn [with_data f_vals f_attrs f_data]. rewrite Sv. split; [reflexivity|]. exists b.
      unfold pkt_get. rewrite Pn, dget_dset_same. split; [reflexivity|now apply int_to_double_nearest].
    + intros L. apply O1 in L. discriminate.
  - do 2 eexists. split; [reflexivity|]. split.
    + intros L. specialize (O2 e eq_refl). subst e. assert (overflow64 <= Z.abs z) by now apply O1. lia.
    + intros _. split; [reflexivity|]. unfold pkt_get. rewrite Pn, dget_dset_same, G. reflexivity.
Qed.
Print Assumptions C56_assign_integer.

(** *** What is false *)
(** "FLOAT32 holds every single": the largest single, +infinity and NaN are
    refused, 2^32 already is; "an accepted value can be encoded": -2^200 is taken
    and cannot; "what is read back is what was assigned": 0.1 is changed. *)
Definition f32 : attrs := bits_attrs 32.
Definition f_pow32 : Z := 0x41f0000000000000.
Definition f_max_single : Z := 0x47efffffe0000000.
Definition f_neg_2_200 : Z := 0xcc70000000000000.
Definition f_tenth : Z := 0x3fb999999999999a.
Theorem C56_float32_refuses_singles_refuted :
  let fld := packet_field (init_field KFloat [(ABits, 32)]) in
  val64 f_pow32 = 2 ^ 32 * 2 ^ 1074 /\ exact_single f_pow32 /\ exact_single f_max_single /\
  map (fun b => snd (set_data no_str no_flt no_sub fld (PFloat b))) [f_pow32; f_max_single; inf64; nan_bits]
  = [Raise ValueError; Raise ValueError; Raise ValueError; Raise ValueError].
Proof.
  split; [vm_compute; reflexivity|]. split; [|split; [|vm_compute; reflexivity]].
  - exists 0x4f800000. split; [|intros N; vm_compute in N; discriminate N].
    split; [split; [discriminate|reflexivity]|]. split; [split; [discriminate|reflexivity]|]. split; [reflexivity|].
    left. split; [reflexivity|]. split; [reflexivity|]. vm_compute. reflexivity.
  - exists 0x7f7fffff. split; [|intros N; vm_compute in N; discriminate N].
    split; [split; [discriminate|reflexivity]|]. split; [split; [discriminate|reflexivity]|]. split; [reflexivity|].
    left. split; [reflexivity|]. split; [reflexivity|]. vm_compute. reflexivity.
Qed.
Theorem C56_accepted_not_encodable_refuted :
  snd (set_data no_str no_flt no_sub (packet_field (init_field KFloat [(ABits, 32)])) (PFloat f_neg_2_200)) = Ok tt /\
  val64 f_neg_2_200 = - 2 ^ 200 * 2 ^ 1074 /\
  send f32 f_neg_2_200 = Raise OverflowError.
Proof. vm_compute. auto. Qed.
Theorem C56_value_kept_refuted :
  exists bs b', send f32 f_tenth = Ok bs /\ receive f32 bs = Ok (SvFloat b') /\ b' <> f_tenth /\ bs = [0x3d; 0xcc; 0xcc; 0xcd].
Proof. exists [0x3d; 0xcc; 0xcc; 0xcd], 0x3fb99999a0000000. split; [|split; [|split; [discriminate|reflexivity]]]; vm_compute; reflexivity. Qed.
(** *** Examples: the hypotheses are met *)
Example C56_ex_field : declared_bits f32 = 32 /\ declared_bits no_attrs = 32 /\ declared_bits (bits_attrs 64) = 64 /\
  is_double f_tenth /\ finite64 f_tenth /\ Z.abs (val64 f_tenth) < overflow32 /\ satisfies_f f32 f_tenth.
Proof.
  repeat split; try reflexivity; try discriminate; intros; try discriminate.
  - left. split; [reflexivity|]. injection H as <-. vm_compute. discriminate.
  - left. split; [reflexivity|]. injection H as <-. vm_compute. discriminate.
Qed.
(** a tie: 2^24 + 1 goes to the even neighbour 2^24 *)
Example C56_ex_tie : int_to_double (2 ^ 24 + 1) = Ok 0x4170000010000000 /\ send no_attrs 0x4170000010000000 = Ok [0x4b; 0x80; 0; 0] /\
  int_to_double (2 ^ 53 + 1) = int_to_double (2 ^ 53).
Proof. vm_compute. auto. Qed.
(** subnormal singles: 2^-149 and half of it *)
Example C56_ex_subnormal : send no_attrs (874 * 2 ^ 52) = Ok [0; 0; 0; 1] /\ send no_attrs (873 * 2 ^ 52) = Ok [0; 0; 0; 0] /\
  send no_attrs (873 * 2 ^ 52 + 1) = Ok [0; 0; 0; 1] /\ receive no_attrs [0; 0; 0; 1] = Ok (SvFloat (874 * 2 ^ 52)).
Proof. vm_compute. auto. Qed.
Example C56_ex_reach : exists p, pkt_reach no_str no_flt no_sub ex_ds p /\ In (lit "f"%string, (KFloat, [(ABits, 32)])) ex_ds /\
  pkt_get p (lit "f"%string) = Some (PFloat f_tenth).
Proof.
  eexists. split; [|split; [left; reflexivity|]].
  - apply pr_init with (init := [(lit "f"%string, PFloat f_tenth)]). vm_compute. reflexivity.
  - vm_compute. reflexivity.
Qed.
(** a packet with float fields that meets the hypotheses of the round-trip
    theorem C15_packet_roundtrip *)
Definition fl_env : env :=
  Env (fun c => PCls (lit "a.F") (lit "1.0")
        [ (lit "x", FAttr false None, TScalar (SFloat (bits_attrs 64))); (lit "y", FAttr false None, TScalar (SFloat no_attrs)) ])
      (fun base name ver => Ok (Some 1%nat)) (fun c base => true).
Definition fl_packet : val := VPacket 1 [Some (VScalar (SvFloat f_tenth)); Some (VScalar (SvFloat (1023 * 2 ^ 52)))].
Example C56_ex_packet : encodable fl_env (fl_packet, TPacket 0) /\ complete fl_env (fl_packet, TPacket 0).
Proof.
  assert (W : forall P : part -> Prop, P (fl_packet, TPacket 0) ->
    P (VScalar (SvFloat f_tenth), TScalar (SFloat (bits_attrs 64))) -> P (VScalar (SvFloat (1023 * 2 ^ 52)), TScalar (SFloat no_attrs)) ->
    forall y, inside fl_env y (fl_packet, TPacket 0) -> P y).
  { intros P P0 P1 P2 y Iy. inversion Iy as [|? z Hz Hq]; subst; [exact P0|].
    destruct Hz as [<-|[<-|[]]]; (inversion Hq as [|? z' Hz' _]; subst; [assumption|destruct Hz']). }
  unfold encodable, complete. split; [apply (W (part_ok fl_env))|apply (W (part_complete fl_env))]; cbn [part_ok part_complete fst snd scalar_ok fl_packet required_set]; try exact I.
  - refine (conj _ (conj _ _)); [| |vm_compute; reflexivity].
    + unfold class_ok. split; [eexists; split; [reflexivity|cbn; lia]|]. split; [do 2 eexists; split; [reflexivity|split; [cbn; lia|split; reflexivity]]|reflexivity].
    + unfold fields_ok. split; [reflexivity|]. split; [vm_compute; reflexivity|]. exists [0; 1]. split; [apply PacketTags.process_fields_iff; vm_compute; reflexivity|].
      repeat constructor; lia.
  - split; [split; [discriminate|reflexivity]|]. split; [apply validate_f_iff; vm_compute; reflexivity|right; reflexivity].
  - split; [split; [discriminate|reflexivity]|]. split; [apply validate_f_iff; vm_compute; reflexivity|left]. split; [reflexivity|].
    exists (127 * 2 ^ 23). split; [|intros N; vm_compute in N; discriminate N].
    split; [split; [discriminate|reflexivity]|]. split; [split; [discriminate|reflexivity]|]. split; [reflexivity|].
    left. split; [reflexivity|]. split; [reflexivity|]. vm_compute. reflexivity.
  - repeat split; discriminate.
Qed.
