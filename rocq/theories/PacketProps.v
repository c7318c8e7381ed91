(** * C15-C21, C44, C45: packets on the wire *)
From Coq Require Import String.
From Coq Require Import List ZArith Bool Lia.
From Verif Require Import PyBase PyLemmas Utf8Model Utf8Proofs StreamModel StreamProofs AddrModel PacketModel PacketSpec PacketTags PacketExec PacketRound PacketDeser PacketProgress PacketUnset.
Import ListNotations.
Open Scope Z_scope.

(** ** A concrete setting for the examples: a base class 0 and the packet
    classes 1 "a.Msg" 1.0 and 2 "a.Box" 2.5, registered for base 0. *)
Definition msg_fields : list (pystr * fattr * fty) :=
  [ (lit "id", FAttr false None, TScalar (SUint no_attrs));
    (lit "small", FAttr false (Some 0x64), TScalar (SInt (bits_attrs 7)));
    (lit "text", FAttr true None, TString);
    (lit "blob", FAttr true None, TBuffer);
    (lit "nums", FAttr true None, TList (TScalar (SUint (bits_attrs 16))));
    (lit "sub", FAttr true None, TFields [(lit "flag", FAttr false None, TScalar SBool); (lit "s", FAttr true None, TString)]) ].
Definition box_fields : list (pystr * fattr * fty) :=
  [ (lit "inner", FAttr true None, TPacket 0); (lit "after", FAttr true None, TString) ].
Definition ex_env : env :=
  Env (fun c => match c with
                | 1%nat => PCls (lit "a.Msg") (lit "1.0") msg_fields
                | 2%nat => PCls (lit "a.Box") (lit "2.5") box_fields
                | _ => PCls (lit "") (lit "0.0") []
                end)
      (fun base name ver =>
         if eqb name (lit "a.Msg") && ((v_major ver =? 1) && (v_minor ver =? 0)) then Ok (Some 1%nat)
         else if eqb name (lit "a.Box") && ((v_major ver =? 2) && (v_minor ver =? 5)) then Ok (Some 2%nat)
         else Ok None)
      (fun c base => true).
Definition ex_msg : val :=
  VPacket 1 [Some (VScalar (SvInt 70000)); Some (VScalar (SvInt (-3))); Some (VStr (lit "hi there")); Some (VBuf [0; 255; 7]);
             Some (VList [Some (VScalar (SvInt 1)); Some (VScalar (SvInt 65535))]); Some (VFields [Some (VScalar (SvBool true)); None])].
Definition ex_box : val := VPacket 2 [Some ex_msg; Some (VStr (lit "short tail"))].
Definition ex_min : val := VPacket 1 [Some (VScalar (SvInt 0)); Some (VScalar (SvInt 127)); None; None; None; None].

Lemma inside_node E (P : part -> Prop) x : P x -> (forall z, In z (children E x) -> forall y, inside E y z -> P y) -> forall y, inside E y x -> P y.
Proof. intros H C y I. inversion I as [|? z Hz Hq]; subst; [exact H|exact (C z Hz y Hq)]. Qed.
Ltac inn H := repeat (destruct H as [H|H]; [subst|]); try (now destruct H).
Ltac exp := cbn [children fst snd set_fields set_items ex_env e_cls c_fields msg_fields box_fields ex_msg ex_min ex_box].
Ltac walk tac := refine (inside_node _ _ _ _ _); [exp; tac|exp; let z := fresh "z" in let Hz := fresh "Hz" in intros z Hz; cbn [In] in Hz; inn Hz; walk tac].
Ltac okay := cbn [part_ok fst snd scalar_ok];
  match goal with
  | |- satisfies _ _ /\ _ => split; [apply validate_iff; reflexivity|eexists; split; [apply int_width_inv; reflexivity|cbn; lia]]
  | |- True => exact I
  | |- is_ascii _ /\ _ => split; [repeat (apply Forall_cons; [cbn; lia|]); apply Forall_nil|cbn; lia]
  | |- bytes_ok _ /\ _ => split; [repeat (apply Forall_cons; [unfold byte_ok; lia|]); apply Forall_nil|cbn; lia]
  | |- zlen _ < _ => cbn; lia
  | |- class_ok _ _ _ /\ _ => split; [split; [eexists; split; [reflexivity|cbn; lia]|split; [do 2 eexists; split; [reflexivity|split; [cbn; lia|split; reflexivity]]|reflexivity]]|split; [okay|vm_compute; reflexivity]]
  | |- fields_ok _ _ => split; [reflexivity|split; [vm_compute; reflexivity|eexists; split; [apply process_fields_iff; vm_compute; reflexivity|repeat (apply Forall_cons; [lia|]); apply Forall_nil]]]
  end.
Lemma fit_by E x B : (forall y, inside E y x -> (forall n, piece E (fst y) n -> n <= B) /\ (is_packet (fst y) -> B <= wire_size E (fst y) (snd y))) -> pieces_fit E x.
Proof. intros H y n q Iy Py Iq Pq. pose proof (proj1 (H y Iy) n Py). pose proof (proj2 (H q Iq) Pq). lia. Qed.
Ltac fit1 := let Hp := fresh in intros ? Hp; try (now destruct Hp); try (destruct Hp as [Hp|Hp]); subst; vm_compute; discriminate.
Ltac fit2 := let Hp := fresh in intro Hp; try (now destruct Hp); vm_compute; discriminate.
Ltac fitb := cbn [piece fst snd is_packet]; split; [fit1|fit2].
Ltac complete_tac := cbn [part_complete fst snd required_set];
  first [exact I | (let H := fresh in intro H; cbn [In] in H; inn H; discriminate) | repeat split; intro; first [reflexivity|discriminate]].
Ltac deep := first [apply dl_packet; [exact I|deep2] | apply dl_other; [cbn; tauto|deep2]]
with deep2 := exp; let z := fresh "z" in let Hz := fresh "Hz" in intros z Hz; cbn [In] in Hz; inn Hz; deep.
Lemma ex_box_ok : sendable ex_env 2 0 ex_box.
Proof.
  unfold sendable, encodable, complete, ex_box, ex_msg. split; [walk okay|]. split; [walk complete_tac|]. split; [deep|].
  apply (fit_by _ _ 60). walk fitb.
Qed.
Lemma ex_msg_ok : sendable ex_env 1 0 ex_msg.
Proof.
  unfold sendable, encodable, complete, ex_msg. split; [walk okay|]. split; [walk complete_tac|]. split; [deep|].
  apply (fit_by _ _ 30). walk fitb.
Qed.
Lemma ex_min_ok : sendable ex_env 1 0 ex_min.
Proof.
  unfold sendable, encodable, complete, ex_min. split; [walk okay|]. split; [walk complete_tac|]. split; [deep|].
  apply (fit_by _ _ 20). walk fitb.
Qed.

(** ** C15: round trip *)

(** Every sendable packet (PacketSpec: values encodable, no required field
    unset, nested at most [depth] deep, and no string, buffer or identifier
    longer than a nested packet) encodes, to [wire_size] bytes, and decoding
    those bytes, followed by any others, gives the same packet in every field
    and leaves the stream exactly behind them. *)
Theorem C15_packet_roundtrip :
  forall (E : env) (depth base : nat) (p : val), sendable E depth base p ->
  exists bs, serialize E p = Ok bs /\ zlen bs = wire_size E p (TPacket base) /\
    deserialize E depth base bs = Some (Ok p) /\
    forall rest, exists s', exec (dec_packet E depth base) (St (bio_new (bs ++ rest)) 0) = Finished p s' /\
      s_bio s' = Bio (bs ++ rest) (zlen bs).
Proof. exact roundtrip. Qed.
Print Assumptions C15_packet_roundtrip.

(** For packets without nested packets the length condition is not needed. *)
Theorem C15_flat_packet_roundtrip :
  forall (E : env) (depth base c : nat) (vs : list (option val)), let p := VPacket c vs in
  encodable E (p, TPacket base) -> complete E (p, TPacket base) -> flat E (p, TPacket base) -> (0 < depth)%nat ->
  exists bs, serialize E p = Ok bs /\ zlen bs = wire_size E p (TPacket base) /\ deserialize E depth base bs = Some (Ok p).
Proof.
  intros E depth base c vs p En Co Fl Dp.
  assert (S : sendable E depth base p).
  { split; [exact En|]. split; [exact Co|]. split; [|apply flat_fits; [exact En|exact Fl|exact I]].
    destruct depth as [|d]; [lia|]. apply dl_packet; [exact I|]. intros y Hy.
    assert (Q : forall v t, (forall x, inside E x (v, t) -> ~ is_packet (fst x)) -> depth_le E d (v, t)).
    { clear. intros v. induction v as [x|s|b|l IH|l IH|c l IH] using val_ind2; intros t N;
        (apply dl_other; [exact (N _ (in_self E _))|]); intros [z tz] Hz.
      1-3: destruct t; destruct Hz.
      - assert (Hv : In (Some z) l) by (destruct t; try destruct Hz; apply (set_items_in _ _ _ Hz)).
        apply (optP_in _ _ _ IH Hv). intros x Ix. apply N. econstructor; eauto.
      - assert (Hv : In (Some z) l) by (destruct t; try destruct Hz; apply (set_fields_in _ _ _ Hz)).
        apply (optP_in _ _ _ IH Hv). intros x Ix. apply N. econstructor; eauto.
      - exfalso. exact (N _ (in_self E _) I). }
    destruct y as [v t]. apply Q. intros x Ix. exact (Fl _ _ Hy Ix). }
  destruct (roundtrip E depth base p S) as (bs & A & B & C & _). exists bs. auto.
Qed.
Print Assumptions C15_flat_packet_roundtrip.

(** Different packets have different encodings, and none is a proper prefix of
    another. *)
Theorem C15_encoding_prefix_free :
  forall (E : env) (depth base : nat) (p q : val) (b r : bytes), sendable E depth base p -> sendable E depth base q ->
  serialize E p = Ok b -> serialize E q = Ok (b ++ r) -> p = q /\ r = [].
Proof.
  intros E depth base p q b r Sp Sq Eb Ec.
  destruct (roundtrip E depth base p Sp) as (b1 & E1 & _ & _ & R1). rewrite Eb in E1. apply Ok_inj in E1. subst b1.
  destruct (roundtrip E depth base q Sq) as (b2 & E2 & _ & _ & R2). rewrite Ec in E2. apply Ok_inj in E2. subst b2.
  destruct (R1 r) as (s1 & X1 & Y1). destruct (R2 []) as (s2 & X2 & Y2). rewrite app_nil_r in X2, Y2. rewrite X1 in X2.
  injection X2 as -> ->. split; [reflexivity|]. rewrite Y1 in Y2. injection Y2 as Z. rewrite zlen_app in Z.
  destruct r; [reflexivity|]. rewrite zlen_cons in Z. pose proof (zlen_nonneg r). lia.
Qed.
Print Assumptions C15_encoding_prefix_free.

Example ex_roundtrip : sendable ex_env 2 0 ex_box /\ sendable ex_env 1 0 ex_msg /\ sendable ex_env 1 0 ex_min /\
  match serialize ex_env ex_box with Ok bs => zlen bs = wire_size ex_env ex_box (TPacket 0) /\ deserialize ex_env 2 0 bs = Some (Ok ex_box) | Raise _ => False end.
Proof. split; [exact ex_box_ok|]. split; [exact ex_msg_ok|]. split; [exact ex_min_ok|]. vm_compute. auto. Qed.

(** Findings: what does not round-trip.  (1) A string with a non-ASCII
    character is cut, on every such string: the field never reads back. *)
Theorem C15_nonascii_refuted :
  forall (E : env) (s : pystr) (e : bytes), utf8_enc s = Ok e -> ~ is_ascii s -> zlen s < 2 ^ 16 ->
  exists bs, enc E (VStr s) TString = Ok bs /\
  forall rest s', exec dec_string (St (bio_new (bs ++ rest)) 0) <> Finished (VStr s) s'.
Proof.
  intros E s e Ee Na L. cbn [enc]. unfold enc_string. destruct (Z.ltb_spec (2 ^ 16) (zlen s)); [lia|].
  rewrite Ee. cbn [bind]. pose proof (zlen_nonneg s) as Ns. rewrite pack_ok by (change (256 ^ Z.of_nat 2) with (2 ^ 16); lia). cbn [bind].
  eexists. split; [reflexivity|]. intros rest s' X.
  destruct (utf8_enc_ok s e Ee) as (_ & Lge & Iff).
  assert (Lt : (length s < length e)%nat).
  { destruct (Nat.eq_dec (length e) (length s)) as [Q|Q]; [|lia]. exfalso. apply Na. apply Iff. exact Q. }
  set (cut := firstn (length s) e).
  assert (PB : pack_s_bytes (zlen s) e = cut).
  { unfold pack_s_bytes, cut, zlen. rewrite Nat2Z.id. replace (length s - length e)%nat with 0%nat by lia. apply app_nil_r. }
  rewrite PB in X. assert (Lc : zlen cut = zlen s) by (unfold cut, zlen; rewrite firstn_length; lia).
  destruct (utf8_dec cut) as [t|x] eqn:D.
  - assert (Et : utf8_enc t = Ok cut) by (eapply utf8_enc_dec; eauto).
    assert (Eat : eats dec_string 0 0 (be_enc 2 (zlen s) ++ cut) (VStr t) 0).
    { unfold dec_string. apply eats_need'; [left; reflexivity|apply zlen_be|].
      rewrite be_dec_enc by (change (256 ^ Z.of_nat 2) with (2 ^ 16); lia). rewrite <- (app_nil_r cut).
      apply eats_need'; [left; reflexivity|exact Lc|]. eapply eats_lift; [exact D|]. constructor. }
    unfold bio_new in X. rewrite (exec_full _ _ _ _ _ _ Eat ((be_enc 2 (zlen s) ++ cut) ++ rest) 0 rest) in X.
    + injection X as -> _. rewrite Et in Ee. apply Ok_inj in Ee. apply (f_equal (@length Z)) in Ee. unfold cut in Ee. rewrite firstn_length in Ee. lia.
    + reflexivity.
    + pose proof (zlen_nonneg ((be_enc 2 (zlen s) ++ cut) ++ rest)). lia.
    + reflexivity.
  - revert X. unfold dec_string, need. cbn [exec]. change (over_limit 2 {| s_bio := bio_new ((be_enc 2 (zlen s) ++ cut) ++ rest); s_max := 0 |}) with false.
    cbv iota. unfold ubio_available, bio_new. cbn [s_bio b_data b_pos s_max]. rewrite !zlen_app, zlen_be, Lc.
    pose proof (zlen_nonneg rest). destruct (Z.ltb_spec (Z.of_nat 2 + zlen s + zlen rest - 0) 2); [lia|].
    rewrite rest_read; [|cbn; lia|cbn [b_pos]; unfold stream_rest; cbn [b_data Z.to_nat skipn]; rewrite !zlen_app, zlen_be; lia].
    cbn [b_pos b_data]. change (stream_rest {| b_data := (be_enc 2 (zlen s) ++ cut) ++ rest; b_pos := 0 |} 0) with ((be_enc 2 (zlen s) ++ cut) ++ rest).
    rewrite <- app_assoc, firstn_app, be_enc_length, firstn_all2 by (rewrite be_enc_length; cbn; lia).
    change (Z.to_nat 2 - 2)%nat with 0%nat. rewrite firstn_O, app_nil_r, be_dec_enc by (change (256 ^ Z.of_nat 2) with (2 ^ 16); lia).
    cbn [exec]. change (over_limit (zlen s) _) with false. cbv iota. unfold ubio_available. cbn [s_bio b_data b_pos s_max].
    rewrite !zlen_app, zlen_be, Lc. destruct (Z.ltb_spec (Z.of_nat 2 + (zlen s + zlen rest) - (0 + 2)) (zlen s)); [lia|].
    rewrite rest_read; [|cbn; lia|].
    2:{ cbn [b_pos]. rewrite rest_le by (rewrite !zlen_app, zlen_be; lia). rewrite !zlen_app, zlen_be. lia. }
    cbn [b_pos b_data]. rewrite rest_add by lia. unfold stream_rest at 1. cbn [b_data].
    change (skipn (Z.to_nat 0) (be_enc 2 (zlen s) ++ cut ++ rest)) with (be_enc 2 (zlen s) ++ cut ++ rest).
    rewrite skipn_app, be_enc_length. change (Z.to_nat 2 - 2)%nat with 0%nat. cbn [skipn]. rewrite skipn_all2 by (rewrite be_enc_length; cbn; lia).
    cbn [app]. rewrite firstn_app. replace (Z.to_nat (zlen s)) with (length cut) by (unfold zlen in *; lia).
    rewrite Nat.sub_diag, firstn_O, app_nil_r, firstn_all. rewrite D. cbn. discriminate.
Qed.
Print Assumptions C15_nonascii_refuted.

(** (2) A string of exactly 65536 characters passes the length check and fails
    in struct.pack instead. *)
Theorem C15_boundary_string_refuted :
  forall (E : env) (s : pystr), is_ascii s -> zlen s = 2 ^ 16 -> enc E (VStr s) TString = Raise StructError.
Proof.
  intros E s A L. cbn [enc]. unfold enc_string. rewrite L, (utf8_enc_ascii s A). reflexivity.
Qed.
Print Assumptions C15_boundary_string_refuted.

(** (3) A string field that follows a shorter nested packet: encodes, but the
    decoder refuses it, because the read limit of the nested packet stays. *)
Definition ex_bad_box : val := VPacket 2 [Some ex_min; Some (VStr (repeat 120 60))].
Theorem C15_nested_then_longer_refuted :
  exists (E : env) (base : nat) (p : val) (bs : bytes), encodable E (p, TPacket base) /\ complete E (p, TPacket base) /\
    serialize E p = Ok bs /\ forall depth, deserialize E (S (S depth)) base bs = Some (Raise PacketEncodingError).
Proof.
  exists ex_env, 0%nat, ex_bad_box. eexists. unfold encodable, complete, ex_bad_box, ex_min. cbn [repeat].
  split; [walk okay|]. split; [walk complete_tac|]. split; [vm_compute; reflexivity|]. intro depth. vm_compute. reflexivity.
Qed.
Print Assumptions C15_nested_then_longer_refuted.

(** ** C16-C19: the Deserializer on a stream of packets *)

(** [sent E depth base ps bss]: the byte strings [bss] are the encodings of the
    packets [ps] *)
Definition sent (E : env) (depth base : nat) (ps : list val) (bss : list bytes) : Prop :=
  Forall (sendable E depth base) ps /\ Forall2 (fun p bs => serialize E p = Ok bs) ps bss.
(** garbage [gs] in front of each of them, with no false header in it *)
Inductive noisy : list bytes -> list bytes -> list bytes -> Prop :=
| noisy_nil : noisy [] [] []
| noisy_cons g gs bs bss out : no_false_header g bs -> noisy gs bss out -> noisy (g :: gs) (bs :: bss) ((g ++ bs) :: out).
(** After [x] has been received, exactly [k] of the byte strings have been
    received completely, and [r] is the beginning of the next *)
Definition received (bss : list bytes) (x : bytes) (k : nat) : Prop :=
  exists r, x = concat (firstn k bss) ++ r /\
    match nth_error bss k with Some bs => exists r2, bs = r ++ r2 /\ r2 <> [] | None => r = [] end.

Lemma sent_eaten E depth base ps bss : sent E depth base ps bss -> Forall2 (eaten E depth base) ps bss.
Proof.
  intros (S & F). revert S. induction F as [|p bs ps bss Hp F IH]; intros S; constructor; inversion S as [|? ? Sp Ss]; subst; auto.
  destruct (sendable_bytes E depth base p Sp) as (b & Eb & Sb & _ & R). rewrite Hp in Eb. apply Ok_inj in Eb. subst b.
  split; [|exact R]. intros ->. destruct Sp as (En & _). pose proof (En _ (in_self E _)) as P. destruct p; try (now destruct P).
  pose proof (packet_size_ge E base cls vs). rewrite zlen_nil in Sb. lia.
Qed.
Lemma noisy_eaten E depth base gs : forall ps bss out, Forall2 (eaten E depth base) ps bss -> noisy gs bss out -> Forall2 (eaten E depth base) ps out.
Proof.
  induction gs as [|g gs IH]; intros ps bss out F N; inversion N; subst; inversion F as [|p ? ps' ? (Nb & Hp) F']; subst; constructor.
  - split; [intro X; apply app_eq_nil in X; tauto|]. intro pos. destruct (Hp (pos + zlen g)) as (m' & Hm). exists m'. now apply eats_garbage.
  - eauto.
Qed.
Lemma schedule_spec E depth base ps bss : (0 < depth)%nat -> Forall2 (eaten E depth base) ps bss ->
  forall os future, fed os ++ future = concat bss ->
  let (d, evs) := d_run E depth base os (d_new E depth base) in
  let (d', evs') := d_next_packets E depth base d in
  exists k, evs ++ evs' = map EvPacket (firstn k ps) /\ (k <= length ps)%nat /\ received bss (fed os) k.
Proof.
  intros Dp F os future Eq. pose proof (Forall2_len _ _ _ F) as Len.
  pose proof (expects_new E depth base ps bss F Dp) as X. rewrite <- Eq in X.
  destruct (expects_run E depth base Dp os future _ _ _ X) as (d & k & R1 & K1 & X1). rewrite R1.
  destruct (expects_next E depth base future d _ _ Dp X1) as (d' & j & R2 & K2 & X2 & D2). rewrite R2.
  rewrite skipn_length in K2. exists (k + j)%nat. split; [|split; [lia|]].
  - rewrite <- map_app. f_equal. rewrite <- (firstn_skipn k ps) at 3. rewrite firstn_app, firstn_firstn, firstn_length.
    replace (Nat.min (k + j) k) with k by lia. f_equal. f_equal. lia.
  - apply (drained_received bss (fed os) future (k + j)); [lia|exact Eq|]. rewrite PyLemmas.skipn_skipn in D2. now rewrite Nat.add_comm.
Qed.
Lemma received_all (bss : list bytes) k : (k <= length bss)%nat -> Forall (fun b => b <> []) bss -> received bss (concat bss) k -> k = length bss.
Proof.
  unfold received, bytes in *. intros K N (r & Ex & M). destruct (nth_error bss k) as [bs|] eqn:Ne; [|apply nth_error_None in Ne; lia].
  destruct M as (r2 & Eb & Nr). subst bs. exfalso. apply nth_error_split in Ne as (l1 & l2 & -> & Lk). subst k.
  rewrite firstn_app, Nat.sub_diag, firstn_all, firstn_O, app_nil_r, concat_app in Ex. apply app_inv_head in Ex. cbn [concat] in Ex.
  rewrite <- !app_assoc in Ex. rewrite <- (app_nil_r r) in Ex at 2. apply app_inv_head in Ex. apply app_eq_nil in Ex. tauto.
Qed.

(** C16, C17, C18 in one: any interleaving [os] of update() and single turns of
    nextPackets(), in any segmentation of any prefix of the stream, followed by
    draining nextPackets(): exactly the packets whose bytes have been received
    completely are delivered, in order, once, and no error is reported. *)
Theorem C16_C17_C18_packets_received_so_far :
  forall (E : env) (depth base : nat) (ps : list val) (bss : list bytes),
  (0 < depth)%nat -> sent E depth base ps bss ->
  forall (os : list dop) (future : bytes), fed os ++ future = concat bss ->
  let (d, evs) := d_run E depth base os (d_new E depth base) in
  let (d', evs') := d_next_packets E depth base d in
  exists k, evs ++ evs' = map EvPacket (firstn k ps) /\ (k <= length ps)%nat /\ received bss (fed os) k.
Proof. intros E depth base ps bss Dp S. apply schedule_spec; auto. now apply sent_eaten. Qed.
Print Assumptions C16_C17_C18_packets_received_so_far.

(** C16. Two schedules that feed the same bytes deliver the same packets. *)
Theorem C16_segmentation_independent :
  forall (E : env) (depth base : nat) (ps : list val) (bss : list bytes),
  (0 < depth)%nat -> sent E depth base ps bss ->
  forall (os1 os2 : list dop) (future : bytes), fed os1 = fed os2 -> fed os1 ++ future = concat bss ->
  let delivered os := let (d, evs) := d_run E depth base os (d_new E depth base) in evs ++ snd (d_next_packets E depth base d) in
  delivered os1 = delivered os2.
Proof.
  intros E depth base ps bss Dp S os1 os2 future Ef Eq. cbv beta zeta.
  pose proof (C16_C17_C18_packets_received_so_far E depth base ps bss Dp S os1 future Eq) as A.
  pose proof Eq as Eq2. rewrite Ef in Eq2.
  pose proof (C16_C17_C18_packets_received_so_far E depth base ps bss Dp S os2 future Eq2) as B.
  destruct (d_run E depth base os1 _) as [d1 e1]. destruct (d_next_packets E depth base d1) as [d1' e1'].
  destruct (d_run E depth base os2 _) as [d2 e2]. destruct (d_next_packets E depth base d2) as [d2' e2'].
  destruct A as (k1 & A1 & L1 & R1), B as (k2 & B1 & L2 & R2). cbn [snd]. rewrite A1, B1. f_equal. f_equal.
  rewrite Ef in R1. pose proof (sent_eaten _ _ _ _ _ S) as F. rewrite (Forall2_len _ _ _ F) in L1, L2.
  clear -R1 R2 L1 L2. revert k1 k2 R1 R2 L1 L2.
  assert (W : forall k1 k2, received bss (fed os2) k1 -> received bss (fed os2) k2 -> (k1 <= length bss)%nat -> (k2 <= length bss)%nat -> ~ (k1 < k2)%nat).
  { unfold received, bytes in *. intros k1 k2 (r1 & E1 & M1) (r2 & E2 & M2) L1 L2 Lt.
    destruct (nth_error bss k1) as [bs|] eqn:N1; [|apply nth_error_None in N1; lia]. destruct M1 as (q & -> & Nq).
    apply (f_equal (@length Z)) in E1. apply (f_equal (@length Z)) in E2. rewrite app_length in E1, E2.
    apply nth_error_split in N1 as (l1 & l2 & -> & Lk). subst k1.
    rewrite firstn_app, Nat.sub_diag, firstn_all, firstn_O, app_nil_r in E1.
    replace (firstn k2 (l1 ++ (r1 ++ q) :: l2)) with (l1 ++ (r1 ++ q) :: firstn (k2 - S (length l1)) l2) in E2.
    2:{ rewrite firstn_app, (firstn_all2 l1) by (clear -Lt; lia). f_equal. replace (k2 - length l1)%nat with (S (k2 - S (length l1))) by lia. reflexivity. }
    rewrite concat_app in E2. cbn [concat] in E2. rewrite !app_length in E2. destruct q; [congruence|]. cbn [length] in E2. lia. }
  intros k1 k2 R1 R2 L1 L2. pose proof (W k1 k2 R1 R2 L1 L2). pose proof (W k2 k1 R2 R1 L2 L1). lia.
Qed.
Print Assumptions C16_segmentation_independent.

(** C17. All the bytes fed, in any segmentation: the packets, in order, and
    nothing else. *)
Theorem C17_concatenation_decodes :
  forall (E : env) (depth base : nat) (ps : list val) (bss : list bytes),
  (0 < depth)%nat -> sent E depth base ps bss ->
  forall (os : list dop), fed os = concat bss ->
  let (d, evs) := d_run E depth base os (d_new E depth base) in
  evs ++ snd (d_next_packets E depth base d) = map EvPacket ps.
Proof.
  intros E depth base ps bss Dp S os Ef.
  pose proof (C16_C17_C18_packets_received_so_far E depth base ps bss Dp S os []) as A. rewrite app_nil_r in A. specialize (A Ef).
  destruct (d_run E depth base os _) as [d1 e1]. destruct (d_next_packets E depth base d1) as [d1' e1'].
  destruct A as (k & A1 & L & R). cbn [snd]. rewrite A1. pose proof (sent_eaten _ _ _ _ _ S) as F. pose proof (Forall2_len _ _ _ F) as Len.
  rewrite Ef in R. apply received_all in R; [|exact (eq_ind _ (fun n => (k <= n)%nat) L _ Len)|].
  - assert (Kp : k = length ps) by (rewrite R; symmetry; exact Len). now rewrite Kp, firstn_all.
  - clear -F. induction F as [|? ? ? ? (N & _)]; constructor; auto.
Qed.
Print Assumptions C17_concatenation_decodes.

(** C18. A proper prefix [x] of one packet: no packet and no error; when the
    missing bytes [y] arrive the packet is delivered (so no byte was lost). *)
Theorem C18_prefix_yields_nothing :
  forall (E : env) (depth base : nat) (p : val) (x y : bytes),
  (0 < depth)%nat -> sendable E depth base p -> serialize E p = Ok (x ++ y) -> y <> [] ->
  forall (os os' : list dop), fed os = x -> fed os' = y ->
  let (d, evs) := d_run E depth base os (d_new E depth base) in
  let (d1, evs1) := d_next_packets E depth base d in
  let (d2, evs2) := d_run E depth base os' d1 in
  evs = [] /\ evs1 = [] /\ evs2 ++ snd (d_next_packets E depth base d2) = [EvPacket p].
Proof.
  intros E depth base p x y Dp S Eb Ny os os' Fx Fy.
  assert (F : Forall2 (eaten E depth base) [p] [x ++ y]) by (apply sent_eaten; split; (constructor; [assumption|constructor])).
  pose proof (expects_new E depth base _ _ F Dp) as X. cbn [concat] in X. rewrite app_nil_r, <- Fx in X.
  destruct (expects_run E depth base Dp os y _ _ _ X) as (d & k & R1 & K1 & X1). rewrite R1.
  destruct k as [|k].
  2:{ exfalso. replace k with 0%nat in * by (cbn in K1; lia). cbn [skipn] in X1. destruct X1 as (_ & _ & U & _). apply app_eq_nil in U. tauto. }
  cbn [skipn] in X1. destruct (expects_next E depth base y d _ _ Dp X1) as (d1 & j & R2 & K2 & X2 & D2). rewrite R2.
  destruct j as [|j].
  2:{ exfalso. replace j with 0%nat in * by (cbn in K2; lia). cbn in D2. tauto. }
  cbn [skipn] in X2. rewrite <- Fy, <- (app_nil_r (fed os')) in X2.
  destruct (expects_run E depth base Dp os' [] _ _ _ X2) as (d2 & i & R3 & K3 & X3). rewrite R3.
  destruct (expects_next E depth base [] d2 _ _ Dp X3) as (d3 & h & R4 & K4 & X4 & D4). rewrite R4. cbn [firstn map snd].
  split; [reflexivity|]. split; [reflexivity|]. rewrite <- map_app. destruct i as [|i].
  - cbn [firstn skipn app] in *. destruct h as [|h]; [|destruct h; [reflexivity|cbn in K4; lia]].
    exfalso. cbn [skipn drained] in D4. destruct D4 as (pre & r & Nr & _ & Z). symmetry in Z. apply app_eq_nil in Z. tauto.
  - replace i with 0%nat in * by (cbn in K3; lia). cbn [firstn skipn] in *. destruct h; reflexivity.
Qed.
Print Assumptions C18_prefix_yields_nothing.

(** C18, finding: Packet.Deserialize on a proper prefix never returns. *)
Theorem C18_deserialize_of_prefix_hangs :
  forall (E : env) (depth base : nat) (p : val) (x y : bytes),
  sendable E depth base p -> serialize E p = Ok (x ++ y) -> y <> [] ->
  deserialize E depth base x = None.
Proof.
  intros E depth base p x y S Eb Ny. destruct (sendable_bytes E depth base p S) as (bs & E1 & _ & _ & R). rewrite Eb in E1. apply Ok_inj in E1. subst bs.
  destruct (R 0) as (m' & Em). unfold deserialize, bio_new.
  destruct (exec_partial _ _ _ _ _ _ Em x 0 y) as (p' & bp' & m1 & bs' & X & _); auto.
  - eapply eats_lpos, Em.
  - pose proof (zlen_nonneg x). lia.
  - now rewrite X.
Qed.
Print Assumptions C18_deserialize_of_prefix_hangs.

(** C19. With garbage before each packet (no 16 bytes starting inside it being
    a length and its complement) the packets are delivered as if it were not
    there, in any segmentation, and no error is reported. *)
Theorem C19_garbage_is_skipped :
  forall (E : env) (depth base : nat) (ps : list val) (bss gs out : list bytes),
  (0 < depth)%nat -> sent E depth base ps bss -> noisy gs bss out ->
  forall (os : list dop) (future : bytes), fed os ++ future = concat out ->
  let (d, evs) := d_run E depth base os (d_new E depth base) in
  let (d', evs') := d_next_packets E depth base d in
  exists k, evs ++ evs' = map EvPacket (firstn k ps) /\ (k <= length ps)%nat /\ received out (fed os) k.
Proof. intros E depth base ps bss gs out Dp S N. apply schedule_spec; auto. eapply noisy_eaten; eauto. now apply sent_eaten. Qed.
Print Assumptions C19_garbage_is_skipped.

(** C19. After a reported error the Deserializer is as good as new: whatever is
    left in the stream and arrives later, if it consists of packets (with such
    garbage) they are all delivered. *)
Theorem C19_recovers_after_error :
  forall (E : env) (depth base : nat), (0 < depth)%nat ->
  forall (os0 : list dop) (d0 d : dser) (e : exn), d0 = fst (d_run E depth base os0 (d_new E depth base)) ->
  d_step E depth base d0 = (d, Some (EvError e)) ->
  forall (ps : list val) (bss gs out : list bytes), sent E depth base ps bss -> noisy gs bss out ->
  forall (os : list dop), fst (bio_read (-1) (d_bio d)) ++ fed os = concat out ->
  let (d1, evs) := d_run E depth base os d in
  evs ++ snd (d_next_packets E depth base d1) = map EvPacket ps.
Proof.
  intros E depth base Dp os0 d0 d e -> St ps bss gs out S N os Eq.
  assert (F : Forall2 (eaten E depth base) ps out) by (eapply noisy_eaten; eauto; now apply sent_eaten).
  pose proof (dinv_run E depth base Dp os0 _ (dinv_new E depth base Dp)) as I0.
  destruct (dstep_inv E depth base Dp _ _ _ I0 St) as ((I & _) & _).
  assert (Fr : d_iter d = dec_packet E depth base /\ d_max d = 0).
  { revert St. unfold d_step. destruct (exec _ _); intros [= <- <-]; try discriminate. auto. }
  destruct Fr as (Fi & Fm). pose proof (Forall2_len _ _ _ F) as Len.
  assert (X : expects E depth base d ps out (fed os ++ [])).
  { assert (DP : forall dd, lpos (dec_packet E depth base) dd = b_pos dd) by (intros; destruct depth; [lia|reflexivity]).
    rewrite app_nil_r. unfold expects, dwf, unread. rewrite Fi, Fm, DP. unfold inb in I. split; [auto|]. split; [exact F|].
    unfold bio_read in Eq. change (-1 <? 0) with true in Eq. cbn [fst] in Eq.
    destruct F as [|p bs ps' bss' (Nb & Hp) F]; [split; [exact Eq|auto]|]. destruct (Hp (b_pos (d_bio d))) as (m2 & Hm2). exists [], bs, m2. auto. }
  destruct (expects_run E depth base Dp os [] _ _ _ X) as (d1 & k & R1 & K1 & X1). rewrite R1.
  destruct (expects_next E depth base [] d1 _ _ Dp X1) as (d' & j & R2 & K2 & X2 & D2). rewrite R2. cbn [snd].
  rewrite skipn_length in K2. rewrite <- map_app.
  assert (Kj : (k + j)%nat = length ps).
  { rewrite PyLemmas.skipn_skipn in D2. destruct (skipn (j + k) out) as [|b0 o0] eqn:Sk.
    - pose proof (skipn_length (j + k) out) as SL. rewrite Sk in SL. cbn in SL. lia.
    - destruct D2 as (pre & r & Nr & _ & Z). symmetry in Z. apply app_eq_nil in Z. tauto. }
  f_equal. rewrite <- (firstn_skipn k ps) at 3. f_equal. apply firstn_all2. rewrite skipn_length. lia.
Qed.
Print Assumptions C19_recovers_after_error.

(** A run of the examples: three packets, one of them behind garbage, in four
    pieces. *)
Definition ok_bytes (r : res bytes) : bytes := match r with Ok b => b | Raise _ => [] end.
Definition wire_msg : bytes := Eval vm_compute in ok_bytes (serialize ex_env ex_msg).
Definition wire_min : bytes := Eval vm_compute in ok_bytes (serialize ex_env ex_min).
Example ex_stream :
  sent ex_env 1 0 [ex_msg; ex_min; ex_msg] [wire_msg; wire_min; wire_msg] /\
  noisy [[]; [1; 2; 3]; []] [wire_msg; wire_min; wire_msg] [wire_msg; [1; 2; 3] ++ wire_min; wire_msg] /\
  let s := wire_msg ++ [1; 2; 3] ++ wire_min ++ wire_msg in
  snd (d_run ex_env 1 0 [DNext; DUpdate (firstn 50 s); DNext; DNext; DUpdate (firstn 80 (skipn 50 s)); DNext; DUpdate (skipn 130 s); DNext; DNext; DNext; DNext]
         (d_new ex_env 1 0)) = [EvPacket ex_msg; EvPacket ex_min; EvPacket ex_msg].
Proof.
  split.
  { split; [repeat (apply Forall_cons; [first [exact ex_msg_ok|exact ex_min_ok]|]); apply Forall_nil|].
    repeat (apply Forall2_cons; [vm_compute; reflexivity|]). apply Forall2_nil. }
  split; [|vm_compute; reflexivity].
  apply (noisy_cons []). { intros i Hi. cbn in Hi. lia. }
  apply noisy_cons. { intros i Hi (_ & X). cbn [length] in Hi. destruct i as [|[|[|i]]]; [| | |lia]; vm_compute in X; discriminate. }
  apply (noisy_cons []). { intros i Hi. cbn in Hi. lia. }
  constructor.
Qed.

(** Finding: on input that is not a sequence of packets the outcome does depend
    on the segmentation.  A packet of an unregistered class with another packet
    inside is skipped when received in one piece; when its last bytes arrive
    later they are taken for a packet of their own. *)
Definition smuggle : bytes := Eval vm_compute in ok_bytes (enc_header (lit "z.Unknown") (lit "1.0") wire_min).
Theorem C16_segmentation_of_foreign_bytes_refuted :
  exists (E : env) (depth base : nat) (a b : bytes) (p : val) (e : exn),
    (let d := d_update (a ++ b) (d_new E depth base) in snd (d_next_packets E depth base d) = [EvError e]) /\
    (let (d1, evs1) := d_next_packets E depth base (d_update a (d_new E depth base)) in
     evs1 = [EvError e] /\ snd (d_next_packets E depth base (d_update b d1)) = [EvPacket p]).
Proof.
  exists ex_env, 1%nat, 0%nat, (firstn 30 smuggle), (skipn 30 smuggle), ex_min, GenericException.
  vm_compute. split; [reflexivity|]. split; reflexivity.
Qed.
Print Assumptions C16_segmentation_of_foreign_bytes_refuted.

(** Finding: a packet that declares a length shorter than its contents makes
    the decoder read on to the end of the stream: a following intact packet is
    lost. *)
Theorem C19_stays_within_declared_length_refuted :
  exists (E : env) (base : nat) (p : val) (bad good : bytes), serialize E p = Ok good /\
    be_dec (firstn 8 bad) < zlen bad /\ header_pair (firstn 16 bad) /\
    forall depth, snd (d_next_packets E (S depth) base (d_update (bad ++ good) (d_new E (S depth) base))) = [EvError GenericException].
Proof.
  exists ex_env, 0%nat, ex_min, (be_enc 8 8 ++ be_enc 8 (Z.lxor 8 u64_ones) ++ skipn 16 wire_min), wire_min.
  split; [vm_compute; reflexivity|]. split; [vm_compute; reflexivity|]. split; [vm_compute; auto|]. intro depth. vm_compute. reflexivity.
Qed.
Print Assumptions C19_stays_within_declared_length_refuted.

(** ** C20: tags *)

(** The tag table is computed if and only if the field names are distinct and
    no explicit tag repeats an earlier one, and then it is the one described in
    PacketSpec.tagging, which is unique; otherwise an exception is raised. *)
Theorem C20_tags_as_specified :
  forall (fs : list (pystr * fattr)),
  (forall tags, process_fields fs = Ok tags <-> tagging fs tags) /\
  (forall e, process_fields fs = Raise e <-> e = GenericException /\ forall tags, ~ tagging fs tags).
Proof.
  intro fs. split; [intro tags; apply process_fields_iff|]. intro e. split.
  - intro H. split; [exact (process_fields_err fs e H)|]. intros tags T. apply process_fields_iff in T. congruence.
  - intros (-> & N). destruct (process_fields fs) as [t|x] eqn:P; [destruct (N t); now apply process_fields_iff|].
    now rewrite (process_fields_err fs x P).
Qed.
Print Assumptions C20_tags_as_specified.
(** ... and it is injective, so a tag read from the wire names one field. *)
Theorem C20_tags_distinct :
  forall (fs : list (pystr * fattr)) (tags : list Z), process_fields fs = Ok tags ->
  NoDup tags /\ length tags = length fs /\
  forall i name e t, nth_error fs i = Some (name, FAttr e t) -> forall x, t = Some x -> nth_error tags i = Some x.
Proof.
  intros fs tags P. apply process_fields_iff in P. split; [exact (tagging_nodup fs tags P)|]. destruct P as (_ & L & Q).
  split; [exact L|]. intros i name e t N x ->. destruct (nth_error tags i) as [y|] eqn:Ny.
  - destruct (Q _ _ _ _ N Ny) as (_ & Z). cbn in Z. now subst.
  - apply nth_error_None in Ny. assert (nth_error fs i <> None) by congruence. apply nth_error_Some in H. lia.
Qed.
Print Assumptions C20_tags_distinct.
Example ex_tags : process_fields (map fst msg_fields) = Ok [0; 100; 1; 2; 3; 4] /\
  process_fields [(lit "a", FAttr false (Some 1)); (lit "b", FAttr false None); (lit "c", FAttr false None)] = Ok [1; 0; 2] /\
  process_fields [(lit "a", FAttr false None); (lit "b", FAttr false (Some 0))] = Raise GenericException.
Proof. vm_compute. auto. Qed.

(** ** C21: unset fields *)

(** For values that are encodable where they are set: serialization succeeds
    if and only if no required field is unset at any level, and otherwise
    raises PacketEncodingError. *)
Theorem C21_unset_required_reported :
  forall (E : env) (base c : nat) (vs : list (option val)), let p := VPacket c vs in
  encodable E (p, TPacket base) ->
  ((exists bs, serialize E p = Ok bs) <-> complete E (p, TPacket base)) /\
  (serialize E p = Raise PacketEncodingError <-> ~ complete E (p, TPacket base)).
Proof.
  intros E base c vs p En. change (serialize E p) with (enc E p (TPacket base)).
  destruct (all_verdict E p (TPacket base) En) as [C|(NC & e & Ee & Fe)].
  - destruct (all_good E p (TPacket base) En C) as (bs & Eb & _). cbn [fst snd] in *. rewrite Eb. split; split; [eauto|eauto|discriminate|tauto].
  - cbn [fst snd] in *. rewrite Ee, (Fe I). split; split; [intros (bs & X); discriminate|tauto|auto|auto].
Qed.
Print Assumptions C21_unset_required_reported.
(** An unset optional field takes no bytes and is unset after decoding: by
    C15_packet_roundtrip (the decoded packet is equal, UNSET fields included)
    and by the size below. *)
Theorem C21_unset_optional_free :
  forall (E : env) (depth base : nat) (p : val) (bs : bytes), sendable E depth base p -> serialize E p = Ok bs ->
  forall c vs, p = VPacket c vs ->
  zlen bs = 20 + utf8_len (c_ident (e_cls E c)) + utf8_len (c_version (e_cls E c)) +
            fold_right Z.add 0 (map (fun x => 2 + wire_size E (fst x) (snd x)) (set_fields (c_fields (e_cls E c)) vs)) /\
  deserialize E depth base bs = Some (Ok p).
Proof.
  intros E depth base p bs S Eb c vs ->. destruct (roundtrip E depth base _ S) as (b & E1 & Sz & D & _). rewrite Eb in E1. apply Ok_inj in E1. subst b.
  split; [|exact D]. rewrite Sz, size_packet_eq.
  assert (X : forall vs fs, fs_size E vs fs = fold_right Z.add 0 (map (fun x => 2 + wire_size E (fst x) (snd x)) (set_fields fs vs))).
  { clear. induction vs as [|[v|] vs IH]; intros [|[f t] fs]; cbn [fs_size set_fields map fold_right fst snd]; fold (fs_size E); auto.
    rewrite IH. reflexivity. }
  rewrite X. lia.
Qed.
Print Assumptions C21_unset_optional_free.
Example ex_unset :
  serialize ex_env (VPacket 1 [Some (VScalar (SvInt 0)); None; None; None; None; None]) = Raise PacketEncodingError /\
  serialize ex_env (VPacket 2 [Some (VPacket 1 [None; None; None; None; None; None]); None]) = Raise PacketEncodingError /\
  zlen wire_min = 20 + 5 + 3 + (2 + 4) + (2 + 1).
Proof. vm_compute. auto. Qed.
(** Finding: the decoder does not check required fields; a packet whose bytes
    contain no field at all is delivered with everything unset. *)
Theorem C21_decoder_accepts_unset_required_refuted :
  exists (E : env) (depth base c : nat) (vs : list (option val)) (bs : bytes),
    deserialize E depth base bs = Some (Ok (VPacket c vs)) /\ ~ part_complete E (VPacket c vs, TPacket base).
Proof.
  exists ex_env, 1%nat, 0%nat, 1%nat, [None; None; None; None; None; None], (ok_bytes (enc_header (lit "a.Msg") (lit "1.0") [0; 0])).
  split; [vm_compute; reflexivity|]. cbn. intros (H & _). specialize (H eq_refl). discriminate.
Qed.
Print Assumptions C21_decoder_accepts_unset_required_refuted.

(** ** C44: nextPackets() terminates on every input *)

(** After any history of updates with arbitrary bytes and turns, draining
    nextPackets() comes to an end ([drains], PacketProgress: the loop reaches a
    turn that yields nothing), after at most one event per byte in the buffer;
    d_next_packets is that run. *)
Theorem C44_next_packets_terminates :
  forall (E : env) (depth base : nat) (os : list dop), (0 < depth)%nat ->
  let d := fst (d_run E depth base os (d_new E depth base)) in
  exists d' evs, drains E depth base d d' evs /\ d_next_packets E depth base d = (d', evs) /\ zlen evs <= ubio_available (d_bio d).
Proof.
  intros E depth base os Dp d. destruct (next_terminates E depth base Dp d) as (d' & evs & A & B & _ & C).
  - apply dinv_run; auto. now apply dinv_new.
  - exists d', evs. auto.
Qed.
Print Assumptions C44_next_packets_terminates.

(** ** C45: what is delivered is well formed, whatever the bytes *)
Theorem C45_delivered_packets_well_formed :
  forall (E : env) (depth base : nat) (os : list dop), (0 < depth)%nat -> bytes_ok (fed os) ->
  forall v, In (EvPacket v) (snd (d_run E depth base os (d_new E depth base))) ->
  is_packet v /\ shaped E (v, TPacket base).
Proof.
  intros E depth base os Dp B v H. destruct (dpost_run E depth base Dp os (d_new E depth base)) as (_ & X).
  - now apply dinv_new.
  - apply dpost_new.
  - exact B.
  - specialize (X v H). split; [|exact X]. pose proof (X _ (in_self E _)) as P. destruct v; try (now destruct P); exact I.
Qed.
Print Assumptions C45_delivered_packets_well_formed.
(** a delivered packet that no encoder made: fields in another order, one twice *)
Example ex_delivered : exists v,
  snd (d_run ex_env 1 0 [DUpdate (ok_bytes (enc_header (lit "a.Msg") (lit "1.0") [0; 3; 0; 100; 5; 0; 0; 0; 0; 0; 9; 0; 100; 255])); DNext] (d_new ex_env 1 0))
  = [EvPacket v] /\ v = VPacket 1 [Some (VScalar (SvInt 9)); Some (VScalar (SvInt (-1))); None; None; None; None].
Proof. eexists. vm_compute. split; reflexivity. Qed.
