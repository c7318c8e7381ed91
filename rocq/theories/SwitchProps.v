(** * C10-C11: Switch.py *)
From Coq Require Import String.
From Coq Require Import List ZArith Bool Lia.
From Verif Require Import PyBase AddrModel SwitchModel AddrSpec AddrProofs SwitchProofs.
Import ListNotations.
Open Scope Z_scope.

(** C10. No history of registrations raises; afterwards a link is listed under
    an address exactly if that is its current registration (AddrSpec.registered:
    the last valid registration not followed by unregistration), so under at
    most one address, and the reverse table says the same. *)
Theorem C10_switch_tables_agree :
  forall (L : Type) (E : EqDec L) (os : list (swop L)),
  exists s : switch L, sw_run os sw_empty = Ok s /\
    (forall l a, (exists ls, dget (sw_addr s) a = Some ls /\ In l ls) <-> registered os unregistered l = Some a) /\
    (forall l, dget (sw_link s) l = registered os unregistered l).
Proof. exact @run_ok. Qed.
Print Assumptions C10_switch_tables_agree.

(** C10. Registering an invalid address string changes nothing at all. *)
Theorem C10_switch_invalid_register :
  forall (L : Type) (E : EqDec L) (s : switch L) (a : pystr) (p : L),
  is_valid_string ClsBlock a = false -> sw_register a p s = Ok s.
Proof. intros L E s a p V. unfold sw_register. now rewrite V. Qed.

(** C11. For every history of registrations and every destination string that
    denotes an address (or a block with trailing wildcards), getOutboundLinks
    returns exactly the links whose current registration is the canonical
    string of a trailing-wildcard block containing the destination. *)
Theorem C11_switch_outbound_exact :
  forall (L : Type) (E : EqDec L) (os : list (swop L)) (dest : pystr) (a : addr),
  from_string ClsBlock dest = Ok a -> prefix_shaped a ->
  exists s ls, sw_run os sw_empty = Ok s /\ sw_outbound dest s = Ok ls /\ NoDup ls /\
    forall l : L, In l ls <->
      exists b, block_ok b /\ prefix_shaped b /\ covers b a /\
                registered os unregistered l = Some (addr_str b).
Proof. exact @outbound_prefix. Qed.
Print Assumptions C11_switch_outbound_exact.

(** C11 spelled out for a plain address a.b.c.d: exactly five blocks. *)
Theorem C11_switch_outbound_five :
  forall (L : Type) (E : EqDec L) (os : list (swop L)) (dest : pystr) (z n d i : Z),
  from_string ClsBlock dest = Ok (Addr (Num z) (Num n) (Num d) (Num i)) ->
  exists s ls, sw_run os sw_empty = Ok s /\ sw_outbound dest s = Ok ls /\ NoDup ls /\
    forall l : L, In l ls <->
      exists b, In b [Addr (Num z) (Num n) (Num d) (Num i); Addr (Num z) (Num n) (Num d) Star;
                      Addr (Num z) (Num n) Star Star; Addr (Num z) Star Star Star;
                      Addr Star Star Star Star] /\
                registered os unregistered l = Some (addr_str b).
Proof.
  intros L E os dest z n d i F.
  destruct (outbound_prefix os dest _ F) as (s & ls & A & B & N & I).
  { unfold prefix_shaped; simpl; repeat split; discriminate. }
  exists s, ls. split; auto. split; auto. split; auto. intros l. rewrite I. split.
  - intros (b & Ob & Pb & Cb & R). exists b. split; auto.
    unfold covers, covers_part in Cb. unfold prefix_shaped in Pb. destruct b as [bz bn bd bi]; simpl in *.
    destruct Cb as ([->| ->] & [->| ->] & [->| ->] & [->| ->]); intuition congruence.
  - apply from_string_ok in F. unfold cls_ok, block_ok in F; simpl in F.
    intros (b & Ib & R). exists b. unfold block_ok, prefix_shaped, covers, covers_part. simpl in Ib.
    destruct Ib as [<-|[<-|[<-|[<-|[<-|[]]]]]]; simpl; intuition congruence.
Qed.
Print Assumptions C11_switch_outbound_five.

(** C11. Soundness for every destination string, also those with a wildcard in
    the middle: an outbound link's registration always covers the destination. *)
Theorem C11_switch_outbound_sound :
  forall (L : Type) (E : EqDec L) (os : list (swop L)) (dest : pystr) (s : switch L) (ls : list L) (l : L),
  sw_run os sw_empty = Ok s -> sw_outbound dest s = Ok ls -> In l ls ->
  exists a b, from_string ClsBlock dest = Ok a /\ covers b a /\
              registered os unregistered l = Some (addr_str b).
Proof. exact @outbound_sound. Qed.
Print Assumptions C11_switch_outbound_sound.

(** C11. Invalid destination strings give no links; the only exception is the
    InvalidPlaygroundAddress of a destination with a negative part. *)
Theorem C11_switch_outbound_invalid :
  forall (L : Type) (E : EqDec L) (os : list (swop L)) (dest : pystr) (s : switch L),
  sw_run os (sw_empty : switch L) = Ok s ->
  (is_valid_string ClsBlock dest = false -> sw_outbound dest s = Ok []) /\
  (forall e, sw_outbound dest s = Raise e <->
     is_valid_string ClsBlock dest = true /\ from_string ClsBlock dest = Raise e).
Proof. exact @outbound_invalid. Qed.
Print Assumptions C11_switch_outbound_invalid.

(** The bound on the loop of the model is immaterial. *)
Theorem switch_outbound_loop_bound :
  forall (L : Type) (E : EqDec L) (fuel : nat) tbl (acc : list L) b, block_ok b -> (5 <= fuel)%nat ->
  outbound_loop fuel tbl acc (Some b) = outbound_loop 5 tbl acc (Some b).
Proof. exact @loop_fuel_enough. Qed.

(** C11, refuted variants (findings): a link registered with a non-canonical
    spelling, or with a wildcard in the middle, never receives the packets its
    block contains; a destination with a negative part makes the call raise. *)
Theorem C11_switch_all_containing_blocks_refuted :
  exists (os : list (swop Z)) (dest : pystr) (s : switch Z) (reg : pystr) (b a : addr),
    sw_run os sw_empty = Ok s /\ registered os unregistered 1 = Some reg /\
    from_string ClsBlock reg = Ok b /\ from_string ClsBlock dest = Ok a /\
    is_parent_block b a = true /\ sw_outbound dest s = Ok [].
Proof.
  exists [SReg (lit "1.*.3.4") 1], (lit "1.2.3.4").
  eexists; exists (lit "1.*.3.4"), (Addr (Num 1) Star (Num 3) (Num 4)), (Addr (Num 1) (Num 2) (Num 3) (Num 4)).
  vm_compute. repeat split.
Qed.
Print Assumptions C11_switch_all_containing_blocks_refuted.
Theorem C11_switch_noncanonical_refuted :
  exists (os : list (swop Z)) (reg : pystr) (s : switch Z) (a : addr),
    sw_run os sw_empty = Ok s /\ registered os unregistered 1 = Some reg /\
    from_string ClsBlock reg = Ok a /\ sw_outbound (addr_str a) s = Ok [] /\ sw_outbound reg s = Ok [].
Proof.
  exists [SReg (lit "01.2.3.4") 1], (lit "01.2.3.4"). eexists; exists (Addr (Num 1) (Num 2) (Num 3) (Num 4)).
  vm_compute. repeat split.
Qed.
Print Assumptions C11_switch_noncanonical_refuted.
Theorem C11_switch_negative_destination_refuted :
  exists dest : pystr, is_valid_string ClsBlock dest = true /\
    forall s : switch Z, sw_outbound dest s = Raise InvalidPlaygroundAddress.
Proof. exists (lit "1.1.1.-1"). split; vm_compute; reflexivity. Qed.
Print Assumptions C11_switch_negative_destination_refuted.

Example switch_example :
  exists s, sw_run [SReg (lit "1.1.1.1") 1; SReg (lit "2.2.2.2") 2; SReg (lit "2.2.*.*") 3;
                    SReg (lit "9.9.9.9") 4; SReg (lit "*.*.*.*") 4; SUnreg 1; SReg (lit "bad") 2] sw_empty = Ok s /\
    sw_outbound (lit "1.1.1.1") s = Ok [4] /\ sw_outbound (lit "2.2.2.2") s = Ok [2; 3; 4] /\
    sw_outbound (lit "2.2.3.4") s = Ok [3; 4] /\ sw_outbound (lit "x") s = Ok [].
Proof. eexists. vm_compute. repeat split. Qed.
