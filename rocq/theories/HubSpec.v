(** * What a switch with many links should do *)
From Coq Require Import List ZArith Bool.
From Verif Require Import PyBase AddrModel AddrSpec SwitchModel FragModel HubModel.
Import ListNotations.
Open Scope Z_scope.

Section HubSpec.
  Context {L : Type} `{EqDec L}.
  (** asyncio's contract: data and loss only while connected *)
  Fixpoint well_behaved (up : L -> bool) (es : list (hevent L)) : Prop :=
    match es with
    | [] => True
    | HMade l :: r => up l = false /\ well_behaved (fun x => if eq_dec x l then true else up x) r
    | HData l _ :: r => up l = true /\ well_behaved up r
    | HLost l :: r => up l = true /\ well_behaved (fun x => if eq_dec x l then false else up x) r
    end.
  Definition none_up : L -> bool := fun _ => false.
  (** the registrations that a log amounts to *)
  Definition ops_of (g : list (hlog L)) : list (swop L) :=
    concat (map (fun x => match x with
                          | GPacket l (PAnnounce a) _ => [SReg a l]
                          | GLost l => [SUnreg l]
                          | _ => [] end) g).
  (** the links a destination should reach under registrations [m]: for an
      address or trailing-wildcard block exactly those registered under a block
      that covers it; for another block (a wildcard in the middle) only such;
      for a string that is no address none *)
  Definition should_reach (m : L -> option pystr) (dest : pystr) (ls : list L) : Prop :=
    NoDup ls /\
    match from_string ClsBlock dest with
    | Raise _ => ls = []
    | Ok a =>
        (prefix_shaped a -> forall l, In l ls <-> exists b, block_ok b /\ prefix_shaped b /\ covers b a /\ m l = Some (addr_str b)) /\
        (forall l, In l ls -> exists b, covers b a /\ m l = Some (addr_str b))
    end.
  (** a destination that looks like an address but has a negative part *)
  Definition poison (p : pkt) : Prop :=
    match p with PWire w => is_valid_string ClsBlock (w_dst w) = true /\ (exists e, from_string ClsBlock (w_dst w) = Raise e) | _ => False end.

  Definition received (l : L) (es : list (hevent L)) : list pkt :=
    concat (map (fun e => match e with HData l' ps => if eq_dec l' l then ps else [] | _ => [] end) es).
  Definition handled (l : L) (g : list (hlog L)) : list pkt :=
    concat (map (fun x => match x with GPacket l' p _ => if eq_dec l' l then [p] else [] | GLost _ => [] end) g).
End HubSpec.
