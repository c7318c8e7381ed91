(** * Specifications for addresses and for the switch *)
From Coq Require Import List ZArith.
From Verif Require Import PyBase AddrModel SwitchModel.
Import ListNotations.
Open Scope Z_scope.

(** A well-formed address part / address object. *)
Definition part_ok (p : apart) : Prop := match p with Star => True | Num z => 0 <= z end.
Definition block_ok (a : addr) : Prop :=
  part_ok (a_zone a) /\ part_ok (a_network a) /\ part_ok (a_device a) /\ part_ok (a_index a).
Definition is_num (p : apart) : Prop := match p with Star => False | Num z => 0 <= z end.
Definition address_ok (a : addr) : Prop :=
  is_num (a_zone a) /\ is_num (a_network a) /\ is_num (a_device a) /\ is_num (a_index a).
Definition cls_ok (c : acls) (a : addr) : Prop :=
  match c with ClsAddress => address_ok a | ClsBlock => block_ok a end.

(** Block [b] covers [a]: every non-wildcard part of b equals a's part. *)
Definition covers_part (b a : apart) : Prop := b = Star \/ b = a.
Definition covers (b a : addr) : Prop :=
  covers_part (a_zone b) (a_zone a) /\ covers_part (a_network b) (a_network a) /\
  covers_part (a_device b) (a_device a) /\ covers_part (a_index b) (a_index a).

(** Wildcards only at the end: a.b.c.d, a.b.c.*, a.b.*.*, a.*.*.*, *.*.*.* *)
Definition prefix_shaped (a : addr) : Prop :=
  (a_zone a = Star -> a_network a = Star) /\ (a_network a = Star -> a_device a = Star) /\
  (a_device a = Star -> a_index a = Star).

(** How one dot-free part of a string is read by each of the two classes. *)
Definition reads_part (c : acls) (w : pystr) (p : apart) : Prop :=
  match p with
  | Star => c = ClsBlock /\ w = [ch_star]
  | Num z => parse_int w = Ok z /\ 0 <= z
  end.

(** The numbers an address has at the wildcard positions of a block, in order. *)
Definition at_star (b a : apart) : list apart := match b with Star => [a] | Num _ => [] end.
Definition filled (b a : addr) : list apart :=
  at_star (a_zone b) (a_zone a) ++ at_star (a_network b) (a_network a) ++
  at_star (a_device b) (a_device a) ++ at_star (a_index b) (a_index a).

(** The address under which a link is currently registered: the last valid
    registration of that link not followed by its unregistration. *)
Definition reg_step {L} `{EqDec L} (o : swop L) (m : L -> option pystr) : L -> option pystr :=
  match o with
  | SReg a p => fun l => if eq_dec l p then (if is_valid_string ClsBlock a then Some a else m l) else m l
  | SUnreg p => fun l => if eq_dec l p then None else m l
  end.
Fixpoint registered {L} `{EqDec L} (os : list (swop L)) (m : L -> option pystr) : L -> option pystr :=
  match os with [] => m | o :: r => registered r (reg_step o m) end.
Definition unregistered {L} : L -> option pystr := fun _ => None.
