(** * Specification of a two-way map, independent of Bijection.py's dictionaries.

    A two-way map is a relation between left and right elements.  [put a b]
    adds the pair, dropping any pair sharing a left or a right element. *)
From Coq Require Import List.
From Verif Require Import BijModel.

Section Spec.
  Context {U : Type}.
  Definition rel := U -> U -> Prop.
  Definition r_empty : rel := fun _ _ => False.
  Definition r_put (a b : U) (R : rel) : rel :=
    fun x y => (x = a /\ y = b) \/ (R x y /\ x <> a /\ y <> b).
  Definition r_dropL (a : U) (R : rel) : rel := fun x y => R x y /\ x <> a.
  Definition r_dropR (b : U) (R : rel) : rel := fun x y => R x y /\ y <> b.

  (** Which views may write, and which of them read right-to-left. *)
  Definition writable (v : vid) : bool :=
    match v with VSelf | VInvMut => true | VInv | VImmSelf => false end.
  Definition flipped (v : vid) : bool :=
    match v with VSelf | VImmSelf => false | VInv | VInvMut => true end.

  Definition r_step (o : bop U) (R : rel) : rel :=
    match o with
    | BSet v k x => if writable v then (if flipped v then r_put x k R else r_put k x R) else R
    | BDel v k => if writable v then (if flipped v then r_dropR k R else r_dropL k R) else R
    end.
  Fixpoint r_run (os : list (bop U)) (R : rel) : rel :=
    match os with nil => R | cons o r => r_run r (r_step o R) end.
End Spec.
