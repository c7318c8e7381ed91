(** * Specification of a flat mutable mapping, independent of the tree *)
From Coq Require Import List.
From Verif Require Import PyBase HDModel.

Section Flat.
  Context {K V : Type} `{EqDec K}.
  (** the value most recently assigned to exactly [k] and not deleted since *)
  Definition flat := K -> option V.
  Definition flat_empty : flat := fun _ => None.
  Definition flat_step (o : hop K V) (m : flat) : flat :=
    match o with
    | HSet k v => fun k' => if eq_dec k' k then Some v else m k'
    | HDel k => fun k' => if eq_dec k' k then None else m k'
    end.
  Fixpoint flat_run (os : list (hop K V)) (m : flat) : flat :=
    match os with nil => m | cons o r => flat_run r (flat_step o m) end.
End Flat.
