(** * What a stack of protocols or transports should be *)
From Coq Require Import List ZArith Bool.
From Verif Require Import PyBase StackModel.
Import ListNotations.
Open Scope nat_scope.

(** following higherProtocol() from an object gives exactly this list *)
Inductive chain (h : heap) : option nat -> list nat -> Prop :=
| chain_end : chain h None []
| chain_next i l : i < length h -> chain h (higher h i) l -> chain h (Some i) (i :: l).
(** a factory that hands out a newly made protocol and leaves the existing ones
    alone; it may make more than one object *)
Definition makes_new (f : factory) : Prop := forall h h' p, f h = Ok (h', p) ->
  length h <= p < length h' /\ forall i, i < length h -> nth_error h' i = nth_error h i.
(** [p] is what a call of the factory returned *)
Definition made_by (f : factory) (p : nat) : Prop := exists h1 h2, f h1 = Ok (h2, p).
Definition kind_of (h : heap) (i : nat) : option nat := option_map fst (nth_error h i).

(** the first layer from the top that has the entry *)
Fixpoint layers (t : transport) : list (dict xname Z) :=
  match t with TBase e => [e] | TStack l e => e :: layers l end.
Fixpoint first_entry (es : list (dict xname Z)) (n : xname) : option Z :=
  match es with [] => None | e :: r => match dget e n with Some v => Some v | None => first_entry r n end end.
(** transports stacked on a base, lowest first *)
Definition stacked (base : dict xname Z) (extras : list (dict xname Z)) : transport :=
  fold_left stack_transport extras (TBase base).
