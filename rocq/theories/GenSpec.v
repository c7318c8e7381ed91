(** * What is expected of ReturnOrientedGenerator (see GenModel) *)
From Coq Require Import List Arith.
From Verif Require Import PyBase GenModel.
Import ListNotations.

(** the values, in the order in which they were handed out, to whatever iterator *)
Definition values {A} (tr : list (nat * answer A)) : list A := flat_map (fun p => match snd p with Yields a => [a] | _ => [] end) tr.
(** the iterators that came to their end: how many *)
Definition stopped {A} (tr : list (nat * answer A)) : list nat := flat_map (fun p => match snd p with Stops => [fst p] | _ => [] end) tr.
Definition ends {A} (tr : list (nat * answer A)) : nat := length (nodup Nat.eq_dec (stopped tr)).
Definition drops (o : op) : Prop := match o with Drop _ => True | _ => False end.
