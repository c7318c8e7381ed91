(** * What line input means *)
From Coq Require Import List ZArith.
From Verif Require Import PyBase LineModel.
Import ListNotations.

Definition occurs (d b : bytes) : Prop := exists p q, b = p ++ d ++ q.
(** [l] is a line: followed by the delimiter, the delimiter is found there and
    not before. *)
Definition is_line (d l : bytes) : Prop := forall p q, l ++ d = p ++ d ++ q -> p = l.
(** The byte stream made of the lines [ls], each ended by the delimiter, and an
    unfinished line [rest]. *)
Definition stream_of (d : bytes) (ls : list bytes) (rest : bytes) : bytes := concat (map (fun l => l ++ d) ls) ++ rest.

Definition upcalls (g : list llog) : list upcall := concat (map (fun e => match e with LUp u => [u] | _ => [] end) g).
(** The bytes that came in, and the bytes that were used up, in a record *)
Definition given (g : list llog) : bytes := concat (map (fun e => match e with LIn b => b | _ => [] end) g).
Definition used (d : bytes) (g : list llog) : bytes :=
  concat (map (fun e => match e with
                        | LUp (ULine l) => l ++ d
                        | LUp (URaw b) | LUp (UExceeded b) | LClear b => b
                        | _ => [] end) g).
(** The mode in force after a record *)
Fixpoint raw_after (m : bool) (g : list llog) : bool :=
  match g with [] => m | LMode m' :: r => raw_after m' r | _ :: r => raw_after m r end.

(** A subclass that only consumes: it does nothing to the receiver and returns None. *)
Definition consumer {U} (h : U -> upcall -> U * list lact * hres) : Prop := forall u c, snd (fst (h u c)) = [] /\ snd (h u c) = HRet false.
(** A subclass that never feeds data back. *)
Definition feeds_nothing (a : lact) : Prop := match a with AData b | ALineMode b => b = [] | _ => True end.
Definition no_feedback {U} (h : U -> upcall -> U * list lact * hres) : Prop := forall u c, Forall feeds_nothing (snd (fst (h u c))).

(** The subclass's state after the calls [cs], and whether it has called
    lose_connection in one of them *)
Fixpoint after_calls {U} (h : U -> upcall -> U * list lact * hres) (u : U) (cs : list upcall) : U :=
  match cs with [] => u | c :: r => after_calls h (fst (fst (h u c))) r end.
Definition is_lose (a : lact) : bool := match a with ALose => true | _ => false end.
Fixpoint has_lost {U} (h : U -> upcall -> U * list lact * hres) (u : U) (cs : list upcall) : bool :=
  match cs with [] => false | c :: r => (existsb is_lose (snd (fst (h u c))) || has_lost h (fst (fst (h u c))) r)%bool end.
(** a transport that says it is disconnecting does so from then on *)
Definition disconnects {U} (t : trkind) (h : U -> upcall -> U * list lact * hres) (u : U) (cs : list upcall) : bool :=
  match t with Twisted b => (b || has_lost h u cs)%bool | _ => false end.
Definition line_call (c : upcall) : bool := match c with ULine _ => true | _ => false end.
Definition exceeded_call (c : upcall) : bool := match c with UExceeded _ => true | _ => false end.
