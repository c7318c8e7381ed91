(** * What fragmentation and reassembly should do *)
From Coq Require Import List ZArith Bool.
From Verif Require Import PyBase FragModel.
Import ListNotations.
Open Scope Z_scope.

(** consecutive pieces with the position of each *)
Fixpoint with_offsets (o : Z) (cs : list bytes) : list (Z * bytes) :=
  match cs with [] => [] | c :: r => (o, c) :: with_offsets (o + zlen c) r end.

Definition pkt_id (p : wire) : option Z := match w_frag p with Some (i, _, _) => Some i | None => None end.

(** A history of a receiver in which every packet arrives in a call of its own *)
Inductive rev := RPkt (p : wire) | RTimeout (fragId : Z).
Definition rx_event (e : rev) (st : storage) : storage * list delivery :=
  match e with
  | RPkt p => rx_call [p] st
  | RTimeout i => (rx_timeout i st, [])
  end.
Fixpoint rx_events (h : list rev) (st : storage) : storage * list (rev * list delivery) :=
  match h with
  | [] => (st, [])
  | e :: r => let (st', o) := rx_event e st in let (st'', os) := rx_events r st' in (st'', (e, o) :: os)
  end.
Definition of_id (i : Z) (e : rev) : bool := match e with RPkt p => eqb (pkt_id p) (Some i) | RTimeout _ => false end.
(** what the fragments with this id caused to be delivered *)
Definition delivered_by (i : Z) (out : list (rev * list delivery)) : list delivery :=
  concat (map snd (filter (fun eo => of_id i (fst eo)) out)).
(** the fragments with this id, in order of arrival *)
Definition fragments_in (i : Z) (h : list rev) : list wire :=
  concat (map (fun e => match e with RPkt p => [p] | RTimeout _ => [] end) (filter (of_id i) h)).

(** What a call that decodes several packets hands over, given what each of
    them would have caused in a call of its own: a packet that causes nothing
    repeats the data of the latest one in the call that did, with its own
    addresses. *)
Fixpoint repeated (last : option bytes) (out : list (rev * list delivery)) : list delivery :=
  match out with
  | [] => []
  | (RPkt p, []) :: r => match last with Some d => deliver p d :: repeated last r | None => repeated None r end
  | (_, ds) :: r => ds ++ repeated (match rev' ds with (_, _, _, _, d) :: _ => Some d | [] => last end) r
  end.
(** no packet that completes nothing follows, in the call, one that does *)
Fixpoint quiet_first (out : list (rev * list delivery)) : Prop :=
  match out with
  | [] => True
  | (_, []) :: r => quiet_first r
  | (_, _ :: _) :: r => Forall (fun eo => snd eo <> []) r
  end.
