(** * What the callback service should do *)
From Coq Require Import List ZArith Bool.
From Verif Require Import PyBase ClientModel CallbackModel.
Import ListNotations.
Open Scope Z_scope.

Definition made (es : list bevent) : list proto := concat (map (fun e => match e with QMade p _ => [p] | _ => [] end) es).
(** asyncio's contract: each connection is a new protocol, with a peer port;
    data and loss come on open connections only *)
Definition well_behaved (es : list bevent) : Prop := forall before e after, es = before ++ e :: after ->
  match e with
  | QMade p port => port <> 0 /\ ~ In p (made before)
  | QData p _ | QLost p => In p (made before) /\ ~ In (QLost p) before
  | _ => True
  end.
(** the connections from a port and the notifications for it, in order *)
Definition conns (port : Z) (es : list bevent) : list proto :=
  concat (map (fun e => match e with QMade p q => if Z.eq_dec q port then [p] else [] | _ => [] end) es).
Definition notes (port : Z) (es : list bevent) : list note :=
  concat (map (fun e => match e with QNote q n => if Z.eq_dec q port then [n] else [] | _ => [] end) es).
Definition all_notes (es : list bevent) : list note :=
  concat (map (fun e => match e with QNote _ n => [n] | _ => [] end) es).
Definition app_of (n : note) : nat := snd n.
Definition id_of (n : note) : Z := fst (fst n).
(** Port numbers are not reused too early: of one port there is never more than
    one connection or one notification waiting for its counterpart, and none
    while another connection of that port is being lost. *)
Definition paired_use (port : Z) (es : list bevent) : Prop := forall before after, es = before ++ after ->
  (length (conns port before) <= S (length (notes port before)) /\
   length (notes port before) <= S (length (conns port before)))%nat /\
  forall p r, after = QLost p :: r -> In p (conns port before) -> length (conns port before) = length (notes port before).

(** reading the log *)
Definition all_builds (g : list blog) : list (Z * proto * note) :=
  concat (map (fun x => match x with BBuild q p n => [(q, p, n)] | _ => [] end) g).
Definition builds (port : Z) (g : list blog) : list (proto * note) :=
  concat (map (fun x => match x with BBuild q p n => if Z.eq_dec q port then [(p, n)] else [] | _ => [] end) g).
Definition app_on (p : proto) (g : list blog) : option nat :=
  match find (fun b => Nat.eqb (snd (fst b)) p) (all_builds g) with Some (_, _, n) => Some (app_of n) | None => None end.
Definition delivered (p : proto) (g : list blog) : list (nat * bytes) :=
  concat (map (fun x => match x with BDeliver q a b => if Nat.eq_dec q p then [(a, b)] else [] | _ => [] end) g).
Definition received (p : proto) (es : list bevent) : list bytes :=
  concat (map (fun e => match e with QData q b => if Nat.eq_dec q p then [b] else [] | _ => [] end) es).
Definition is_lost (p : proto) (g : list blog) : bool :=
  existsb (fun x => match x with BLost q _ => Nat.eqb q p | _ => false end) g.
Definition losses (p : proto) (g : list blog) : list (option nat) :=
  concat (map (fun x => match x with BLost q a => if Nat.eq_dec q p then [Some a] else [] | BError q => if Nat.eq_dec q p then [None] else [] | _ => [] end) g).
(** the connections built for a connection id, in order *)
Definition built_for (id : Z) (g : list blog) : list proto :=
  concat (map (fun x => match x with BBuild _ p n => if Z.eq_dec (id_of n) id then [p] else [] | _ => [] end) g).
