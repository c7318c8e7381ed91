(** * What is expected of the VNIC service (see VsvcModel) *)
From Coq Require Import String.
From Coq Require Import List ZArith Bool.
From Verif Require Import PyBase AddrModel AddrSpec PnmsModel PnmsSpec DeviceModel VsvcModel.
Import ListNotations.

(** In terms of the network that a configuration describes (PnmsSpec.net) *)
Definition option_of (n : net) (d o : pystr) : option pystr := match t_dev n d with Some (_, s) => dget s o | None => None end.
Definition own_address (n : net) (d : pystr) : option pystr := option_of n d (lit "playground_address").
Definition is_remote_ap (n : net) (d : pystr) : bool := eqb (option_of n d (lit "physical_connection_type")) (Some (lit "remote")).
Definition default_owner (n : net) : option pystr := owner n (lit "__default__").

(** Routes are blocks *)
Definition good_routes (n : net) : Prop := forall r d, In (r, d) (t_routes n) -> r <> lit "__default__" -> exists b, from_string ClsBlock r = Ok b.
(** The address lies in the route's block *)
Definition holds (a : addr) (r : pystr) : Prop := exists b, from_string ClsBlock r = Ok b /\ covers b a.
(** The interface for an address: of the first route that holds it, else of the default *)
Inductive chosen (n : net) (a : addr) : option pystr -> Prop :=
| chosen_route l r d rest : t_routes n = l ++ (r, d) :: rest -> r <> lit "__default__" -> holds a r ->
    (forall r' d', In (r', d') l -> r' <> lit "__default__" -> ~ holds a r') -> chosen n a (Some d)
| chosen_default : (forall r d, In (r, d) (t_routes n) -> r <> lit "__default__" -> ~ holds a r) -> chosen n a (default_owner n).

(** What runs, seen from outside: the process and its run files *)
Definition runs_at (os : pystr -> osd) (d : pystr) : bool := o_files (os d) && o_alive (os d).
(** An interface that works: it runs, and so does what it is connected to, or that is remote *)
Definition works (n : net) (os : pystr -> osd) (d : pystr) : bool :=
  runs_at os d && match t_conn n d with Some a => is_remote_ap n a || runs_at os a | None => false end.

(** Where an interface is reached, if it worked ([live]) when the service was
    made, given whether its status file is there and what its first line is *)
Definition place (live files : bool) (line : pystr) : location + verr :=
  if live then
    if files then match parse_int line with Ok p => inl (Loc (Some (lit "127.0.0.1")) (Some p)) | Raise e => inr (VPy e) end
    else inr VNoFile
  else inl (Loc None None).
(** ... and an access point, by its settings *)
Definition place_ap (n : net) (d : pystr) (live files : bool) (line : pystr) : location + verr :=
  match option_of n d (lit "physical_connection_type"), option_of n d (lit "tcp_address"), option_of n d (lit "tcp_port") with
  | Some t, a, p =>
      if eqb t (lit "managed") then place live files line
      else match p with
           | None => inr (VPy KeyError)
           | Some p =>
               match parse_int p with
               | Raise e => inr (VPy e)
               | Ok p => inl (Loc (if eqb t (lit "remote") then a else if eqb t (lit "public") then None else Some (lit "127.0.0.1")) (Some p))
               end
           end
  | None, _, _ => inr (VPy KeyError)
  end.
Definition with_addr {A} (a : A) (l : location + verr) : (A * location) + verr := match l with inl l => inl (a, l) | inr e => inr e end.
(** a location a server can be opened at *)
Definition for_server {A} (x : (A * location) + verr) : (A * location) + verr :=
  match x with
  | inl (a, Loc (Some (_ :: _)) (Some p)) => if Z.eqb p 0 then inr VBadLocation else x
  | inl _ => inr VBadLocation
  | inr e => inr e
  end.

(** Names in calls are those of C50 *)
Definition plain_event (e : vevent) : Prop := match e with VCall _ (CConn _ d) => plain d | _ => True end.
