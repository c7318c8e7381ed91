(** * Specification vocabulary for the echo programs (C68) *)
From Coq Require Import String.
From Coq Require Import List ZArith Bool.
From Verif Require Import PyBase AddrModel PacketModel PacketSpec EchoModel.
Import ListNotations.
Open Scope Z_scope.

(** EchoPacket is registered as class [c] of [E], found by its name and
    version, and has no registered subclass *)
Definition echo_registered (E : env) (c : nat) : Prop :=
  e_cls E c = PCls (lit "test.EchoPacket") (lit "1.0")
    [ (lit "original", FAttr false None, TScalar SBool); (lit "message", FAttr false None, TString) ] /\
  e_lookup E c (lit "test.EchoPacket") (Version 1 0) = Ok (Some c) /\
  e_sub E c c = true /\ (forall c', e_sub E c' c = true -> c' = c).

(** Messages that can be sent: C15 says what happens to the others *)
Definition message_ok (m : pystr) : Prop := is_ascii m /\ zlen m < 2 ^ 16.

(** An EchoPacket with both fields set *)
Definition the_packet (c : nat) (original : bool) (m : pystr) : val :=
  VPacket c [Some (VScalar (SvBool original)); Some (VStr m)].

(** What was written, what the callback got, how often close() was called *)
Definition writes (l : list act) : list bytes := flat_map (fun a => match a with AWrite b => [b] | _ => [] end) l.
Definition callbacks (l : list act) : list (option pystr) := flat_map (fun a => match a with ACall m => [m] | _ => [] end) l.
Definition closes (l : list act) : nat := length (filter (fun a => match a with AClose => true | _ => false end) l).
Definition no_raise (l : list act) : Prop := forall e, ~ In (ARaise e) l.

Definition the_quit : pystr := lit "__QUIT__".
Definition not_quit (m : pystr) : bool := if list_eq_dec Z.eq_dec m the_quit then false else true.

(** What the user sent in a run of client and server *)
Definition user_sent (os : list sop) : list pystr := flat_map (fun o => match o with Send m => [m] | _ => [] end) os.

(** [prefix a b] *)
Definition prefix {A} (a b : list A) : Prop := exists r, b = a ++ r.
