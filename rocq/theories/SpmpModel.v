(** * Model of the management protocol, network/protocols/spmp.py (SP), and of
    SimpleCondition, asyncio_lib/SimpleCondition.py (SC) *)
From Coq Require Import List ZArith Bool.
From Verif Require Import PyBase.
Import ListNotations.
Open Scope Z_scope.

(** SPMPPacket, packets/management.py 15-32; the security fields are passed
    through and left out.  [None]: the optional error is not set. *)
Record spmp := Spmp { m_id : Z; m_request : pystr; m_args : list pystr; m_result : pystr; m_error : option pystr }.

(** ** The server *)
Section Server.
  Context {D : Type}.
  (** an operation of the device returns a value, given by its str(), which is
      what the STRING field stores (StringFieldType.py 5-9), or raises, given
      by the str() of the exception *)
  Inductive opres := OpValue (s : pystr) | OpRaises (msg : pystr).
  Definition operation := D -> list pystr -> D * opres.
  (** a policy decides by the peer's host, if the transport knows it, and the packet *)
  Definition policy := option pystr -> spmp -> bool.
  Record server := Server { s_api : dict pystr operation; s_security : option policy; s_name : pystr }.
  (** what can be observed: an operation is run; a packet is sent; close() *)
  Inductive slog := SRun (cmd : pystr) (args : list pystr) | SSend (p : spmp) | SClose.

  (** "Unknown request {} to device [{}]", SP 108 *)
  Definition unknown_text (cmd name : pystr) : pystr :=
    [85;110;107;110;111;119;110;32;114;101;113;117;101;115;116;32;39] ++ cmd ++
    [39;32;116;111;32;100;101;118;105;99;101;32;91] ++ name ++ [93].
  (** _processSpmpRequest, SP 94-116; the transport is there between
      connection_made and connection_lost *)
  Definition process (sv : server) (peer : option pystr) (r : spmp) (x : D) : D * list slog :=
    if match s_security sv with Some pol => negb (pol peer r) | None => false end
    then (x, [SClose])                                                              (* SP 95-97 *)
    else
      let reply res err := Spmp (m_id r) (m_request r) (m_args r) res
                             (match err with Some ((_ :: _) as e) => Some e | _ => m_error r end) in   (* SP 104-106, 114-115 *)
      match dget (s_api sv) (m_request r) with
      | None => (x, [SSend (reply [] (Some (unknown_text (m_request r) (s_name sv))))])   (* SP 107-108 *)
      | Some op =>
          let (x', o) := op x (m_args r) in                                         (* SP 110-111 *)
          match o with
          | OpValue s => (x', [SRun (m_request r) (m_args r); SSend (reply s None)])
          | OpRaises m => (x', [SRun (m_request r) (m_args r); SSend (reply [] (Some m))])  (* SP 112-113 *)
          end
      end.
  (** data_received, SP 89-92, with the packets the deserializer yields *)
  Fixpoint serve (sv : server) (peer : option pystr) (rs : list spmp) (x : D) : D * list slog :=
    match rs with
    | [] => (x, [])
    | r :: rest => let (x1, g1) := process sv peer r x in let (x2, g2) := serve sv peer rest x1 in (x2, g1 ++ g2)
    end.
End Server.
Arguments opres : clear implicits.
Arguments operation D : clear implicits.
Arguments server D : clear implicits.
(** LocalAccessSecurityPolicy.authorized, SP 21-31 *)
Definition local_host : pystr := [49;50;55;46;48;46;48;46;49].                        (* "127.0.0.1" *)
Definition local_access : policy := fun peer _ => match peer with Some h => eqb h local_host | None => false end.

(** HiddenSPMPServerProtocol.data_received, SP 124-131, and
    FramedProtocolAdapter.data_received, SP 163-169: management packets are
    split off, the others go, serialised again, to the main protocol *)
Inductive mixed := MSpmp (r : spmp) | MOther (b : bytes).
Inductive mlog := MServe (g : slog) | MMain (b : bytes).
Fixpoint hidden {D} (sv : server D) (peer : option pystr) (ps : list mixed) (x : D) : D * list mlog :=
  match ps with
  | [] => (x, [])
  | MSpmp r :: rest =>
      let (x1, g1) := process sv peer r x in let (x2, g2) := hidden sv peer rest x1 in (x2, map MServe g1 ++ g2)
  | MOther b :: rest => let (x2, g2) := hidden sv peer rest x in (x2, MMain b :: g2)
  end.

(** ** The client *)
(** A query waits for its response on a SimpleCondition whose predicate is
    "my id is in _responses" (SP 57-68).  asyncio's Condition: waiters in a
    FIFO; a notify (SC 14-19) is a task of its own that, when it runs, wakes
    the first waiter not yet woken; a woken waiter runs later, and if its
    predicate is false waits again, at the end of the FIFO (SC 7-12).  The lock
    of the condition is never held across a suspension (a waiter releases it
    while waiting), so it adds no waiting.  Tasks that are ready run in any order. *)
Definition query := nat.
Record qclient := QClient {
  q_responses : dict Z (pystr * option pystr);          (* _responses, never cleared *)
  q_ids : dict query Z;                                 (* the request id of each query made *)
  q_waiting : list query;                               (* in the FIFO, not woken *)
  q_woken : list query;                                 (* woken, not yet run *)
  q_notify : nat;                                       (* notify tasks that have not run *)
  q_done : dict query (pystr * option pystr)            (* queries that have returned *)
}.
Definition qclient_new : qclient := QClient [] [] [] [] O [].                          (* SP 34-40 *)
Inductive qevent :=
| QQuery (q : query) (id : Z)                           (* query() is called; the id is random, SP 58-59 *)
| QResponse (id : Z) (v : pystr * option pystr)         (* a packet arrives *)
| QNotify                                               (* a notify task runs *)
| QWake (q : query).                                    (* a woken waiter runs *)
Definition remove_query (q : query) (l : list query) : list query := sremove l q.
(** SC 8-12 with SP 67-68: evaluate the predicate; return or wait *)
Definition evaluate (q : query) (s : qclient) : qclient :=
  match dget (q_ids s) q with
  | None => s
  | Some id =>
      match dget (q_responses s) id with
      | Some v => QClient (q_responses s) (q_ids s) (q_waiting s) (q_woken s) (q_notify s) (dset (q_done s) q v)
      | None => QClient (q_responses s) (q_ids s) (q_waiting s ++ [q]) (q_woken s) (q_notify s) (q_done s)
      end
  end.
(** None: the event cannot happen in this state *)
Definition q_step (e : qevent) (s : qclient) : option qclient :=
  match e with
  | QQuery q id =>                                                                   (* SP 57-68 *)
      if dhas (q_ids s) q then None
      else Some (evaluate q (QClient (q_responses s) (dset (q_ids s) q id) (q_waiting s) (q_woken s) (q_notify s) (q_done s)))
  | QResponse id v =>                                                                (* SP 48-55 *)
      Some (QClient (dset (q_responses s) id v) (q_ids s) (q_waiting s) (q_woken s) (S (q_notify s)) (q_done s))
  | QNotify =>                                                                       (* SC 14-16 *)
      match q_notify s with
      | O => None
      | S n => Some (match q_waiting s with
                     | [] => QClient (q_responses s) (q_ids s) [] (q_woken s) n (q_done s)
                     | q :: r => QClient (q_responses s) (q_ids s) r (q_woken s ++ [q]) n (q_done s)
                     end)
      end
  | QWake q =>                                                                       (* SC 10-11 *)
      if smem (q_woken s) q
      then Some (evaluate q (QClient (q_responses s) (q_ids s) (q_waiting s) (remove_query q (q_woken s)) (q_notify s) (q_done s)))
      else None
  end.
Fixpoint q_run (es : list qevent) (s : qclient) : option qclient :=
  match es with [] => Some s | e :: r => match q_step e s with Some s' => q_run r s' | None => None end end.
(** nothing left to run *)
Definition quiescent (s : qclient) : Prop := q_woken s = [] /\ q_notify s = O.
