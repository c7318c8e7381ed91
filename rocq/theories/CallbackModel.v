(** * Model of the callback service: CallbackService,
    network/devices/vnic/connect.py 64-151 (CN), and VNICCallbackProtocol,
    network/protocols/vsockets.py 374-423 (VS) *)
From Coq Require Import List ZArith Bool.
From Verif Require Import PyBase ClientModel.
Import ListNotations.
Open Scope Z_scope.

(** Callback protocols (one for each accepted connection) and applications are
    numbered; what the objects of the stack between them do is user code (its
    construction is StackModel). *)
Definition proto := nat.
Definition note := (Z * ckind * nat)%type.        (* connection id, type, application: CN 96 *)
Record pstate := PState { p_port : Z; p_app : option nat; p_backlog : list bytes }.   (* VS 375-381 *)
Record cbs := Cbs {
  b_protos : dict proto pstate;
  b_data : dict Z proto;                          (* _dataProtocols *)
  b_info : dict Z note;                           (* _connectionData *)
  b_spawn : dict Z (list proto);                  (* _connectionSpawn *)
  b_back : dict proto Z                           (* _connectionBackptr *)
}.
Definition cbs_new : cbs := Cbs [] [] [] [] [].

(** What can be observed: a stack built for the application of a notification
    on a connection of this port; data handed to it; its loss; an exception in
    connection_lost *)
Inductive blog :=
| BBuild (port : Z) (p : proto) (n : note)
| BDeliver (p : proto) (app : nat) (b : bytes)
| BLost (p : proto) (app : nat)
| BError (p : proto).

Definition spawned (s : cbs) (id : Z) : list proto := match dget (b_spawn s) id with Some l => l | None => [] end.
(** CN 99-125 and VS 389-402: the connection's higher protocol is set and told,
    the backlog is handed over, the tables are updated *)
Definition build_stack (port : Z) (p : proto) (n : note) (s : cbs) : cbs * list blog :=
  let '(id, _, app) := n in
  match dget (b_protos s) p with
  | None => (s, [])                                                       (* not reached: CbInv *)
  | Some st =>
      (Cbs (dset (b_protos s) p (PState (p_port st) (Some app) []))
           (ddel (b_data s) port) (ddel (b_info s) port)
           (dset (b_spawn s) id (spawned s id ++ [p])) (dset (b_back s) p id),
       BBuild port p n :: map (BDeliver p app) (p_backlog st))
  end.
(** CN 80-87; which of the two stack factories is used is part of the note *)
Definition try_build (port : Z) (s : cbs) : cbs * list blog :=
  match dget (b_info s) port, dget (b_data s) port with
  | Some n, Some p => build_stack port p n s
  | _, _ => (s, [])
  end.
(** CN 127-138 *)
Definition data_closed (p : proto) (port : Z) (s : cbs) : cbs :=
  let '(spawn, back) := match dget (b_back s) p with
                        | Some id => (dset (b_spawn s) id (sremove (spawned s id) p), ddel (b_back s) p)
                        | None => (b_spawn s, b_back s)
                        end in
  Cbs (b_protos s) (ddel (b_data s) port) (ddel (b_info s) port) spawn back.

(** A callback connection is accepted; a notification is passed on; data and
    loss on a callback connection; waitForConnections(id) begins *)
Inductive bevent := QMade (p : proto) (port : Z) | QNote (port : Z) (n : note) | QData (p : proto) (b : bytes) | QLost (p : proto) | QWait (id : Z).
Definition cb_step (e : bevent) (s : cbs) : cbs * list blog :=
  match e with
  | QMade p port =>                                                       (* VS 383-387, CN 89-92 *)
      try_build port (Cbs (dset (b_protos s) p (PState port None [])) (dset (b_data s) port p) (b_info s) (b_spawn s) (b_back s))
  | QNote port n =>                                                       (* CN 94-97 *)
      try_build port (Cbs (b_protos s) (b_data s) (dset (b_info s) port n) (b_spawn s) (b_back s))
  | QData p b =>                                                          (* VS 414-423 *)
      match dget (b_protos s) p with
      | None => (s, [])
      | Some st =>
          match p_app st with
          | Some app => (s, [BDeliver p app b])
          | None => (Cbs (dset (b_protos s) p (PState (p_port st) None (p_backlog st ++ [b]))) (b_data s) (b_info s) (b_spawn s) (b_back s), [])
          end
      end
  | QLost p =>                                                            (* VS 404-412 *)
      match dget (b_protos s) p with
      | None => (s, [])
      | Some st =>
          match p_app st with
          | Some app => (if Z.eqb (p_port st) 0 then s else data_closed p (p_port st) s, [BLost p app])
          | None => (s, [BError p])                                       (* None has no connection_lost *)
          end
      end
  | QWait id =>                                                           (* CN 140-143 *)
      (match dget (b_spawn s) id with Some _ => s | None => Cbs (b_protos s) (b_data s) (b_info s) (dset (b_spawn s) id []) (b_back s) end, [])
  end.
Fixpoint cb_run (es : list bevent) (s : cbs) : cbs * list blog :=
  match es with
  | [] => (s, [])
  | e :: r => let (s1, g1) := cb_step e s in let (s2, g2) := cb_run r s1 in (s2, g1 ++ g2)
  end.
(** CN 150-151 *)
Definition get_connections (s : cbs) (id : Z) : list proto := spawned s id.
