(** * Model of PlaygroundConnector, network/devices/vnic/connect.py 200-357 (CN),
    with ConnectionMadeObserver (CN 14-62) and waitForConnections (CN 140-148),
    on top of ClientModel (the control connection) and CallbackModel (the
    callback service).

    Coroutines are program points; everything between two awaits is one step.
    Not modelled: the callback server (CN 229-235; it is there before a call
    goes on), how a call finds the TCP location of its VNIC (CN 243-254,
    312-330; a call is given the location), the clock (a sleep or a timeout may
    end at any time). *)
From Coq Require Import List ZArith Bool.
From Verif Require Import PyBase ClientModel CallbackModel.
Import ListNotations.
Open Scope nat_scope.

Definition loc := nat.      (* a VNIC's TCP location *)
Definition ctrl := nat.     (* a VNICSocketControlClientProtocol *)
Definition call := nat.     (* a call of create_playground_connection or _server *)
Definition app := nat.      (* an application protocol made by a factory *)

Inductive cpc :=
| PTcp (l : loc) (c : ctrl) (k : ckind)    (* CN 261, 337 *)
| PSleep (l : loc) (k : ckind)             (* CN 264-267, 340-343 *)
| PFuture (c : ctrl) (id : Z) (k : ckind)  (* CN 275, 351 *)
| PConns (c : ctrl) (id : Z)               (* CN 283; c is kept for the specification *)
| PMade (p : proto) (a : app)              (* CN 296 *)
| PReturned (p : proto) (a : app) | PServer (c : ctrl) (id : Z) | PRaised.

Record sys := Sys {
  y_conns : dict loc (option ctrl);        (* _vnicConnections; None is "CONNECTING" *)
  y_nctrl : nat;                           (* control protocols made *)
  y_ctrl : dict ctrl client;
  y_factory : dict (ctrl * Z) call;        (* VS 305, 320: _connections of each control protocol, by the call whose factory it is *)
  y_cbs : cbs;
  y_napp : nat;                            (* applications made *)
  y_obs : dict app bool;                   (* ConnectionMadeObserver.protocols: connected? *)
  y_wait : list call;                      (* _conditionConnections, as in CondModel: waiting, longest first *)
  y_woken : list call;
  y_notify : nat;                          (* notify tasks not yet run *)
  y_calls : dict call cpc
}.
Definition sys_new : sys := Sys [] 0 [] [] cbs_new 0 [] [] [] 0 [].            (* CN 201-218 *)

Inductive why := YTcp | YRefused | YTimeout | YNotOne | YKeyError.
(** A TCP connection to a location is begun; calls end; the connection_made of a
    watched application is seen *)
Inductive ylog :=
| YLTcp (k : call) (l : loc)
| YLReturn (k : call) (p : proto) (a : app)
| YLServer (k : call) (c : ctrl) (id : Z)
| YLRaise (k : call) (w : why)
| YLMade (a : app)
(** a request is sent; an application is made by the factory of call k, for a
    notification on c with this id; its stack is built on a data connection *)
| YLReq (k : call) (c : ctrl) (id : Z) (kd : ckind)
| YLApp (a : app) (k : call) (c : ctrl) (id : Z)
| YLBuilt (a : app) (p : proto).

Definition with_call (k : call) (x : cpc) (s : sys) : sys :=
  Sys (y_conns s) (y_nctrl s) (y_ctrl s) (y_factory s) (y_cbs s) (y_napp s) (y_obs s) (y_wait s) (y_woken s) (y_notify s) (dset (y_calls s) k x).
Definition with_conns (d : dict loc (option ctrl)) (s : sys) : sys :=
  Sys d (y_nctrl s) (y_ctrl s) (y_factory s) (y_cbs s) (y_napp s) (y_obs s) (y_wait s) (y_woken s) (y_notify s) (y_calls s).
Definition with_ctrl (c : ctrl) (x : client) (s : sys) : sys :=
  Sys (y_conns s) (y_nctrl s) (dset (y_ctrl s) c x) (y_factory s) (y_cbs s) (y_napp s) (y_obs s) (y_wait s) (y_woken s) (y_notify s) (y_calls s).
Definition with_cbs (b : cbs) (s : sys) : sys :=
  Sys (y_conns s) (y_nctrl s) (y_ctrl s) (y_factory s) b (y_napp s) (y_obs s) (y_wait s) (y_woken s) (y_notify s) (y_calls s).
Definition with_queue (w v : list call) (n : nat) (s : sys) : sys :=
  Sys (y_conns s) (y_nctrl s) (y_ctrl s) (y_factory s) (y_cbs s) (y_napp s) (y_obs s) w v n (y_calls s).
Definition with_obs (d : dict app bool) (s : sys) : sys :=
  Sys (y_conns s) (y_nctrl s) (y_ctrl s) (y_factory s) (y_cbs s) (y_napp s) d (y_wait s) (y_woken s) (y_notify s) (y_calls s).

(** Each stack built: the application is watched (CN 102) and the condition is
    notified (CN 125) *)
Definition built (g : list blog) (s : sys) : sys :=
  fold_left (fun s x => match x with
    | BBuild _ _ (_, _, a) => with_obs (dset (y_obs s) a false) (with_queue (y_wait s) (y_woken s) (S (y_notify s)) s)
    | _ => s end) g s.
Definition cb_apply (e : bevent) (s : sys) : sys * list ylog :=
  let (b, g) := cb_step e (y_cbs s) in
  (built g (with_cbs b s), flat_map (fun x => match x with BBuild _ p (_, _, a) => [YLBuilt a p] | _ => [] end) g).

(** CN 271-275, 346-351; VS 289-322: the request is sent and its future awaited *)
Definition request (k : call) (kd : ckind) (c : ctrl) (s : sys) : sys * list ylog :=
  match dget (y_ctrl s) c with
  | None => (s, [])                                                  (* not reached *)
  | Some x =>
      let x' := fst (client_step (EOpen kd) x) in
      let s1 := with_ctrl c x' s in
      (with_call k (PFuture c (c_id x') kd)
        (Sys (y_conns s1) (y_nctrl s1) (y_ctrl s1) (dset (y_factory s1) (c, c_id x') k) (y_cbs s1) (y_napp s1) (y_obs s1) (y_wait s1) (y_woken s1) (y_notify s1) (y_calls s1)), [YLReq k c (c_id x') kd])
  end.
(** CN 256-268, 333-344, from the top *)
Definition begin (k : call) (kd : ckind) (l : loc) (s : sys) : sys * list ylog :=
  match dget (y_conns s) l with
  | None =>
      let c := y_nctrl s in
      let d := match kd with KConnect => dset (y_conns s) l None | KListen => y_conns s end in   (* CN 257; a server does not mark *)
      (with_call k (PTcp l c kd)
        (Sys d (S c) (y_ctrl s) (y_factory s) (y_cbs s) (y_napp s) (y_obs s) (y_wait s) (y_woken s) (y_notify s) (y_calls s)), [YLTcp k l])
  | Some None => (with_call k (PSleep l kd) s, [])
  | Some (Some c) => request k kd c s
  end.

(** the awaited application: CN 291-296 (the top of the stack is the application) and CN 51-58 *)
Definition await_made (k : call) (p : proto) (a : app) (s : sys) : sys * list ylog :=
  match dget (y_obs s) a with
  | None => (with_call k PRaised s, [YLRaise k YKeyError])                                       (* CN 54 *)
  | Some true => (with_call k (PReturned p a) (with_obs (ddel (y_obs s) a) s), [YLReturn k p a]) (* CN 60, 37-40, 305 *)
  | Some false => (with_call k (PMade p a) s, [])
  end.
(** CN 146-148 and 284-296, the predicate having the current value *)
Definition look (k : call) (c : ctrl) (id : Z) (s : sys) : sys * list ylog :=
  match spawned (y_cbs s) id with
  | [] => (with_call k (PConns c id) (with_queue (y_wait s ++ [k]) (y_woken s) (y_notify s) s), [])
  | [p] =>
      match dget (b_protos (y_cbs s)) p with
      | Some st => match p_app st with
                   | Some a => await_made k p a s
                   | None => (s, [])                                 (* not reached: a listed protocol has its stack *)
                   end
      | None => (s, [])
      end
  | _ :: _ :: _ => (with_call k PRaised s, [YLRaise k YNotOne])                                  (* CN 284-288 *)
  end.

Inductive yevent :=
| VConnect (k : call) (l : loc)          (* create_playground_connection is called *)
| VListen (k : call) (l : loc)           (* create_playground_server is called *)
| VTcp (k : call) (ok : bool)            (* the TCP connection is there, or failed *)
| VPoll (k : call)                       (* the sleep is over *)
| VPkt (c : ctrl) (p : cpkt)             (* a packet of the VNIC on a control connection *)
| VCb (e : bevent)                       (* a callback connection: made, data, lost *)
| VMade (a : app)                        (* the application's connection_made is called *)
| VResume (k : call)                     (* the awaited future is done; the call goes on *)
| VNotify                                (* a notify task of the condition runs *)
| VTimeout (k : call).                   (* the wait_for of the call times out *)

Definition y_step (e : yevent) (s : sys) : option (sys * list ylog) :=
  match e with
  | VConnect k l => if dhas (y_calls s) k then None else Some (begin k KConnect l s)
  | VListen k l => if dhas (y_calls s) k then None else Some (begin k KListen l s)
  | VTcp k ok =>
      match dget (y_calls s) k with
      | Some (PTcp l c kd) =>
          if ok then Some (request k kd c (with_conns (dset (y_conns s) l (Some c)) (with_ctrl c (fst (client_step EMade client_new)) s)))   (* CN 262-275, 338-351 *)
          else Some (with_call k PRaised s, [YLRaise k YTcp])        (* CN 261, 337 *)
      | _ => None
      end
  | VPoll k =>
      match dget (y_calls s) k with
      | Some (PSleep l kd) =>
          match dget (y_conns s) l with
          | Some (Some c) => Some (request k kd c s)
          | _ => Some (s, [])
          end
      | _ => None
      end
  | VPkt c p =>                                                      (* VS 332-369 *)
      match dget (y_ctrl s) c with
      | None => None
      | Some x =>
          let (x', g) := handle p x in
          let s1 := with_ctrl c x' s in
          match g with
          | LPkt _ (Some (id, kd, tcp)) _ _ =>
              match dget (y_factory s) (c, id) with
              | None => Some (s1, [])                                (* not reached *)
              | Some k =>
                  let a := y_napp s1 in                              (* VS 362: applicationProtocolFactory() *)
                  let s2 := Sys (y_conns s1) (y_nctrl s1) (y_ctrl s1) (y_factory s1) (y_cbs s1) (S a) (y_obs s1) (y_wait s1) (y_woken s1) (y_notify s1) (y_calls s1) in
                  let (s3, g3) := cb_apply (QNote tcp (id, kd, a)) s2 in Some (s3, YLApp a k c id :: g3)
              end
          | _ => Some (s1, [])
          end
      end
  | VCb e =>
      match e with
      | QMade p _ => if dhas (b_protos (y_cbs s)) p then None else Some (cb_apply e s)
      | QData _ _ | QLost _ => Some (cb_apply e s)
      | _ => None                                                    (* QNote and QWait are done by VPkt and VResume *)
      end
  | VMade a =>                                                       (* CN 42-49 *)
      match dget (y_obs s) a with
      | Some _ => Some (with_obs (dset (y_obs s) a true) s, [YLMade a])
      | None => Some (s, [])
      end
  | VResume k =>
      match dget (y_calls s) k with
      | Some (PFuture c id kd) =>
          match dget (y_ctrl s) c with
          | Some x =>
              match dget (c_fut x) id with
              | Some (FDone (OResult i _)) =>
                  match kd with
                  | KListen => Some (with_call k (PServer c i) s, [YLServer k c i])                    (* CN 356 *)
                  | KConnect => Some (look k c i (with_cbs (fst (cb_step (QWait i) (y_cbs s))) s))     (* CN 283, 142-147 *)
                  end
              | Some (FDone OFailure) => Some (with_call k PRaised s, [YLRaise k YRefused])
              | _ => None
              end
          | None => None
          end
      | Some (PConns c id) =>
          if smem (y_woken s) k then Some (look k c id (with_queue (y_wait s) (sremove (y_woken s) k) (y_notify s) s)) else None
      | Some (PMade p a) =>                                          (* CN 57-60 *)
          match dget (y_obs s) a with
          | Some true => Some (with_call k (PReturned p a) (with_obs (ddel (y_obs s) a) s), [YLReturn k p a])
          | Some false => None
          | None => Some (with_call k PRaised s, [YLRaise k YKeyError])
          end
      | _ => None
      end
  | VNotify =>
      match y_notify s with
      | O => None
      | S n => Some (match y_wait s with
                     | [] => with_queue [] (y_woken s) n s
                     | k :: r => with_queue r (y_woken s ++ [k]) n s
                     end, [])
      end
  | VTimeout k =>
      match dget (y_calls s) k with
      | Some (PFuture c id _) =>                                     (* CN 277-278, 353-354: the future is cancelled *)
          match dget (y_ctrl s) c with
          | Some x => match dget (c_fut x) id with
                      | Some FPending => Some (with_call k PRaised (with_ctrl c (fst (client_step (ETimeout id) x)) s), [YLRaise k YTimeout])
                      | _ => None
                      end
          | None => None
          end
      | Some (PMade _ _) => Some (with_call k PRaised s, [YLRaise k YTimeout])                         (* CN 297-303 *)
      | _ => None
      end
  end.
Fixpoint y_run (es : list yevent) (s : sys) : option (sys * list ylog) :=
  match es with
  | [] => Some (s, [])
  | e :: r => match y_step e s with
              | None => None
              | Some (s1, g1) => match y_run r s1 with Some (s2, g2) => Some (s2, g1 ++ g2) | None => None end
              end
  end.
