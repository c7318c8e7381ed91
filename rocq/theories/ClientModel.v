(** * Model of the control connection to a VNIC, client side:
    VNICSocketControlClientProtocol, network/protocols/vsockets.py 280-372 (VS) *)
From Coq Require Import List ZArith Bool.
From Verif Require Import PyBase.
Import ListNotations.
Open Scope Z_scope.

Inductive ckind := KConnect | KListen.
(** The packets of the VNIC, decoded: an open response (with its isFailure()
    and port), a spawn notification (its tcp port and source port; the other
    addresses are passed through), anything else.  VS 335, 352. *)
Inductive cpkt := CResp (id : Z) (failure : bool) (port : Z) | CSpawn (id : Z) (tcp sport : Z) | COther.
Inductive outcome := OResult (id port : Z) | OFailure.
(** an asyncio Future: cancel() is what wait_for does on a timeout *)
Inductive fstate := FPending | FCancelled | FDone (o : outcome).

Record client := Client {
  c_up : bool;                     (* VS 287, 328-330 *)
  c_id : Z;                        (* _connectionId *)
  c_conns : list Z;                (* the keys of _connections *)
  c_futs : dict Z ckind;           (* _futures, without the future itself *)
  c_fut : dict Z fstate;           (* the futures handed out, by connection id *)
  c_queue : list cpkt              (* decoded packets still with the deserializer *)
}.
Definition client_new : client := Client false 0 [] [] [] [].                       (* VS 281-287 *)

(** What a packet caused: the completeCallback call (id, type, tcp port), the
    future completed, and the exception, if any, that left data_received. *)
Inductive clog :=
| LReq (k : ckind) (id : Z)
| LClose (id : Z)
| LCancel (id : Z)
| LPkt (p : cpkt) (call : option (Z * ckind * Z)) (done : option (Z * outcome)) (exc : option exn).

(** future.set_result / set_exception: only a pending future can be completed *)
Definition complete (s : client) (id : Z) (o : outcome) : client * option (Z * outcome) * option exn :=
  match dget (c_fut s) id with
  | Some FPending => (Client (c_up s) (c_id s) (c_conns s) (c_futs s) (dset (c_fut s) id (FDone o)) (c_queue s), Some (id, o), None)
  | _ => (s, None, Some InvalidStateError)
  end.
Definition forget (s : client) (id : Z) : client :=
  Client (c_up s) (c_id s) (c_conns s) (ddel (c_futs s) id) (c_fut s) (c_queue s).

(** VS 335-368, one packet.  Application factories and completeCallback are
    taken not to raise (for the latter see CallbackModel). *)
Definition handle (p : cpkt) (s : client) : client * clog :=
  match p with
  | CResp id failure port =>
      match dget (c_futs s) id with
      | None => (s, LPkt p None None None)                                          (* VS 337-339 *)
      | Some k =>
          let s1 := if (match k with KListen => true | KConnect => false end) || failure then forget s id else s in  (* VS 341-344 *)
          if failure then let '(s2, d, x) := complete s1 id OFailure in (s2, LPkt p None d x)           (* VS 346-347 *)
          else match k with
               | KListen => let '(s2, d, x) := complete s1 id (OResult id port) in (s2, LPkt p None d x)   (* VS 348-350 *)
               | KConnect => (s1, LPkt p None None None)
               end
      end
  | CSpawn id tcp sport =>
      let k := match dget (c_futs s) id with Some k => k | None => KListen end in      (* VS 353-356 *)
      if smem (c_conns s) id then                                                    (* VS 360 *)
        match k with
        | KConnect => let '(s2, d, x) := complete (forget s id) id (OResult id sport) in   (* VS 366-369 *)
                      (s2, LPkt p (Some (id, k, tcp)) d x)
        | KListen => (s, LPkt p (Some (id, k, tcp)) None None)
        end
      else (s, LPkt p None None (Some KeyError))
  | COther => (s, LPkt p None None None)
  end.
(** VS 334: the loop; an exception leaves the packets behind it queued *)
Fixpoint handle_all (ps : list cpkt) (s : client) : client * list clog * list cpkt :=
  match ps with
  | [] => (s, [], [])
  | p :: r =>
      let '(s1, g) := handle p s in
      match g with
      | LPkt _ _ _ (Some _) => (s1, [g], r)
      | _ => let '(s2, gs, rest) := handle_all r s1 in (s2, g :: gs, rest)
      end
  end.

(** What happens to a client: the transport connects; connect() or listen() is
    called; close(id); the caller's wait_for times out; packets arrive. *)
Inductive cevent := EMade | EOpen (k : ckind) | EClose (id : Z) | ETimeout (id : Z) | EData (ps : list cpkt).
Definition client_step (e : cevent) (s : client) : client * list clog :=
  match e with
  | EMade => (Client true (c_id s) (c_conns s) (c_futs s) (c_fut s) (c_queue s), [])  (* VS 328-330 *)
  | EOpen k =>                                                                       (* VS 289-307, 309-322 *)
      let id := c_id s + 1 in
      if c_up s then
        (Client (c_up s) id (id :: c_conns s) (dset (c_futs s) id k) (dset (c_fut s) id FPending) (c_queue s), [LReq k id])
      else (Client (c_up s) id (c_conns s) (c_futs s) (c_fut s) (c_queue s), [])      (* None has no write *)
  | EClose id => (s, if c_up s then [LClose id] else [])                             (* VS 324-326 *)
  | ETimeout id =>
      match dget (c_fut s) id with
      | Some FPending => (Client (c_up s) (c_id s) (c_conns s) (c_futs s) (dset (c_fut s) id FCancelled) (c_queue s), [LCancel id])
      | _ => (s, [])
      end
  | EData ps =>                                                                      (* VS 332-369 *)
      let '(s1, g, rest) := handle_all (c_queue s ++ ps) s in
      (Client (c_up s1) (c_id s1) (c_conns s1) (c_futs s1) (c_fut s1) rest, g)
  end.
Fixpoint client_run (es : list cevent) (s : client) : client * list clog :=
  match es with
  | [] => (s, [])
  | e :: r => let (s1, g1) := client_step e s in let (s2, g2) := client_run r s1 in (s2, g1 ++ g2)
  end.
