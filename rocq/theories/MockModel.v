(** * Model of network/testing/mock.py (MK), the mock transports, with the two
    event loops they are used with: asyncio's call_later, and TestLoopEx's
    (asyncio_lib/testing/TestLoopEx.py, TL).
    Two transports: a pair made by CreateTransportPair, or two
    MockTransportToStorageStream.  Protocols and the application are arbitrary
    programs ([code]) that may use both transports, whatever they have seen.
    Simplified: protocol objects are true; no "extra"; close's arguments are
    dropped; setRemoteTransport is called by CreateTransportPair only; a program
    that never ends (or passes Python's recursion limit) has no result. *)
From Coq Require Import String.
From Coq Require Import List ZArith Bool.
From Verif Require Import PyBase.
Import ListNotations.
Open Scope Z_scope.

Inductive kind := ToProtocol | ToStream.
Inductive loopkind := AsyncLoop | TestLoop.
(** false: the first transport *)
Definition side := bool.
Inductive payload := Bytes (d : list Z) | Int (z : Z).
Inductive err :=
| EUser                     (* raised by a protocol or the application *)
| EClosed                   (* MK 69: "Remote protocol already appears closed" *)
| EType                     (* TypeError *)
| EAttr.                    (* AttributeError: None.call_later *)

(** ** The world *)
Record transport := Transport {
  t_closed : bool;
  t_loop : bool;              (* a loop was given *)
  t_delay : option Z;
  t_protocol : option nat;
  t_count : nat               (* writeCount *)
}.
Inductive job := JWrite (d : list Z) | JClose.
(** what happened, in order *)
Inductive event :=
| EvWrite (i : side) (d : list Z)         (* a write that was accepted *)
| EvClose (i : side)                      (* the first close *)
| EvData (i : side) (p : nat) (x : payload)  (* data_received *)
| EvLost (i : side) (p : nat)             (* connection_lost *)
| EvStore (i : side) (d : list Z).        (* bytes given to the stream *)
Record world := World {
  w_kind : kind; w_loop : loopkind;
  w_t0 : transport; w_t1 : transport;
  w_now : Z;
  w_jobs : list (Z * (side * job));       (* call_later, in the order of the calls *)
  w_log : list event
}.
Definition tr (w : world) (i : side) : transport := if i then w_t1 w else w_t0 w.
Definition set_tr (w : world) (i : side) (t : transport) : world :=
  if i then World (w_kind w) (w_loop w) (w_t0 w) t (w_now w) (w_jobs w) (w_log w)
  else World (w_kind w) (w_loop w) t (w_t1 w) (w_now w) (w_jobs w) (w_log w).
Definition log (w : world) (e : event) : world := World (w_kind w) (w_loop w) (w_t0 w) (w_t1 w) (w_now w) (w_jobs w) (w_log w ++ [e]).
Definition set_jobs (w : world) (js : list (Z * (side * job))) : world := World (w_kind w) (w_loop w) (w_t0 w) (w_t1 w) (w_now w) js (w_log w).
Definition set_now (w : world) (t : Z) : world := World (w_kind w) (w_loop w) (w_t0 w) (w_t1 w) t (w_jobs w) (w_log w).

(** ** Programs *)
Inductive api :=
| AWrite (i : side) (d : list Z)
| AClose (i : side)
| ASetDelay (i : side) (loop : bool) (delay : Z)
| ASetProtocol (i : side) (p : option nat).
(** a call's exception, if any, is caught: a program that does not catch raises afterwards *)
Inductive code := Return | Raise | Call (a : api) (k : option err -> code).
Inductive callback := DataReceived (x : payload) | ConnectionLost.
(** protocol p's code for a callback of transport i, after what has happened so far *)
Definition behaviour := nat -> side -> callback -> list event -> code.

(** MK 16-22 *)
Definition set_delay (t : transport) (loop : bool) (d : Z) : transport :=
  if negb loop && (0 <? d) then Transport (t_closed t) false None (t_protocol t) (t_count t)
  else Transport (t_closed t) loop (Some d) (t_protocol t) (t_count t).
(** MK 13-14 *)
Definition set_protocol (t : transport) (p : option nat) : transport := Transport (t_closed t) (t_loop t) (t_delay t) p (t_count t).
Definition set_closed (t : transport) : transport := Transport true (t_loop t) (t_delay t) (t_protocol t) (t_count t).
Definition count_write (t : transport) : transport := Transport (t_closed t) (t_loop t) (t_delay t) (t_protocol t) (S (t_count t)).
(** "if self.delay" *)
Definition delayed (t : transport) : option Z := match t_delay t with Some d => if d =? 0 then None else Some d | None => None end.
(** self.loop.call_later(self.delay, ...), MK 36, 44 *)
Definition later (w : world) (i : side) (d : Z) (j : job) : world * option err :=
  if t_loop (tr w i) then (set_jobs w (w_jobs w ++ [(w_now w + d, (i, j))]), None) else (w, Some EAttr).

Inductive task := TCode (c : code) | TApi (a : api) | TWrite (i : side) (x : payload) | TClose (i : side).
Section Run.
Variable B : behaviour.
Fixpoint run (n : nat) (t : task) (w : world) : option (world * option err) :=
  match n with O => None | S n =>
  match t with
  | TCode Return => Some (w, None)
  | TCode Raise => Some (w, Some EUser)
  | TCode (Call a k) => match run n (TApi a) w with Some (w1, r) => run n (TCode (k r)) w1 | None => None end
  (* write, MK 32-38 *)
  | TApi (AWrite i d) =>
      if t_closed (tr w i) then Some (w, None) else
      let w1 := log (set_tr w i (count_write (tr w i))) (EvWrite i d) in
      match delayed (tr w i) with
      | Some s => Some (later w1 i s (JWrite d))
      | None => run n (TWrite i (Bytes d)) w1
      end
  (* close, MK 40-46 *)
  | TApi (AClose i) =>
      if t_closed (tr w i) then Some (w, None) else
      let w1 := log (set_tr w i (set_closed (tr w i))) (EvClose i) in
      match delayed (tr w i) with
      | Some s => Some (later w1 i s JClose)
      | None => run n (TClose i) w1
      end
  | TApi (ASetDelay i l d) => Some (set_tr w i (set_delay (tr w i) l d), None)
  | TApi (ASetProtocol i p) => Some (set_tr w i (set_protocol (tr w i) p), None)
  (* _write, MK 63-69 and 80-81 *)
  | TWrite i x =>
      match w_kind w with
      | ToProtocol =>
          match t_protocol (tr w (negb i)) with
          | Some p => let w1 := log w (EvData (negb i) p x) in run n (TCode (B p (negb i) (DataReceived x) (w_log w1))) w1
          | None => Some (w, Some EClosed)
          end
      | ToStream => match x with Bytes d => Some (log w (EvStore i d), None) | Int _ => Some (w, Some EType) end
      end
  (* _close, MK 71-73 and 24-27 *)
  | TClose i =>
      match (match w_kind w with ToProtocol => run n (TApi (AClose (negb i))) w | ToStream => Some (w, None) end) with
      | None => None
      | Some (w1, Some e) => Some (w1, Some e)
      | Some (w1, None) =>
          match t_protocol (tr w1 i) with
          | None => Some (w1, None)
          | Some p =>
              let w2 := log w1 (EvLost i p) in
              match run n (TCode (B p i ConnectionLost (w_log w2))) w2 with
              | Some (w3, None) => Some (set_tr w3 i (set_protocol (tr w3 i) None), None)
              | r => r
              end
          end
      end
  end end.

(** ** The loop *)
Fixpoint remove_nth {A} (k : nat) (l : list A) : list A :=
  match k, l with O, _ :: r => r | S k, x :: r => x :: remove_nth k r | _, [] => [] end.
(** call_later's callback: TestLoopEx takes the data for the list of arguments, TL 38-42 *)
Definition fire (n : nat) (i : side) (j : job) (w : world) : option (world * option err) :=
  match j with
  | JClose => run n (TClose i) w
  | JWrite d => match w_loop w, d with
                | AsyncLoop, _ => run n (TWrite i (Bytes d)) w
                | TestLoop, [x] => run n (TWrite i (Int x)) w
                | TestLoop, _ => Some (w, Some EType)
                end
  end.
(** job k may be next: it is due and none is due earlier *)
Definition is_next (w : world) (k : nat) : bool :=
  match nth_error (w_jobs w) k with
  | Some (t, _) => (t <=? w_now w) && forallb (fun j => t <=? fst j) (w_jobs w)
  | None => false
  end.
(** the application runs, the clock moves, the loop runs its job k *)
Inductive hstep := HCode (c : code) | HTick (d : nat) | HFire (k : nat).
(** an exception of a loop's job goes to the loop *)
Definition step (n : nat) (w : world) (h : hstep) : option world :=
  match h with
  | HCode c => match run n (TCode c) w with Some (w', _) => Some w' | None => None end
  | HTick d => Some (set_now w (w_now w + Z.of_nat d))
  | HFire k =>
      if is_next w k then
        match nth_error (w_jobs w) k with
        | Some (_, (i, j)) => match fire n i j (set_jobs w (remove_nth k (w_jobs w))) with Some (w', _) => Some w' | None => None end
        | None => Some w
        end
      else Some w
  end.
Fixpoint steps (n : nat) (w : world) (hs : list hstep) : option world :=
  match hs with [] => Some w | h :: r => match step n w h with Some w' => steps n w' r | None => None end end.
End Run.

(** MK 4-11, 52-58 (76-78): new transports with protocols p0, p1, after setWriteDelay with s0, s1 *)
Definition transport0 (p : option nat) (d : option Z) : transport :=
  Transport false (match d with Some _ => true | None => false end) d p 0.
Definition world0 (k : kind) (l : loopkind) (p0 p1 : option nat) (d0 d1 : option Z) : world :=
  World k l (transport0 p0 d0) (transport0 p1 d1) 0 [] [].
