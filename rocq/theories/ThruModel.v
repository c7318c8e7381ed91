(** * The throughput test: src/test/ThroughputTester.py (TT)

    Two peers, a client and a server of one Playground program, over one pair
    of byte streams, and the configuration object they share.

    Simplified: host and peer names of the test record are not modelled; the
    stack between the peers is a reliable stream (C23 to C30); two connections
    only; the global [testConfig] (TT 174, 175) is the one the protocols were
    given, as in the program (TT 249-256). *)
From Coq Require Import String.
From Coq Require Import List ZArith Bool.
From Verif Require Import PyBase Utf8Model StreamModel AddrModel PacketModel EchoModel.
Import ListNotations.
Open Scope Z_scope.

(** TestMessagePacket, TT 15-19; the field carries no attributes *)
Definition test_cls : pcls := PCls (lit "testpacket") (lit "1.0") [ (lit "data", FAttr false None, TBuffer) ].
(** TT 187 *)
Definition no_tx : bytes := lit "<NO TRANSMISSION EXPECTED>".

(** ** The configuration, TT 21-121 *)
(** a value of _pData, TT 24-25.  [en_one]: the name is "peer1" *)
Record entry := Entry { en_one : bool; en_tx : list bytes; en_rx : list bytes; en_ok : nat; en_start : Z; en_end : Z }.
(** a key of _pData: "p1", "p2", or a protocol *)
Inductive key := Name1 | Name2 | Proto (p : bool).
(** an entry of testRecord *)
Inductive note :=
| NConnect (one : bool)
| NSent (one : bool) (len : Z) (h : bytes)
| NGot (one : bool) (h expected : bytes)
| NClosing (one : bool)
| NComplete.
(** [f_signal]: _lastSignal; [f_watch]: a call of waitClose is due *)
Record cfg := Cfg { f_data : list (key * entry); f_notes : list note; f_done : nat; f_closed : nat; f_signal : Z; f_watch : bool }.
(** A protocol, TT 132-141.  [pr_up]: transport is there and not None;
    [pr_timers]: calls of transmit that are due *)
Record peer := Peer { pr_up : bool; pr_tx : list bytes; pr_rx : list bytes; pr_timers : nat; pr_closes : nat }.
(** the program; [y_stops]: how often the loop was told to stop, at once or in a second *)
Record test := Test { y_cfg : cfg; y_one : peer; y_two : peer; y_stops : nat }.   (* y_one: protocol [true] *)

Definition key_eqb (a b : key) : bool :=
  match a, b with
  | Name1, Name1 | Name2, Name2 => true
  | Proto p, Proto q => Bool.eqb p q
  | _, _ => false
  end.
Fixpoint entry_of (k : key) (l : list (key * entry)) : option entry :=
  match l with [] => None | (k', e) :: r => if key_eqb k k' then Some e else entry_of k r end.
(** an assignment through the list object of a key *)
Definition upd (k : key) (f : entry -> entry) (l : list (key * entry)) : list (key * entry) :=
  map (fun p => if key_eqb k (fst p) then (fst p, f (snd p)) else p) l.
Definition peer_of (p : bool) (y : test) : peer := if p then y_one y else y_two y.
Definition with_peer (p : bool) (q : peer) (y : test) : test :=
  if p then Test (y_cfg y) q (y_two y) (y_stops y) else Test (y_cfg y) (y_one y) q (y_stops y).
Definition with_cfg (g : cfg) (y : test) : test := Test g (y_one y) (y_two y) (y_stops y).
Definition on_data (f : list (key * entry) -> list (key * entry)) (y : test) : test :=
  let g := y_cfg y in with_cfg (Cfg (f (f_data g)) (f_notes g) (f_done g) (f_closed g) (f_signal g) (f_watch g)) y.
Definition say (n : note) (y : test) : test :=
  let g := y_cfg y in with_cfg (Cfg (f_data g) (f_notes g ++ [n]) (f_done g) (f_closed g) (f_signal g) (f_watch g)) y.
Definition stop (y : test) : test := Test (y_cfg y) (y_one y) (y_two y) (S (y_stops y)).

(** TestConfig(p1Tx, p2Tx), TT 22-31, and two protocols of it *)
Definition test_new (p1 p2 : list bytes) : test :=
  Test (Cfg [(Name1, Entry true p1 p2 0 0 0); (Name2, Entry false p2 p1 0 0 0)] [] 0 0 0 false)
       (Peer false [] [] 0 0) (Peer false [] [] 0 0) 0.

(** A method's outcome: the state, and the exception it left with *)
Definition out : Type := test * option exn.
(** getPeerName, TT 73-74; the entry of a connected peer is there *)
Definition is_one (p : bool) (y : test) : bool :=
  match entry_of (Proto p) (f_data (y_cfg y)) with Some e => en_one e | None => false end.

(** p.transport.close() for a key of _pData: a text has no transport; nor has
    a protocol that is not connected *)
Definition close_key (k : key) (y : test) : out :=
  match k with
  | Proto p =>
      let q := peer_of p y in
      if pr_up q then (with_peer p (Peer true (pr_tx q) (pr_rx q) (pr_timers q) (S (pr_closes q))) y, None)
      else (y, Some AttributeError)
  | _ => (y, Some AttributeError)
  end.
(** p1, p2 = self._pData.keys(); p1.transport.close(); p2.transport.close(),
    TT 42-44 and 53-55.  There are always two keys. *)
Definition close_both (y : test) : out :=
  match f_data (y_cfg y) with
  | [(k1, _); (k2, _)] =>
      match close_key k1 y with
      | (y1, None) => close_key k2 y1
      | r => r
      end
  | _ => (y, Some ValueError)
  end.
(** waitClose, TT 39-44: called once, a second after the first connection *)
Definition wait_close (now : Z) (y : test) : out :=
  let g := y_cfg y in
  let y1 := with_cfg (Cfg (f_data g) (f_notes g) (f_done g) (f_closed g) (f_signal g) false) y in
  if now - f_signal g >? 30 then close_both y1 else (y1, None).
(** recordRxFinish, TT 49-55 *)
Definition rx_finish (now : Z) (p : bool) (y : test) : out :=
  let y1 := on_data (upd (Proto p) (fun e => Entry (en_one e) (en_tx e) (en_rx e) (en_ok e) (en_start e) now)) y in
  let g := y_cfg y1 in
  let y2 := with_cfg (Cfg (f_data g) (f_notes g) (S (f_done g)) (f_closed g) (f_signal g) (f_watch g)) y1 in
  if Nat.eqb (S (f_done g)) (length (f_data g)) then close_both y2 else (y2, None).
(** recordConnect, TT 90-100: the entry moves to the end, under the protocol *)
Definition remove (k : key) (l : list (key * entry)) : list (key * entry) := filter (fun p => negb (key_eqb k (fst p))) l.
Definition record_connect (now : Z) (p : bool) (y : test) : test :=
  let claim k (l : list (key * entry)) e := remove k (l ++ [(Proto p, e)]) in
  let y1 := on_data (fun l => match entry_of Name1 l with
                              | Some e => claim Name1 l e
                              | None => match entry_of Name2 l with Some e => claim Name2 l e | None => l end
                              end) y in
  let y2 := on_data (upd (Proto p) (fun e => Entry (en_one e) (en_tx e) (en_rx e) (en_ok e) now (en_end e))) y1 in
  say (NConnect (is_one p y2)) y2.
(** recordTxStart, TT 33-37 *)
Definition tx_start (now : Z) (p : bool) (y : test) : test :=
  let y1 := on_data (upd (Proto p) (fun e => Entry (en_one e) (en_tx e) (en_rx e) (en_ok e) now (en_end e))) y in
  let g := y_cfg y1 in
  with_cfg (Cfg (f_data g) (f_notes g) (f_done g) (f_closed g) now (f_watch g || (f_signal g =? 0))) y1.
(** recordSignal, TT 46-47 *)
Definition signal (now : Z) (y : test) : test :=
  let g := y_cfg y in with_cfg (Cfg (f_data g) (f_notes g) (f_done g) (f_closed g) now (f_watch g)) y.
(** recordClose, TT 116-121 *)
Definition record_close (p : bool) (y : test) : test :=
  let y1 := say (NClosing (is_one p y)) y in
  let g := y_cfg y1 in
  let y2 := with_cfg (Cfg (f_data g) (f_notes g) (f_done g) (S (f_closed g)) (f_signal g) (f_watch g)) y1 in
  if Nat.eqb (S (f_closed g)) 2 then stop (say NComplete y2) else y2.
(** getTestResults, TT 76-79 *)
Definition results (p : bool) (y : test) : option (nat * nat) :=
  option_map (fun e => (en_ok e, length (en_rx e))) (entry_of (Proto p) (f_data (y_cfg y))).
(** getTestThroughput, TT 57-65: the bytes, and the time *)
Definition throughput (p : bool) (y : test) : option (Z * Z) :=
  match f_data (y_cfg y), entry_of (Proto p) (f_data (y_cfg y)) with
  | [(k1, e1); (k2, e2)], Some e =>
      let other := if key_eqb (Proto p) k1 then e2 else e1 in
      Some (fold_left (fun n t => n + zlen t) (en_tx e) 0, en_end other - en_start e)
  | _, _ => None
  end.

Section Test.
  (** sha1; the environment and the number of the class TestMessagePacket *)
  Variables (hash : bytes -> bytes) (E : env) (c : nat).

  (** A TestMessagePacket; [data]: the attribute of one that was received,
      None if it is not set.  Simplified as echo_view is. *)
  Definition test_packet (b : bytes) : val := VPacket c [Some (VBuf b)].
  Definition data_of (p : val) : option bytes := match p with VPacket _ [Some (VBuf b)] => Some b | _ => None end.

  (** transmit, TT 158-166: the state, what is written, and the exception.
      [self.transport.write] is looked up before the packet is encoded. *)
  Definition transmit (p : bool) (y : test) : test * bytes * option exn :=
    let q := peer_of p y in
    match pr_tx q with
    | [] => (y, [], None)
    | b :: r =>
        let y1 := say (NSent (is_one p y) (zlen b) (hash b)) y in
        let y2 := with_peer p (Peer (pr_up q) r (pr_rx q) (pr_timers q) (pr_closes q)) y1 in
        if pr_up q then
          match serialize E (test_packet b) with
          | Raise e => (y2, [], Some e)
          | Ok bs => (with_peer p (Peer (pr_up q) r (pr_rx q) (S (pr_timers q)) (pr_closes q)) y2, bs, None)
          end
        else (y2, [], Some AttributeError)
    end.
  (** connection_made, TT 168-177 *)
  Definition made (now : Z) (p : bool) (y : test) : test * bytes * option exn :=
    let q := peer_of p y in
    let y1 := record_connect now p (with_peer p (Peer true (pr_tx q) (pr_rx q) (pr_timers q) (pr_closes q)) y) in
    match entry_of (Proto p) (f_data (y_cfg y1)) with
    | None => (y1, [], Some KeyError)
    | Some e =>
        let y2 := with_peer p (Peer true (en_tx e) (en_rx e) (pr_timers q) (pr_closes q)) y1 in
        transmit p (tx_start now p y2)
    end.
  (** the loop body of data_received, TT 179-192, with recordRx, TT 107-114 *)
  Definition handle (now : Z) (p : bool) (y : test) (v : val) : test * list act * verdict :=
    let q := peer_of p y in
    let '(expected, y1) :=
      match pr_rx q with
      | e :: r => (e, with_peer p (Peer (pr_up q) (pr_tx q) r (pr_timers q) (pr_closes q)) y)
      | [] => (no_tx, stop y)
      end in
    match data_of v with
    | None => (y1, [], Throw TypeError)                                       (* sha1 of FIELD_NOT_SET *)
    | Some b =>
        let y2 := say (NGot (is_one p y1) (hash b) (hash expected)) y1 in
        let y3 := if eqb (hash b) (hash expected)
                  then on_data (upd (Proto p) (fun e => Entry (en_one e) (en_tx e) (en_rx e) (S (en_ok e)) (en_start e) (en_end e))) y2
                  else y2 in
        match pr_rx (peer_of p y3) with
        | _ :: _ => (y3, [], Next)
        | [] => match rx_finish now p y3 with
                | (y4, None) => (y4, [], Next)
                | (y4, Some e) => (y4, [], Throw e)
                end
        end
    end.
  (** connection_lost, TT 194-199 *)
  Definition lost (p : bool) (y : test) : test :=
    let q := peer_of p y in
    stop (record_close p (with_peer p (Peer false (pr_tx q) (pr_rx q) (pr_timers q) (pr_closes q)) y)).

  (** ** The run of a test *)
  (** the program, the deserializers, and the bytes under way to each peer;
      [n_started]: who has been connected; [n_raised]: exceptions that left a method *)
  Record run := Run { n_test : test; n_des1 : dser; n_des2 : dser; n_to1 : bytes; n_to2 : bytes;
                      n_started1 : bool; n_started2 : bool; n_raised : list exn }.
  Definition run_new (depth : nat) (p1 p2 : list bytes) : run :=
    Run (test_new p1 p2) (d_new E depth c) (d_new E depth c) [] [] false false [].
  (** connection_made of a peer; the first of the calls of transmit that are
      due; some bytes arrive; connection_lost; the call of waitClose *)
  Inductive tevent := Made (p : bool) (now : Z) | Timer (p : bool) | Arrive (p : bool) (n : nat) (now : Z) | Lost (p : bool) | Watch (now : Z).
  Definition started (p : bool) (r : run) : bool := if p then n_started1 r else n_started2 r.
  Definition noted (o : option exn) (l : list exn) : list exn := match o with Some e => l ++ [e] | None => l end.
  (** bytes written by p are on their way to the other peer *)
  Definition sent_by (p : bool) (y : test) (bs : bytes) (o : option exn) (r : run) : run :=
    if p then Run y (n_des1 r) (n_des2 r) (n_to1 r) (n_to2 r ++ bs) (n_started1 r) (n_started2 r) (noted o (n_raised r))
    else Run y (n_des1 r) (n_des2 r) (n_to1 r ++ bs) (n_to2 r) (n_started1 r) (n_started2 r) (noted o (n_raised r)).
  Definition raises (l : list act) : list exn := flat_map (fun a => match a with ARaise e => [e] | _ => [] end) l.
  Definition run_step (depth : nat) (r : run) (e : tevent) : run :=
    let y := n_test r in
    match e with
    | Made p now =>
        if started p r then r
        else let '(y1, bs, o) := made now p y in
             let r1 := sent_by p y1 bs o r in
             if p then Run (n_test r1) (n_des1 r1) (n_des2 r1) (n_to1 r1) (n_to2 r1) true (n_started2 r1) (n_raised r1)
             else Run (n_test r1) (n_des1 r1) (n_des2 r1) (n_to1 r1) (n_to2 r1) (n_started1 r1) true (n_raised r1)
    | Timer p =>
        let q := peer_of p y in
        match pr_timers q with
        | O => r
        | S t => let '(y1, bs, o) := transmit p (with_peer p (Peer (pr_up q) (pr_tx q) (pr_rx q) t (pr_closes q)) y) in sent_by p y1 bs o r
        end
    | Arrive p n now =>
        if pr_up (peer_of p y) then
          if p then
            let '(d, y1, acts) := data_received E depth c (handle now p) (firstn n (n_to1 r)) (n_des1 r) (signal now y) in
            Run y1 d (n_des2 r) (skipn n (n_to1 r)) (n_to2 r) (n_started1 r) (n_started2 r) (n_raised r ++ raises acts)
          else
            let '(d, y1, acts) := data_received E depth c (handle now p) (firstn n (n_to2 r)) (n_des2 r) (signal now y) in
            Run y1 (n_des1 r) d (n_to1 r) (skipn n (n_to2 r)) (n_started1 r) (n_started2 r) (n_raised r ++ raises acts)
        else r
    | Lost p =>
        if pr_up (peer_of p y) then Run (lost p y) (n_des1 r) (n_des2 r) (n_to1 r) (n_to2 r) (n_started1 r) (n_started2 r) (n_raised r) else r
    | Watch now =>
        if f_watch (y_cfg y) then
          let '(y1, o) := wait_close now y in
          Run y1 (n_des1 r) (n_des2 r) (n_to1 r) (n_to2 r) (n_started1 r) (n_started2 r) (noted o (n_raised r))
        else r
    end.
  Definition run_all (depth : nat) (p1 p2 : list bytes) (es : list tevent) : run := fold_left (run_step depth) es (run_new depth p1 p2).
End Test.

(** AutoDataTestConfig, TT 123-130: the sizes of what both sides send.  For
    sizes below 2^53, int(a/b) is the quotient. *)
Definition auto_sizes (min max count : Z) : res (list Z) :=
  if count =? 0 then Raise ZeroDivisionError
  else
    let step := Z.quot (max - min) count in
    let l := map (fun i => min + Z.of_nat i * step) (seq 0 (Z.to_nat count)) in
    if existsb (fun n => n <? 0) l then Raise ValueError else Ok l.               (* os.urandom *)
