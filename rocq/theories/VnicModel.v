(** * Model of the VNIC and of its socket control protocol:
    network/devices/vnic/VNIC.py (abbreviated VN) and the server side of
    network/protocols/vsockets.py (VS).  Packets are decoded objects. *)
From Coq Require Import List ZArith Bool.
From Verif Require Import PyBase.
Import ListNotations.
Open Scope Z_scope.

(** common/PortKey.py 3-31: source, sourcePort, destination, destinationPort,
    compared and hashed field by field *)
Definition key := (pystr * Z * pystr * Z)%type.
#[export] Instance EqDec_key : EqDec key.
Proof. intros x y. unfold key, pystr in *. repeat decide equality. Defined.
(** PortKey.inverseKey, 10-11 *)
Definition inverse (k : key) : key := let '(s, sp, d, dp) := k in (d, dp, s, sp).
(** the local port of a key: sourcePort *)
Definition local_port (k : key) : Z := let '(_, sp, _, _) := k in sp.

(** Objects are numbered: controls (SocketControl), control connections
    (VNICSocketControlProtocol) and reverse connections
    (ReverseOutboundSocketProtocol with its transport), each in order of
    creation. *)

(** ConnectionData, VN 17-22: [cn_writer] is None while the writer is a
    BytesIO, whose contents are [cn_buf] *)
Record conn := Conn { cn_ctl : nat; cn_writer : option nat; cn_buf : bytes }.
(** SocketControl, VS 22-34 *)
Record sctl := Sctl { sc_proto : nat; sc_id : Z; sc_listen : bool; sc_port : option Z; sc_keys : list key; sc_closed : bool }.
(** VNICSocketControlProtocol, VS 143-148; [vp_up]: transport is set *)
Record vproto := Vproto { vp_up : bool; vp_table : dict Z nat; vp_dump : bool }.
(** VNIC, VN 44-57.  [v_pos] is where the port generator resumes; [v_pending]
    are the reverse connections being opened (control, key); [v_revs] the open
    or formerly open ones by number. *)
Record vnic := Vnic { v_addr : pystr; v_ports : dict Z nat; v_conns : dict key conn; v_ctls : list sctl; v_protos : list vproto;
                      v_pos : Z; v_pending : list (nat * key); v_revs : list (nat * key); v_dumps : list nat }.
Definition vnic_new (addr : pystr) : vnic := Vnic addr [] [] [] [] 2000 [] [] [].

(** What can be observed.  LNew, LData and LGone mark the creation of a
    ConnectionData, data handed to it and its removal; the others are effects
    on transports. *)
Inductive vlog :=
| LNew (k : key) (c : nat) | LData (k : key) (d : bytes) | LGone (k : key)
| LWrite (k : key) (t : nat) (d : bytes)            (* written to reverse connection t *)
| LClose (k : key) (t : nat)                        (* reverse connection t closed *)
| LResp (p : nat) (id : Z) (port : option Z)        (* open response; None: failure *)
| LSpawned (p : nat) (id : Z) (t : nat) (k : key)   (* connection spawned packet *)
| LDump (p : nat) (k : key) (d : bytes).            (* copy sent to a dumper *)

Definition upd {A} (n : nat) (f : A -> A) (l : list A) : list A :=
  match nth_error l n with Some x => firstn n l ++ f x :: skipn (S n) l | None => l end.

Definition set_ports x (s : vnic) := Vnic (v_addr s) x (v_conns s) (v_ctls s) (v_protos s) (v_pos s) (v_pending s) (v_revs s) (v_dumps s).
Definition set_conns x (s : vnic) := Vnic (v_addr s) (v_ports s) x (v_ctls s) (v_protos s) (v_pos s) (v_pending s) (v_revs s) (v_dumps s).
Definition set_ctls x (s : vnic) := Vnic (v_addr s) (v_ports s) (v_conns s) x (v_protos s) (v_pos s) (v_pending s) (v_revs s) (v_dumps s).
Definition set_protos x (s : vnic) := Vnic (v_addr s) (v_ports s) (v_conns s) (v_ctls s) x (v_pos s) (v_pending s) (v_revs s) (v_dumps s).
Definition set_pos x (s : vnic) := Vnic (v_addr s) (v_ports s) (v_conns s) (v_ctls s) (v_protos s) x (v_pending s) (v_revs s) (v_dumps s).
Definition set_pending x (s : vnic) := Vnic (v_addr s) (v_ports s) (v_conns s) (v_ctls s) (v_protos s) (v_pos s) x (v_revs s) (v_dumps s).
Definition set_revs x (s : vnic) := Vnic (v_addr s) (v_ports s) (v_conns s) (v_ctls s) (v_protos s) (v_pos s) (v_pending s) x (v_dumps s).
Definition set_dumps x (s : vnic) := Vnic (v_addr s) (v_ports s) (v_conns s) (v_ctls s) (v_protos s) (v_pos s) (v_pending s) (v_revs s) x.

(** _freePortsGenerator, VN 59-63: the next value, resuming at [pos]; None if
    every port of the range is taken (the loop then never ends) *)
Fixpoint zseq (a : Z) (n : nat) : list Z := match n with O => [] | S m => a :: zseq (a + 1) m end.
Definition zrange (a b : Z) : list Z := zseq a (Z.to_nat (b - a)).   (* range(a, b) *)
Definition next_free (ports : dict Z nat) (pos : Z) : option Z :=
  find (fun i => negb (dhas ports i)) (zrange pos 65535 ++ zrange 2000 65535).

(** ConnectionData.write, VN 30-31, of the connection [k] *)
Definition conn_write (k : key) (d : bytes) (cd : conn) : conn * list vlog :=
  match cn_writer cd with
  | None => (Conn (cn_ctl cd) None (cn_buf cd ++ d), [LData k d])
  | Some t => (cd, [LData k d; LWrite k t d])
  end.

(** VNIC.closeConnection, VN 184-192, ConnectionData.close, 33-38, and
    SocketControl.spawnedConnectionClosed, VS 71-82; [rec] is
    SocketControl.close *)
Definition sc_drop_key (k : key) (x : sctl) : sctl :=
  Sctl (sc_proto x) (sc_id x) (sc_listen x) (sc_port x) (filter (fun k' => negb (eqb k' k)) (sc_keys x)) (sc_closed x).
Definition close_connection (rec : nat -> vnic -> vnic * list vlog) (k : key) (s : vnic) : vnic * list vlog :=
  match dget (v_conns s) k with
  | None => (s, [])
  | Some cd =>
      let s1 := set_conns (ddel (v_conns s) k) s in
      let log1 := LGone k :: match cn_writer cd with Some t => [LClose k t] | None => [] end in
      let s2 := set_ctls (upd (cn_ctl cd) (sc_drop_key k) (v_ctls s1)) s1 in
      match nth_error (v_ctls s2) (cn_ctl cd) with
      | Some x => if negb (sc_closed x) && negb (sc_listen x)
                  then let (s3, log3) := rec (cn_ctl cd) s2 in (s3, log1 ++ log3) else (s2, log1)
      | None => (s2, log1)
      end
  end.
Fixpoint close_connections (rec : nat -> vnic -> vnic * list vlog) (ks : list key) (s : vnic) : vnic * list vlog :=
  match ks with
  | [] => (s, [])
  | k :: r => let (s1, l1) := close_connection rec k s in let (s2, l2) := close_connections rec r s1 in (s2, l1 ++ l2)
  end.
(** SocketControl.close, VS 45-56, and VNIC.closePort, VN 194-198.  [fuel]
    bounds the recursion; every level closes one more control, so the number of
    controls is enough (VnicProofs). *)
Definition sc_shut (x : sctl) : sctl := Sctl (sc_proto x) (sc_id x) (sc_listen x) (sc_port x) [] true.
Fixpoint close_ctl (fuel : nat) (c : nat) (s : vnic) : vnic * list vlog :=
  match fuel with
  | O => (s, [])
  | S f =>
      match nth_error (v_ctls s) c with
      | None => (s, [])
      | Some x =>
          if sc_closed x then (s, [])
          else
            let s1 := set_ctls (upd c sc_shut (v_ctls s)) s in
            let (s2, l2) := close_connections (close_ctl f) (sc_keys x) s1 in
            match sc_port x with
            | None => (s2, l2)
            | Some p =>
                match dget (v_ports s2) p with
                | None => (s2, l2)
                | Some c' => let (s3, l3) := close_ctl f c' (set_ports (ddel (v_ports s2) p) s2) in (s3, l2 ++ l3)
                end
            end
      end
  end.
Definition ctl_close (c : nat) (s : vnic) : vnic * list vlog := close_ctl (length (v_ctls s)) c s.
Definition conn_close (k : key) (s : vnic) : vnic * list vlog := close_connection ctl_close k s.

Inductive vevent :=
| VMade                                                 (* a new control connection *)
| VConnect (p : nat) (id : Z) (dest : pystr) (dport : Z)   (* open packet with connectData *)
| VListen (p : nat) (id : Z) (port : Z)                 (* open packet with listenData *)
| VClose (p : nat) (id : Z)                             (* close packet *)
| VDump (p : nat) (on : bool)                           (* start/stop dump packet *)
| VLost (p : nat)                                       (* a control connection is lost *)
| VSpawnOk (n : nat)                                    (* the n-th pending reverse connection is made *)
| VSpawnFail (n : nat)                                  (* ... or fails *)
| VRevLost (t : nat)                                    (* reverse connection t is lost *)
| VData (source : pystr) (sport : Z) (dest : pystr) (dport : Z) (data : bytes).  (* demux *)

(** VNIC.demux, VN 126-158 *)
Definition v_demux (source : pystr) (sport : Z) (dest : pystr) (dport : Z) (data : bytes) (s : vnic) : vnic * list vlog :=
  let remote := (source, sport, dest, dport) in
  let dumps := map (fun p => LDump p remote data) (v_dumps s) in                          (* VN 128-132 *)
  let k := inverse remote in                                                              (* VN 134-140 *)
  match dget (v_conns s) k with
  | Some cd => let (cd', l) := conn_write k data cd in (set_conns (dset (v_conns s) k cd') s, dumps ++ l)     (* VN 143-145 *)
  | None =>
      match dget (v_ports s) (local_port k) with
      | Some c =>
          match nth_error (v_ctls s) c with
          | Some x =>
              if sc_listen x then                                                         (* VN 148-156 *)
                (* spawnConnection, VS 92-102: a reverse connection is being opened *)
                (set_pending (v_pending s ++ [(c, k)]) (set_conns (dset (v_conns s) k (Conn c None data)) s),
                 dumps ++ [LNew k c; LData k data])
              else (s, dumps)
          | None => (s, dumps)
          end
      | None => (s, dumps)                                                                (* VN 158-159 *)
      end
  end.

(** VNICSocketControlProtocol.socketOpenReceived, VS 221-265, with
    VNIC.createOutboundSocket/createInboundSocket, VN 165-182.  None: the port
    generator never returns. *)
Definition add_ctl (p : nat) (id : Z) (x : sctl) (s : vnic) : vnic :=
  set_protos (upd p (fun v => Vproto (vp_up v) (dset (vp_table v) id (length (v_ctls s))) (vp_dump v)) (v_protos s))
    (set_ctls (v_ctls s ++ [x]) s).
Definition open_connect (p : nat) (id : Z) (dest : pystr) (dport : Z) (s : vnic) : option (vnic * list vlog) :=
  let c := length (v_ctls s) in
  match next_free (v_ports s) (v_pos s) with
  | None => None
  | Some port =>
      let k := (v_addr s, port, dest, dport) in
      let s1 := add_ctl p id (Sctl p id false (Some port) [] false) s in
      Some (set_pending (v_pending s1 ++ [(c, k)])
             (set_conns (dset (v_conns s1) k (Conn c None []))
               (set_ports (dset (v_ports s1) port c) (set_pos (port + 1) s1))),
            (if dhas (v_conns s) k then [LGone k] else []) ++ [LNew k c; LResp p id (Some port)])
  end.
Definition open_listen (p : nat) (id : Z) (port : Z) (s : vnic) : vnic * list vlog :=
  let c := length (v_ctls s) in
  if dhas (v_ports s) port then (add_ctl p id (Sctl p id true None [] false) s, [LResp p id None])
  else let s1 := add_ctl p id (Sctl p id true (Some port) [] false) s in
       (set_ports (dset (v_ports s1) port c) s1, [LResp p id (Some port)]).

(** VS 150-154, controlLost, and 171-177, in connection_lost *)
Fixpoint close_all (cs : list nat) (s : vnic) : vnic * list vlog :=
  match cs with
  | [] => (s, [])
  | c :: r => let (s1, l1) := ctl_close c s in let (s2, l2) := close_all r s1 in (s2, l1 ++ l2)
  end.
Definition table_del (id : Z) (v : vproto) : vproto := Vproto (vp_up v) (ddel (vp_table v) id) (vp_dump v).

(** SocketControl._spawnFinished, VS 104-121, and ConnectionData.setProtocol,
    VN 24-28.  After an exception (no such connection, or one that already has
    a protocol: transports have no getvalue; control connection gone) what was
    done stays done. *)
Definition sc_add_key (k : key) (x : sctl) : sctl :=
  Sctl (sc_proto x) (sc_id x) (sc_listen x) (sc_port x) (sadd (sc_keys x) k) (sc_closed x).
Definition spawn_ok (c : nat) (k : key) (s : vnic) : vnic * list vlog :=
  let t := length (v_revs s) in
  let s1 := set_revs (v_revs s ++ [(c, k)]) (set_ctls (upd c (sc_add_key k) (v_ctls s)) s) in
  match dget (v_conns s1) k with
  | None => (s1, [])
  | Some cd =>
      match cn_writer cd with
      | Some _ => (s1, [])
      | None =>
          let s2 := set_conns (dset (v_conns s1) k (Conn (cn_ctl cd) (Some t) [])) s1 in
          let l2 := match cn_buf cd with [] => [] | b => [LWrite k t b] end in
          let l3 := match nth_error (v_ctls s) c with
                    | Some x => match nth_error (v_protos s) (sc_proto x) with
                                | Some v => if vp_up v then [LSpawned (sc_proto x) (sc_id x) t k] else []
                                | None => [] end
                    | None => [] end in
          (s2, l2 ++ l3)
      end
  end.
Definition remove_nth {A} (n : nat) (l : list A) : list A := firstn n l ++ skipn (S n) l.

(** One event; None: the process hangs (see open_connect).  Events that cannot
    happen (packets on a connection that is not up) do nothing. *)
Definition v_step (e : vevent) (s : vnic) : option (vnic * list vlog) :=
  match e with
  | VMade => Some (set_protos (v_protos s ++ [Vproto true [] false]) s, [])
  | VConnect p id dest dport =>
      match nth_error (v_protos s) p with
      | Some v => if negb (vp_up v) then Some (s, [])
                  else if dhas (vp_table v) id then Some (s, [LResp p id None])                (* VS 224-227 *)
                  else open_connect p id dest dport s
      | None => Some (s, [])
      end
  | VListen p id port =>
      match nth_error (v_protos s) p with
      | Some v => if negb (vp_up v) then Some (s, [])
                  else if dhas (vp_table v) id then Some (s, [LResp p id None])
                  else Some (open_listen p id port s)
      | None => Some (s, [])
      end
  | VClose p id =>                                                                             (* VS 186-188, 150-154 *)
      match nth_error (v_protos s) p with
      | Some v => if negb (vp_up v) then Some (s, []) else
                  match dget (vp_table v) id with
                  | Some c => let (s1, l1) := ctl_close c s in Some (set_protos (upd p (table_del id) (v_protos s1)) s1, l1)
                  | None => Some (s, [])
                  end
      | None => Some (s, [])
      end
  | VDump p on =>                                                                              (* VS 189-196, VN 213-218 *)
      match nth_error (v_protos s) p with
      | Some v => if negb (vp_up v) then Some (s, [])
                  else if Bool.eqb on (vp_dump v) then Some (s, [])
                  else Some (set_dumps (if on then sadd (v_dumps s) p else if smem (v_dumps s) p then sremove (v_dumps s) p else v_dumps s)
                              (set_protos (upd p (fun v => Vproto (vp_up v) (vp_table v) on) (v_protos s)) s), [])
      | None => Some (s, [])
      end
  | VLost p =>                                                                                 (* VS 166-178 *)
      match nth_error (v_protos s) p with
      | Some v => if negb (vp_up v) then Some (s, []) else
                  let s0 := if vp_dump v then set_dumps (if smem (v_dumps s) p then sremove (v_dumps s) p else v_dumps s) s else s in
                  let (s1, l1) := close_all (map snd (vp_table v)) s0 in
                  Some (set_protos (upd p (fun _ => Vproto false [] false) (v_protos s1)) s1, l1)
      | None => Some (s, [])
      end
  | VSpawnOk n =>
      match nth_error (v_pending s) n with
      | Some (c, k) => Some (spawn_ok c k (set_pending (remove_nth n (v_pending s)) s))
      | None => Some (s, [])
      end
  | VSpawnFail n =>
      match nth_error (v_pending s) n with
      | Some (c, k) => Some (ctl_close c (set_pending (remove_nth n (v_pending s)) s))         (* VS 106-110 *)
      | None => Some (s, [])
      end
  | VRevLost t =>                                                                              (* VS 134-136, 58-69 *)
      match nth_error (v_revs s) t with
      | Some (c, k) => match nth_error (v_ctls s) c with
                       | Some x => Some (if sc_listen x then conn_close k s else ctl_close c s)
                       | None => Some (s, [])
                       end
      | None => Some (s, [])
      end
  | VData so sp d dp data => Some (v_demux so sp d dp data s)
  end.
Fixpoint v_run (es : list vevent) (s : vnic) : option (vnic * list vlog) :=
  match es with
  | [] => Some (s, [])
  | e :: r => match v_step e s with
              | None => None
              | Some (s1, l1) => match v_run r s1 with None => None | Some (s2, l2) => Some (s2, l1 ++ l2) end
              end
  end.
