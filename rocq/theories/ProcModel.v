(** * Model of the VNIC process, entry_points/launch_vnic.py (LV): its connection
    to the switch and its status file; with VNIC.py (VN), switching.py (SW) and
    asyncio's create_connection, and of what the manager reads of it:
    InterfaceDevice.py (ID) and common/os.py (OS).
    Simplified: addresses announced on a link are C35's; a connection attempt
    that is cancelled is left out (nothing cancels it); a port is a number. *)
From Coq Require Import String.
From Coq Require Import List ZArith Bool.
From Verif Require Import PyBase PnmsModel ConnSvcModel.
Import ListNotations.
Open Scope Z_scope.

(** ** The status file *)
Inductive link_status := Connected | Disconnected.
Definition status_word (s : link_status) : pystr := match s with Connected => lit "Connected" | Disconnected => lit "Disconnected" end.
(** LV 91-94 *)
Definition status_text (port : Z) (switch_ip : pystr) (switch_port : Z) (s : link_status) : pystr :=
  print_int port ++ [10] ++ (switch_ip ++ [58] ++ print_int switch_port) ++ [10] ++ status_word s.
(** writing: all of it; the open fails; or it fails (or the process dies) after k characters *)
Inductive wresult := WOk | WOpenFails | WCut (k : nat).

(** ** The process *)
Record proc := Proc {
  p_now : Z;
  p_timers : list Z;            (* connect, by call_later *)
  p_attempts : nat;             (* create_connection under way, before the protocol factory *)
  p_opening : list nat;         (* links that have their protocol, before connection_made *)
  p_links : list nat;           (* links that are up *)
  p_closing : list nat;         (* links whose transport was told to close *)
  p_next : nat;
  p_link : option nat;          (* VNIC._linkTx *)
  p_connected : bool;           (* VNIC._connectedToNetwork *)
  p_live : pystr;               (* _spmp_connection_status *)
  p_file : pystr                (* the status file *)
}.
(** LV 98 *)
Definition reconnect_delay : Z := 30.
Definition set_timers (p : proc) (t : list Z) : proc := Proc (p_now p) t (p_attempts p) (p_opening p) (p_links p) (p_closing p) (p_next p) (p_link p) (p_connected p) (p_live p) (p_file p).
Definition set_attempts (p : proc) (n : nat) : proc := Proc (p_now p) (p_timers p) n (p_opening p) (p_links p) (p_closing p) (p_next p) (p_link p) (p_connected p) (p_live p) (p_file p).
Definition set_file (p : proc) (f : pystr) : proc := Proc (p_now p) (p_timers p) (p_attempts p) (p_opening p) (p_links p) (p_closing p) (p_next p) (p_link p) (p_connected p) (p_live p) f.
Definition remove (l : nat) (ls : list nat) : list nat := filter (fun x => negb (Nat.eqb x l)) ls.
Definition mem (l : nat) (ls : list nat) : bool := existsb (Nat.eqb l) ls.

Section Process.
Variables (port : Z) (switch_ip : pystr) (switch_port : Z).
(** the set of the two listeners is iterated in some order, the same each time: is the StatusManager first? *)
Variable status_first : bool.

(** writeStatus, LV 91-94; true: no exception *)
Definition write_status (s : link_status) (r : wresult) (p : proc) : proc * bool :=
  let text := status_text port switch_ip switch_port s in
  match r with
  | WOk => (set_file p text, true)
  | WOpenFails => (p, false)
  | WCut k => (set_file p (firstn k text), false)
  end.
(** ConnectToSwitchTask.alert, LV 104-106, for connectionLost *)
Definition schedule (p : proc) : proc := set_timers p (p_timers p ++ [p_now p + reconnect_delay]).
(** VnicStatusListeners.alert, LV 33-35, with LV 85-89, 104-106 *)
Definition alert (lost : bool) (r : wresult) (p : proc) : proc :=
  let write := write_status (if lost then Disconnected else Connected) r in
  let connector p := if lost then schedule p else p in
  if status_first then let (p1, ok) := write p in if ok then connector p1 else p1
  else fst (write (connector p)).

Inductive pevent :=
| PTick (d : nat)                    (* time passes *)
| PFire (k : nat)                    (* the loop runs the k-th call of connect *)
| PFail                              (* a connection attempt fails *)
| POpen                              (* a connection attempt reaches the switch: the protocol factory *)
| PUp (l : nat) (r : wresult)        (* connection_made of link l *)
| PLost (l : nat) (r : wresult).     (* connection_lost of link l *)
Definition pstep (p : proc) (e : pevent) : proc :=
  match e with
  | PTick d => Proc (p_now p + Z.of_nat d) (p_timers p) (p_attempts p) (p_opening p) (p_links p) (p_closing p) (p_next p) (p_link p) (p_connected p) (p_live p) (p_file p)
  (* connect, LV 108-111 *)
  | PFire k =>
      match nth_error (p_timers p) k with
      | Some t => if t <=? p_now p then set_attempts (set_timers p (firstn k (p_timers p) ++ skipn (S k) (p_timers p))) (S (p_attempts p)) else p
      | None => p
      end
  (* _connectFinished, LV 113-117 *)
  | PFail => match p_attempts p with S n => schedule (set_attempts p n) | O => p end
  (* switchConnectionFactory, VN 100-104 *)
  | POpen =>
      match p_attempts p with
      | O => p
      | S n =>
          let closing := match p_link p with Some l => if mem l (p_links p) then p_closing p ++ [l] else p_closing p | None => p_closing p end in
          Proc (p_now p) (p_timers p) n (p_opening p ++ [p_next p]) (p_links p) closing (S (p_next p)) (Some (p_next p)) (p_connected p) (p_live p) (p_file p)
      end
  (* SW 100-103, VN 115-119, LV 61-64 *)
  | PUp l r =>
      if mem l (p_opening p) then
        alert false r (Proc (p_now p) (p_timers p) (p_attempts p) (remove l (p_opening p)) (p_links p ++ [l]) (p_closing p) (p_next p) (p_link p) true (lit "Connected") (p_file p))
      else p
  (* SW 162-164, VN 121-124, LV 66-69 *)
  | PLost l r =>
      if mem l (p_links p) then
        alert true r (Proc (p_now p) (p_timers p) (p_attempts p) (p_opening p) (remove l (p_links p)) (p_closing p) (p_next p) None false (lit "Not Connected") (p_file p))
      else p
  end.
Definition prun (p : proc) (es : list pevent) : proc := fold_left pstep es p.
(** LV 138-156: the first status, the first attempt *)
Definition start (t : Z) : proc := Proc t [] 1 [] [] [] 0 None false (lit "Not Connected") (status_text port switch_ip switch_port Disconnected).
End Process.

(** ** What the manager reads *)
(** connectionStatus of an enabled device, ID 106-117 *)
Definition connection_status (file : pystr) : pystr :=
  if contains (lit "disconnected") (lower file) then lit "Failed"
  else if contains (lit "connected") (lower file) then lit "Live"
  else lit "Unknown".
(** f.readline() *)
Fixpoint readline (s : pystr) : pystr := match s with [] => [] | c :: r => if c =? 10 then [10] else c :: readline r end.
(** tcpLocation of an enabled device, ID 81-87 *)
Definition tcp_port (file : pystr) : res Z := parse_int (strip (readline file)).
(** the VNIC's answer to "switch-live", LV 59 *)
Definition switch_live (p : proc) : pystr := p_live p.

(** isPidAlive, OS 7-20, of ps's output; bytes' strip and lower are ASCII's *)
Definition is_bspace (c : Z) : bool := ((9 <=? c) && (c <=? 13)) || (c =? 32).
Fixpoint bl (s : pystr) : pystr := match s with [] => [] | c :: r => if is_bspace c then bl r else s end.
Definition bstrip (s : pystr) : pystr := rev (bl (rev (bl s))).
Definition drop_header (lines : list pystr) : list pystr :=
  match lines with l :: r => if starts (lit "pid") (lower (bstrip l)) then r else lines | [] => [] end.
(** from the end, OS 16-17 *)
Fixpoint drop_blank (lines : list pystr) : list pystr :=
  match lines with l :: r => match bstrip l with [] => drop_blank r | _ => lines end | [] => [] end.
Definition is_pid_alive (output : pystr) : bool :=
  match rev (drop_blank (rev (drop_header (split_on 10 output)))) with [_] => true | _ => false end.
