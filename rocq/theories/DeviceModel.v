(** * Model of the enabling of devices: network/devices/pnms/PNMSDevice.py (PD),
      with InterfaceDevice.py (ID), NetworkAccessPoint.py (NA),
      SwitchDevice.py (SD), VnicDevice.py (VD), NetworkManager.py (NM)

    A device is a process of its own; the manager finds it through three run
    files (status, pid, lock) and keeps no record of its own between runs.  The
    three files are taken to be written and removed together, the pid in them to
    be a number, and the operating system not to change while one command runs
    (between two it may do anything).  Alerts: every status change posts
    [device.enable] (PD 221) while pnmsAlert waits for [device.enabled] (PD 109),
    so a posted alert never has an effect and is left out. *)
From Coq Require Import String.
From Coq Require Import List ZArith Bool.
From Verif Require Import PyBase.
Import ListNotations.

(** ** The configured devices *)
(** an access point, remote or not; an interface with what it is connected to (C50:
    an access point that is there) *)
Inductive dkind := DAccess (remote : bool) | DIface (conn : option pystr).
Record dev := Dev { v_kind : dkind; v_auto : bool }.                          (* isAutoEnabled, PD 103-104 *)
Definition dnet := dict pystr dev.

(** ** The operating system *)
Record osd := Osd { o_files : bool; o_alive : bool }.                         (* run files; process *)
(** _running, PD 148-153 *)
Definition os_running (o : osd) : bool := o_files o && o_alive o.
(** What the n-th launch of the run leads to until the wait for it ends (SD
    31-33, VD 79-81), and whether the n-th process told to terminate does so in time *)
Record world := World { w_launch : nat -> osd; w_kill : nat -> bool }.

Inductive status := Disabled | Waiting | Abnormal | Enabled.                  (* PD 48-51 *)
Record dst := Dst { s_os : pystr -> osd; s_status : dict pystr status; s_launches : nat; s_kills : nat }.
Inductive derr := CouldNotShutDown | ProcessLookupError.
Inductive dres := DOk | DErr (e : derr).

Definition set_os (s : dst) (d : pystr) (o : osd) : dst :=
  Dst (fun x => if eq_dec x d then o else s_os s x) (s_status s) (s_launches s) (s_kills s).
Definition set_status (s : dst) (d : pystr) (v : status) : dst := Dst (s_os s) (dset (s_status s) d v) (s_launches s) (s_kills s).
Definition running (s : dst) (d : pystr) : bool := os_running (s_os s d).
Definition unlink (s : dst) (d : pystr) : dst := set_os s d (Osd false (o_alive (s_os s d))).
(** _enableStatus; Disabled until the device is loaded, PD 66 *)
Definition status_of (s : dst) (d : pystr) : status := match dget (s_status s) d with Some v => v | None => Disabled end.
Definition is_on (v : status) : bool := match v with Enabled => true | _ => false end.

Section Devices.
  Context (n : dnet) (w : world).
  Definition kind (d : pystr) : dkind := match dget n d with Some v => v_kind v | None => DIface None end.
  Definition remote (d : pystr) : bool := match kind d with DAccess b => b | _ => false end.
  (** enabled, PD 127-129 with _cleanupFiles, PD 70-75; NA 51-56 *)
  Definition enabled (d : pystr) (s : dst) : bool * dst :=
    if remote d then (true, s)
    else if is_on (status_of s d) then (true, s) else (false, unlink s d).
  (** dependenciesEnabled, PD 98-101 and ID 42-49 *)
  Definition deps_enabled (d : pystr) (s : dst) : bool * dst :=
    match kind d with
    | DAccess _ => (true, s)
    | DIface None => (false, s)
    | DIface (Some c) => if dhas n c then enabled c s else (false, s)
    end.
  (** _shutdown, PD 223-235 *)
  Definition shutdown (d : pystr) (s : dst) : dres * dst :=
    let o := s_os s d in
    if o_files o then
      if o_alive o then
        let s1 := Dst (s_os s) (s_status s) (s_launches s) (S (s_kills s)) in
        if w_kill w (s_kills s) then (DOk, set_os s1 d (Osd false false)) else (DErr CouldNotShutDown, s1)
      else (DErr ProcessLookupError, s)                                       (* os.kill, PD 226 *)
    else (DOk, s).
  (** _launch, SD 14-38 and VD 53-84 *)
  Definition launch (d : pystr) (s : dst) : dres * dst :=
    let (b, s1) := deps_enabled d s in
    if negb b then (DOk, s1)
    else
      let s2 := set_os (Dst (s_os s1) (s_status s1) (S (s_launches s1)) (s_kills s1)) d (w_launch w (s_launches s1)) in
      if running s2 d then (DOk, s2) else shutdown d s2.
  (** launch and look, PD 185-189, 200-204 *)
  Definition try_launch (d : pystr) (s : dst) : dres * dst :=
    let (r, s1) := launch d s in
    match r with
    | DErr e => (DErr e, s1)
    | DOk => (DOk, set_status s1 d (if running s1 d then Enabled else Abnormal))
    end.
  (** shut down and take the new status, PD 180-182, 210-211, 214-216 *)
  Definition stop_to (v : status) (d : pystr) (s : dst) : dres * dst :=
    let (r, s1) := shutdown d s in match r with DErr e => (DErr e, s1) | DOk => (DOk, set_status s1 d v) end.
  (** _runEnableStatusStateMachine, PD 155-221.  [fuel] bounds the chain of
      dependencies; access points have none. *)
  Fixpoint machine (fuel : nat) (toggle : bool) (d : pystr) (s : dst) : dres * dst :=
    match fuel with
    | O => (DOk, s)
    | S f =>
        (* PD 163-166, with enable of the dependency, PD 117-120, NA 62-64 *)
        let (r, s1) :=
          match kind d with
          | DIface (Some c) =>
              if negb (is_on (status_of s d)) && toggle && dhas n c then
                let (b, sa) := enabled c s in
                if b then (DOk, sa)
                else let (b2, sb) := enabled c sa in if b2 then (DOk, sb) else machine f true c sb
              else (DOk, s)
          | _ => (DOk, s)
          end in
        match r with
        | DErr e => (DErr e, s1)
        | DOk =>
            match status_of s1 d with
            | Disabled | Abnormal =>
                if running s1 d then
                  let (b, s2) := deps_enabled d s1 in
                  if b then (DOk, set_status s2 d Enabled) else stop_to Waiting d s2
                else if toggle then
                  let (b, s2) := deps_enabled d s1 in
                  if b then try_launch d s2 else (DOk, set_status s2 d Waiting)
                else (DOk, set_status s1 d Disabled)
            | Waiting =>
                if toggle then (DOk, set_status s1 d Disabled)                (* PD 196-198 *)
                else let (b, s2) := deps_enabled d s1 in
                     if b then try_launch d s2 else (DOk, set_status s2 d Waiting)
            | Enabled =>
                if toggle then stop_to Disabled d s1
                else if negb (running s1 d) then (DOk, set_status s1 d Disabled)
                else let (b, s2) := deps_enabled d s1 in
                     if negb b then stop_to Waiting d s2 else (DOk, set_status s2 d Enabled)
            end
        end
    end.
  Definition depth : nat := 2.
  (** enable, disable: PD 116-125, NA 58-64 *)
  Definition enable (d : pystr) (s : dst) : dres * dst :=
    if remote d then (DOk, s)
    else let (b, s1) := enabled d s in if b then (DOk, s1) else machine depth true d s1.
  Definition disable (d : pystr) (s : dst) : dres * dst :=
    if remote d then (DOk, s)
    else let (b, s1) := enabled d s in if b then machine depth true d s1 else (DOk, s1).

  (** getDevice for a device of the file, NM 249-270 with PD 81-87 and ID 30-39:
      the object is entered, what an interface is connected to is loaded, then
      the status is determined *)
  Definition install (d : pystr) (s : dst) : dres * dst :=
    if dhas (s_status s) d then (DOk, s) else machine depth false d (set_status s d Disabled).
  Definition load_one (d : pystr) (s : dst) : dres * dst :=
    if dhas (s_status s) d then (DOk, s)
    else
      let s0 := set_status s d Disabled in
      let (r, s1) := match kind d with
                     | DIface (Some c) => if dhas n c then install c s0 else (DOk, s0)
                     | _ => (DOk, s0)
                     end in
      match r with DErr e => (DErr e, s1) | DOk => machine depth false d s1 end.
  Fixpoint each (f : pystr -> dst -> dres * dst) (l : list pystr) (s : dst) : dres * dst :=
    match l with
    | [] => (DOk, s)
    | d :: r => let (o, s1) := f d s in match o with DErr e => (DErr e, s1) | DOk => each f r s1 end
    end.
  Definition fresh (os : pystr -> osd) : dst := Dst os [] 0 0.
  (** _loadDevices, NM 357-361 *)
  Definition load_all (os : pystr -> osd) : dres * dst := each load_one (dkeys n) (fresh os).
  (** on, off: NM 235-247; the devices are in the order in which they were loaded *)
  Definition turn_on (s : dst) : dres * dst :=
    each (fun d s => if match dget n d with Some v => v_auto v | None => false end
                     then let (b, s1) := enabled d s in if b then (DOk, s1) else enable d s1
                     else (DOk, s)) (dkeys (s_status s)) s.
  Definition turn_off (s : dst) : dres * dst :=
    each (fun d s => let (b, s1) := enabled d s in if b then disable d s1 else (DOk, s1)) (dkeys (s_status s)) s.
End Devices.

(** ** One run of pnetworking *)
Inductive dcommand := DEnable (d : pystr) | DDisable (d : pystr) | DOn | DOff | DStatus.
Definition dexec (n : dnet) (w : world) (k : dcommand) (s : dst) : dres * dst :=
  match k with
  | DEnable d => enable n w d s
  | DDisable d => disable n w d s
  | DOn => turn_on n w s
  | DOff => turn_off n w s
  | DStatus => (DOk, s)
  end.
Definition drun (n : dnet) (w : world) (k : dcommand) (os : pystr -> osd) : dres * dst :=
  let (r, s) := load_all n w os in match r with DErr e => (DErr e, s) | DOk => dexec n w k s end.
