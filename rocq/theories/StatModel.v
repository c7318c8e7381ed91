(** * Model of the status texts of pnetworking:
      network/devices/pnms/StatusOutputProcessor.py (SP), with the commands
      status and routes of pnetworking.py (PN) and connectionStatus of
      InterfaceDevice.py (ID)

    A run of pnetworking has a manager as VsvcModel has it; the numbers in the
    pid files and the contents of the status files are a parameter, and do not
    change while the command runs.  Not modelled: the path of the
    configuration, which is written first (PN 171), is a parameter; str.lower
    outside ASCII (no other character's lower case is one of the letters looked
    for alone). *)
From Coq Require Import String.
From Coq Require Import List ZArith Bool.
From Verif Require Import PyBase AddrModel PnmsModel DeviceModel ConnSvcModel VsvcModel.
Import ListNotations.
Open Scope nat_scope.

Definition nl : pystr := [10]%Z.
Definition tab : pystr := [9]%Z.
(** the first line of a text, as readline gives it; int() drops the end of it *)
Fixpoint first_line (s : pystr) : pystr := match s with [] => [] | c :: r => if Z.eqb c 10 then [c] else c :: first_line r end.
(** str of True and False; of a port or an address that may be None *)
Definition bool_text (b : bool) : pystr := if b then lit "True" else lit "False".
Definition port_text (p : option Z) : pystr := match p with Some z => print_int z | None => lit "None" end.
Definition host_text (h : option pystr) : pystr := match h with Some s => s | None => lit "None" end.
(** "{}:{}", SP 34, 54 *)
Definition loc_text (l : location) : pystr := host_text (l_host l) ++ lit ":" ++ port_text (l_port l).
(** str of the constants, PD 48-51 *)
Definition status_text (s : status) : pystr :=
  match s with Enabled => lit "Enabled" | Waiting => lit "Waiting" | Abnormal => lit "Abnormal Shutdown" | Disabled => lit "Disabled" end.

Section Status.
  (** the number in a pid file; the content of a status file *)
  Context (w : world) (pid : pystr -> Z) (content : pystr -> pystr).
  Definition line (d : pystr) : pystr := first_line (content d).

  (** getPid, PD 131-136, and what SP 13-17 make of it; 0 is not shown *)
  Definition pid_text (d : pystr) (v : vsvc) : pystr :=
    if o_files (s_os (vs_dst v) d) && negb (Z.eqb (pid d) 0) then lit "(PID: " ++ print_int (pid d) ++ lit ")" else [].
  (** enabled(): PD 127-129, NA 51-56 *)
  Definition ask (c : config) (d : pystr) (v : vsvc) : status * vsvc :=
    if remote (devices c) d then (Enabled, v)
    else let (_, s1) := DeviceModel.enabled (devices c) d (vs_dst v) in (status_of (vs_dst v) d, VSvc (vs_mgr v) s1).
  (** PNMSDeviceStatusOutputProcessor, SP 6-22.  The pid is read before
      enabled(), which may delete its file. *)
  Definition base_text (kind d : pystr) (v : vsvc) : vres pystr * vsvc :=
    andthen (conf v) (fun c v =>
      let p := pid_text d v in
      let (s, v1) := ask c d v in
      ret (kind ++ lit " " ++ d ++ lit ":" ++ nl ++
           tab ++ lit "Status: " ++ status_text s ++ lit " " ++ p ++ nl ++
           tab ++ lit "Auto-Enable: " ++ bool_text (match setting c d (lit "auto_enable") with Some t => eqb t (lit "true") | None => false end) ++ nl) v1).
  (** SwitchDeviceStatusOutputProcessor, SP 24-37 *)
  Definition switch_text (d : pystr) (v : vsvc) : vres pystr * vsvc :=
    andthen (base_text (lit "switch") d v) (fun b v =>
    andthen (tcp_location line d v) (fun l v =>
    andthen (conf v) (fun c v =>
    andthen (opt_of c d (lit "physical_connection_type") v) (fun t v =>
      ret (b ++ tab ++ lit "PNMS Managed: " ++ bool_text (eqb t (lit "managed")) ++ nl ++
               tab ++ lit "TCP Location: " ++ loc_text l ++ nl) v)))).
  (** connectionStatus, ID 106-119 *)
  Definition link_text (c : config) (d : pystr) (v : vsvc) : vres pystr * vsvc :=
    let (s, v1) := ask c d v in
    if is_on s then
      if o_files (s_os (vs_dst v1) d) then
        ret (if contains (lit "disconnected") (lower (content d)) then lit "Failed"
             else if contains (lit "connected") (lower (content d)) then lit "Live"
             else lit "Unknown") v1
      else fail VNoFile v1
    else ret (lit "Disabled") v1.
  (** what a VNIC is connected to, SP 48-54: only an access point can be; the
      location of another device would be its own *)
  Definition peer_text (d : pystr) (v : vsvc) : vres pystr * vsvc :=
    andthen (conf v) (fun c v =>
      match sec_get (g_connections c) d with
      | None => ret (lit "None") v
      | Some [] => ret [] v
      | Some a =>
          andthen (vs_get w a v) (fun o v =>
            match o with
            | None => ret a v
            | Some _ => andthen (tcp_location line a v) (fun l v => ret (a ++ lit " (" ++ loc_text l ++ lit ")") v)
            end)
      end).
  (** VnicDeviceStatusOutputProcessor, SP 39-62 *)
  Definition vnic_text (d : pystr) (v : vsvc) : vres pystr * vsvc :=
    andthen (base_text (lit "vnic") d v) (fun b v =>
    andthen (peer_text d v) (fun p v =>
    andthen (address d v) (fun a v =>
    andthen (conf v) (fun c v =>
    andthen (link_text c d v) (fun s v =>
      ret (b ++ tab ++ lit "Playground Address: " ++ a ++ nl ++
               tab ++ lit "Connected To: " ++ p ++ lit " (" ++ s ++ lit ")" ++ nl ++
               tab ++ lit "Routes:" ++ nl ++
               concat (map (fun r => tab ++ tab ++ r ++ nl) (routes_of (g_routes c) d))) v))))).
  (** DeviceProcessorFactory and its processor, SP 64-76, 85-88; getDevice
      comes first *)
  Definition device_text (d : pystr) (v : vsvc) : vres pystr * vsvc :=
    andthen (conf v) (fun c v =>
    andthen (vs_get w d v) (fun o v =>
      match o with
      | None => fail (VPy AttributeError) v
      | Some _ =>
          let t := match sec_get (g_devices c) d with Some t => t | None => lit "None" end in
          if eqb t (lit "switch") then switch_text d v
          else if eqb t (lit "vnic") then vnic_text d v
          else base_text t d v
      end)).
  Fixpoint devices_text (ds : list pystr) (v : vsvc) : vres pystr * vsvc :=
    match ds with
    | [] => ret [] v
    | d :: r => andthen (device_text d v) (fun x v => andthen (devices_text r v) (fun y v => ret (x ++ nl ++ y) v))
    end.
  (** DeviceStatusOutputProcessor.process, SP 78-91 *)
  Definition status_all (v : vsvc) : vres pystr * vsvc :=
    andthen (conf v) (fun c v =>
    andthen (devices_text (dkeys (g_devices c)) v) (fun x v =>
      ret (nl ++ lit "Playground Networking Configuration:" ++ nl ++ lit "-------------------------------------" ++ nl ++ nl ++ x) v)).
  (** RoutesStatusOutputProcessor.process, SP 93-103 *)
  Definition routes_text (v : vsvc) : vres pystr * vsvc :=
    andthen (conf v) (fun c v =>
      ret (nl ++ lit "Playground Routing:" ++ nl ++ lit "-------------------------------------" ++ nl ++ nl ++
           concat (map (fun p => tab ++ fst p ++ lit " -> " ++ snd p ++ nl) (g_routes c)) ++ nl) v).

  (** ** The commands: what is written, and how they end.
      status_handler, PN 165-177; a device's name is looked for in the variable
      deviceName, which does not exist (PN 173) *)
  Definition cmd_status (path : pystr) (device : option pystr) (v : vsvc) : list pystr * option verr * vsvc :=
    let first := nl ++ lit "Configuration: " ++ path in
    match device with
    | Some (_ :: _) => ([first], Some (VPy NameError), v)
    | _ => match status_all v with
           | (inl t, v1) => ([first; t], None, v1)
           | (inr e, v1) => ([first], Some e, v1)
           end
    end.
  (** routes, PN 287-290: the method is written, not what it returns; then
      initialize_manager does not exist.  [method]: the text of the method *)
  Definition cmd_routes (method : pystr) (v : vsvc) : list pystr * option verr * vsvc := ([method], Some (VPy NameError), v).
End Status.
(** pnetworking with a configuration: PN 299-318, loading as in VsvcModel.
    Loading ends the program if it fails. *)
Definition run_status (w : world) (pid : pystr -> Z) (content : pystr -> pystr) (path : pystr) (device : option pystr) (file : config) (os : pystr -> osd) :
  list pystr * option verr * vsvc := cmd_status w pid content path device (vs_new (Some file) w os).
