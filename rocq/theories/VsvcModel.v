(** * Model of the VNIC service: StandardVnicService and how
      create_playground_connection, create_playground_server and
      raw_vnic_connection find the TCP location of a VNIC
      (network/devices/vnic/connect.py, CN)

    The service holds a NetworkManager of its own: the configuration (PnmsModel)
    and the status of its devices (DeviceModel), both from the moment it was
    made.  Between two calls the operating system may do anything (other
    programs start and stop devices).  Not modelled: the file being changed by
    another program (the service never loads it again), text of exceptions. *)
From Coq Require Import String.
From Coq Require Import List ZArith Bool.
From Verif Require Import PyBase AddrModel PnmsModel DeviceModel.
Import ListNotations.
Open Scope nat_scope.

(** ** The devices of a configuration *)
(** a device's settings, _config[option]; NM 249-270 *)
Definition setting (c : config) (d o : pystr) : option pystr :=
  match dget (g_sections c) d with Some s => sec_get s o | None => None end.
Definition remote_ap (c : config) (d : pystr) : bool := eqb (setting c d (lit "physical_connection_type")) (Some (lit "remote")).  (* NA 43-44 *)
Definition device_of (c : config) (d t : pystr) : dev :=
  Dev (match type_kind t with Some Access => DAccess (remote_ap c d) | _ => DIface (sec_get (g_connections c) d) end)
      (eqb (setting c d (lit "auto_enable")) (Some (lit "true"))).                               (* PD 103-104 *)
Definition devices (c : config) : dnet := map (fun p => (fst p, device_of c (fst p) (snd p))) (g_devices c).

(** ** The service *)
(** the manager; None: its _config is None.  The status of the devices. *)
Record vsvc := VSvc { vs_mgr : option mgr; vs_dst : dst }.
(** What a call raises: a built-in exception; an exception of a device being
    loaded; the status file is not there; and the connector's own *)
Inductive verr := VPy (e : exn) | VDev (e : derr) | VNoFile | VNoVnic | VNotReady | VNoActive | VBadLocation.
Definition vres (A : Type) : Type := (A + verr)%type.

(** __init__, CN 384-390, with loadConfiguration, NM 217-219.  The bare except
    takes every exception; [deviceManager] is set by then, so the service goes
    on with what was loaded, which is nothing if the file could not be opened
    (NM 342-352).  [deviceManaer] (CN 390) is never read.
    Simplified: a file with a device that cannot be loaded leaves the devices up
    to that one installed. *)
Definition vs_new (file : option config) (w : world) (os : pystr -> osd) : vsvc :=
  match file with
  | None => VSvc None (fresh os)
  | Some c =>
      let (r, m) := load c in
      let n := devices (n_mem m) in
      VSvc (Some m) (snd (match r with
                          | Ok _ => DeviceModel.load_all n w os
                          | Raise _ => each (load_one n w) (rev (n_objs m)) (fresh os)
                          end))
  end.

(** Other programs change what runs *)
Definition vs_os (os : pystr -> osd) (v : vsvc) : vsvc :=
  VSvc (vs_mgr v) (Dst os (s_status (vs_dst v)) (s_launches (vs_dst v)) (s_kills (vs_dst v))).

Definition ret {A} (x : A) (v : vsvc) : vres A * vsvc := (inl x, v).
Definition fail {A} (e : verr) (v : vsvc) : vres A * vsvc := (inr e, v).
Definition andthen {A B} (p : vres A * vsvc) (f : A -> vsvc -> vres B * vsvc) : vres B * vsvc :=
  match p with (inl x, v) => f x v | (inr e, v) => (inr e, v) end.

(** A TCP location; both parts None: the device is not enabled *)
Record location := Loc { l_host : option pystr; l_port : option Z }.
Definition no_loc : location := Loc None None.
Definition local_host : pystr := lit "127.0.0.1".

Section Service.
  (** [line d]: the first line of the status file of d, if there is one *)
  Context (w : world) (line : pystr -> pystr).

  Definition of_res {A} (r : res A) (v : vsvc) : vres A * vsvc :=
    match r with Ok x => ret x v | Raise e => fail (VPy e) v end.
  (** the configuration; routing(), deviceInfo(), NM 307-340: None is not iterable *)
  Definition conf (v : vsvc) : vres config * vsvc :=
    match vs_mgr v with Some m => ret (n_mem m) v | None => fail (VPy TypeError) v end.
  (** getDevice, NM 249-270 *)
  Definition vs_get (d : pystr) (v : vsvc) : vres (option pystr) * vsvc :=
    match vs_mgr v with
    | None => fail (VPy (match d with [] => GenericException | _ => TypeError end)) v
    | Some m =>
        let (r, m1) := get_device (fuel_of (n_mem m)) d m in
        match r with
        | Raise e => fail (VPy e) (VSvc (Some m1) (vs_dst v))
        | Ok None => ret None (VSvc (Some m1) (vs_dst v))
        | Ok (Some x) =>
            let (o, s1) := load_one (devices (n_mem m1)) w x (vs_dst v) in
            match o with
            | DErr e => fail (VDev e) (VSvc (Some m1) s1)
            | DOk => ret (Some x) (VSvc (Some m1) s1)
            end
        end
    end.

  (** getDefaultVnic, CN 392-395 *)
  Definition default_vnic (v : vsvc) : vres (option pystr) * vsvc :=
    andthen (conf v) (fun c v => ret (default_route (g_routes c)) v).
  (** getVnicByDestination, CN 397-400 *)
  Definition vnic_for (a : addr) (v : vsvc) : vres (option pystr) * vsvc :=
    andthen (conf v) (fun c v => of_res (routing_device (g_routes c) a) v).
  (** address(), ID 78-79: an access point has none *)
  Definition address (d : pystr) (v : vsvc) : vres pystr * vsvc :=
    andthen (conf v) (fun c v =>
      match type_kind (match sec_get (g_devices c) d with Some t => t | None => [] end) with
      | Some Iface => match setting c d (lit "playground_address") with Some a => ret a v | None => fail (VPy KeyError) v end
      | _ => fail (VPy AttributeError) v
      end).
  (** getVnicByLocalAddress, CN 402-411 *)
  Fixpoint by_address (ds : section) (host : pystr) (v : vsvc) : vres (option pystr) * vsvc :=
    match ds with
    | [] => ret None v
    | (d, t) :: r =>
        if eqb t (lit "vnic") then
          andthen (vs_get d v) (fun o v =>
            match o with
            | None => fail (VPy AttributeError) v
            | Some _ => andthen (address d v) (fun a v => if eqb a host then ret (Some d) v else by_address r host v)
            end)
        else by_address r host v
    end.
  Definition vnic_at (host : pystr) (v : vsvc) : vres (option pystr) * vsvc :=
    andthen (conf v) (fun c v => by_address (g_devices c) host v).
  (** getVnicPlaygroundAddress, CN 413-419; [not name] is true of None and "" *)
  Definition vnic_address (d : option pystr) (v : vsvc) : vres (option addr) * vsvc :=
    match d with
    | None | Some [] => ret None v
    | Some d =>
        andthen (vs_get d v) (fun o v =>
          match o with
          | None => ret None v
          | Some d => andthen (address d v) (fun a v => andthen (of_res (from_string ClsAddress a) v) (fun a v => ret (Some a) v))
          end)
    end.

  (** tcpLocation: ID 81-87, NA 67-82.  A missing option is a KeyError. *)
  Definition opt_of (c : config) (d o : pystr) (v : vsvc) : vres pystr * vsvc :=
    match setting c d o with Some x => ret x v | None => fail (VPy KeyError) v end.
  Definition port_of (s : pystr) (v : vsvc) : vres Z * vsvc := of_res (parse_int s) v.
  Definition if_enabled (c : config) (d : pystr) (v : vsvc) : vres location * vsvc :=
    let (b, s1) := DeviceModel.enabled (devices c) d (vs_dst v) in
    let v1 := VSvc (vs_mgr v) s1 in
    if b then
      if o_files (s_os s1 d) then andthen (port_of (line d) v1) (fun p v => ret (Loc (Some local_host) (Some p)) v)
      else fail VNoFile v1
    else ret no_loc v1.
  Definition tcp_location (d : pystr) (v : vsvc) : vres location * vsvc :=
    andthen (conf v) (fun c v =>
      match type_kind (match sec_get (g_devices c) d with Some t => t | None => [] end) with
      | Some Access =>
          andthen (opt_of c d (lit "physical_connection_type") v) (fun t v =>
            if eqb t (lit "managed") then if_enabled c d v
            else if eqb t (lit "remote") then
              andthen (opt_of c d (lit "tcp_address") v) (fun a v => andthen (opt_of c d (lit "tcp_port") v) (fun x v =>
                andthen (port_of x v) (fun p v => ret (Loc (Some a) (Some p)) v)))
            else andthen (opt_of c d (lit "tcp_port") v) (fun x v => andthen (port_of x v) (fun p v =>
              ret (Loc (if eqb t (lit "public") then None else Some local_host) (Some p)) v)))
      | _ => if_enabled c d v
      end).
  (** getVnicTcpLocation, CN 421-425; None: no such device *)
  Definition vnic_location (d : option pystr) (v : vsvc) : vres (option location) * vsvc :=
    match d with
    | None | Some [] => ret None v
    | Some d =>
        andthen (vs_get d v) (fun o v =>
          match o with
          | None => ret None v
          | Some d => andthen (tcp_location d v) (fun l v => ret (Some l) v)
          end)
    end.

  (** ** The connector's calls, up to the TCP connection *)
  (** the destination: a text or an address *)
  Inductive dest := DText (s : pystr) | DAddr (a : addr).
  Definition is_text (s t : pystr) : bool := eqb s t.
  (** CN 243-255.  "localhost" is the default VNIC's own address; if there is
      none, None is no address (PlaygroundAddress.py 30-31).  (None, None) is
      true: CN 253 does not stop it. *)
  Definition find_connect (to : dest) (vnic : pystr) (v : vsvc) : vres (addr * location) * vsvc :=
    andthen (match to with
             | DAddr a => ret a v
             | DText s =>
                 if is_text s (lit "localhost") then
                   andthen (default_vnic v) (fun d v => andthen (vnic_address d v) (fun a v =>
                     match a with Some a => ret a v | None => fail (VPy InvalidPlaygroundAddress) v end))
                 else of_res (from_string ClsAddress s) v
             end) (fun a v =>
    andthen (if eqb vnic (lit "default") then vnic_for a v else ret (Some vnic) v) (fun d v =>
      match d with
      | None | Some [] => fail VNoVnic v                                       (* CN 250-251 *)
      | Some _ =>
          andthen (vnic_location d v) (fun l v =>
            match l with None => fail VNotReady v | Some l => ret (a, l) v end)
      end)).
  (** CN 313-330 *)
  Definition find_listen (host : pystr) (v : vsvc) : vres (option addr * location) * vsvc :=
    andthen (if is_text host (lit "default") || is_text host (lit "localhost") then default_vnic v else vnic_at host v) (fun d v =>
      match d with
      | None | Some [] => fail VNoVnic v
      | Some _ =>
          andthen (vnic_address d v) (fun a v =>
          andthen (vnic_location d v) (fun l v =>
            match l with
            | None => fail VNoActive v
            | Some l =>
                match l_host l, l_port l with
                | Some (_ :: _), Some p => if Z.eqb p 0 then fail VBadLocation v else ret (a, l) v
                | _, _ => fail VBadLocation v
                end
            end))
      end).
  (** raw_vnic_connection, CN 359-376: [host] is not defined (CN 364) *)
  Definition find_raw (vnic : pystr) (v : vsvc) : vres location * vsvc :=
    andthen (if eqb vnic (lit "default") then default_vnic v else fail (VPy NameError) v) (fun d v =>
      match d with
      | None | Some [] => fail VNoVnic v
      | Some _ =>
          andthen (vnic_address d v) (fun _ v =>
          andthen (vnic_location d v) (fun l v =>
            match l with None => fail VNoActive v | Some l => ret l v end))
      end).

End Service.

(** ** Histories: calls, each with what the status files say then, and changes
    of what runs *)
Inductive vcall := CConn (to : dest) (vnic : pystr) | CList (host : pystr) | CRaw (vnic : pystr).
Inductive vevent := VOs (os : pystr -> osd) | VCall (line : pystr -> pystr) (c : vcall).
Definition vs_call (w : world) (line : pystr -> pystr) (c : vcall) (v : vsvc) : vsvc :=
  match c with
  | CConn a d => snd (find_connect w line a d v)
  | CList h => snd (find_listen w line h v)
  | CRaw d => snd (find_raw w line d v)
  end.
Fixpoint vs_run (w : world) (es : list vevent) (v : vsvc) : vsvc :=
  match es with
  | [] => v
  | VOs os :: r => vs_run w r (vs_os os v)
  | VCall line c :: r => vs_run w r (vs_call w line c v)
  end.
