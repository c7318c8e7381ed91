(** * Model of the network management configuration:
      network/devices/pnms/NetworkManager.py (NM), InterfaceDevice.py (ID),
      NetworkAccessPoint.py (NA), and pnetworking.py (PN)

    A run of pnetworking loads the configuration file, does one command and
    exits.  Not modelled: the text of the file (a file is the configuration
    that was saved; names and values that the ini syntax or its %-interpolation
    would change are outside), processes and run files (see DeviceModel), and
    str.lower outside ASCII. *)
From Coq Require Import String.
From Coq Require Import List ZArith Bool.
From Verif Require Import PyBase AddrModel.
Import ListNotations.
Open Scope Z_scope.

(** ** A section of the file (configparser): option names are lower-cased *)
Definition section := dict pystr pystr.
Definition lower (s : pystr) : pystr := map (fun c => if (65 <=? c) && (c <=? 90) then c + 32 else c) s.
Definition sec_get (s : section) (k : pystr) : option pystr := dget s (lower k).
Definition sec_has (s : section) (k : pystr) : bool := dhas s (lower k).
Definition sec_set (s : section) (k v : pystr) : section := dset s (lower k) v.
Definition sec_del (s : section) (k : pystr) : section := ddel s (lower k).
(** [k in section] on a ConfigSectionAdapter: the class has no __contains__, so
    Python compares [k] as given with the stored names (NM 27-60) *)
Definition in_adapter (s : section) (k : pystr) : bool := smem (dkeys s) k.

Record config := Config {
  g_devices : section; g_connections : section; g_routes : section;
  g_sections : dict pystr section                        (* "Config_<name>", by <name>, case kept *)
}.
Definition config_empty : config := Config [] [] [] [].                       (* NM 342-352 *)

(** ** Routes, NM 113-178 *)
Definition default_key : pystr := lit "__default__".
(** lookupRoutesForDevice, NM 122-127 *)
Definition routes_of (s : section) (dev : pystr) : list pystr := map fst (filter (fun p => eqb (snd p) dev) s).
(** getDefaultRoute, NM 129-130 *)
Definition default_route (s : section) : option pystr := sec_get s default_key.
(** getRoutingDevice, NM 132-139 *)
Fixpoint routing_loop (rs : section) (a : addr) (otherwise : option pystr) : res (option pystr) :=
  match rs with
  | [] => Ok otherwise
  | (r, dev) :: rest =>
      if eqb r default_key then routing_loop rest a otherwise
      else match from_string ClsBlock r with
           | Raise e => Raise e
           | Ok b => if is_parent_block b a then Ok (Some dev) else routing_loop rest a otherwise
           end
  end.
Definition routing_device (s : section) (a : addr) : res (option pystr) := routing_loop s a (default_route s).
(** addRoute, NM 159-163; setDefaultRoute, NM 170-172; removeRoute, NM 165-168;
    unsetDefaultRoute, NM 174-178 *)
Definition add_route (s : section) (dev route : pystr) : res section :=
  if in_adapter s route then Raise GenericException else Ok (sec_set s route dev).
Definition set_default_route (s : section) (dev : pystr) : section := sec_set s default_key dev.
Definition remove_route (s : section) (dev route : pystr) : res section :=
  if negb (in_adapter s route) then Raise GenericException
  else if negb (eqb (sec_get s route) (Some dev)) then Raise GenericException
  else Ok (sec_del s route).
Definition unset_default_route (s : section) (dev : pystr) : res section :=
  if eqb (sec_get s default_key) (Some dev) then Ok (sec_del s default_key) else Raise GenericException.

(** ** The manager *)
(** the configuration in memory, the one in the file, and the names of the
    device objects made so far *)
Record mgr := Mgr { n_mem : config; n_file : config; n_objs : list pystr }.
Definition set_mem (m : mgr) (c : config) : mgr := Mgr c (n_file m) (n_objs m).
(** saveConfiguration, NM 221-222 *)
Definition save (m : mgr) : mgr := Mgr (n_mem m) (n_mem m) (n_objs m).
Definition set_connections (m : mgr) (s : section) : mgr :=
  let c := n_mem m in set_mem m (Config (g_devices c) s (g_routes c) (g_sections c)).
Definition set_routes (m : mgr) (s : section) : mgr :=
  let c := n_mem m in set_mem m (Config (g_devices c) (g_connections c) s (g_sections c)).

(** The registered device types (PNMSDevice.py 17-20): interfaces, which can
    connect and route (ID 6-7), and access points *)
Inductive kind := Iface | Access.
Definition type_kind (t : pystr) : option kind :=
  if eqb t (lit "vnic") then Some Iface
  else if eqb t (lit "switch") || eqb t (lit "unreliable_switch") then Some Access
  else None.
Definition kind_of (m : mgr) (name : pystr) : option kind :=
  match sec_get (g_devices (n_mem m)) name with Some t => type_kind t | None => None end.

(** connectedTo, ID 102-104 *)
Definition connected_to (m : mgr) (name : pystr) : option pystr := sec_get (g_connections (n_mem m)) name.
(** _disconnect, ID 131-136, with disconnect, NM 108-111 *)
Definition disconnect (m : mgr) (name : pystr) : mgr :=
  match connected_to m name with
  | None | Some [] => m
  | Some _ =>
      let s := g_connections (n_mem m) in
      save (if in_adapter s name then set_connections m (sec_del s name) else m)
  end.

(** getDevice, NM 249-270, with installToNetwork (PNMSDevice.py 81-87) and
    _reloadRuntimeData, ID 30-39.  Loading an interface loads the device it is
    connected to; the fuel is a bound on how deep that goes. *)
Fixpoint get_device (fuel : nat) (name : pystr) (m : mgr) : res (option pystr) * mgr :=
  match fuel with
  | O => (Raise RecursionError, m)
  | S f =>
      match name with
      | [] => (Raise GenericException, m)                                     (* NM 250-251 *)
      | _ =>
          if smem (n_objs m) name then (Ok (Some name), m)                    (* NM 252-253 *)
          else match sec_get (g_devices (n_mem m)) name with
               | None => (Ok None, m)                                         (* NM 254-256 *)
               | Some t =>
                   match type_kind t with
                   | None => (Raise GenericException, m)                      (* NM 258-260 *)
                   | Some k =>
                       if negb (dhas (g_sections (n_mem m)) name) then (Raise GenericException, m)  (* NM 265, 308-309 *)
                       else
                         let m1 := Mgr (n_mem m) (n_file m) (name :: n_objs m) in  (* NM 268 *)
                         match k with
                         | Access => (Ok (Some name), m1)
                         | Iface =>
                             match connected_to m1 name with                  (* ID 31-32 *)
                             | None => (Ok (Some name), m1)
                             | Some c =>
                                 let (r, m2) := get_device f c m1 in          (* ID 34 *)
                                 match r with
                                 | Raise e => (Raise e, m2)
                                 | Ok (Some _) => (Ok (Some name), m2)        (* ID 35-36 *)
                                 | Ok None => (Ok (Some name), disconnect m2 name)   (* ID 37-39 *)
                                 end
                             end
                         end
                   end
               end
      end
  end.
Definition fuel_of (c : config) : nat := S (S (length (g_sections c))).
(** _loadDevices, NM 357-361 *)
Fixpoint load_devices (fuel : nat) (names : list pystr) (m : mgr) : res unit * mgr :=
  match names with
  | [] => (Ok tt, m)
  | n :: r => let (o, m1) := get_device fuel n m in
              match o with Raise e => (Raise e, m1) | Ok _ => load_devices fuel r m1 end
  end.
(** loadConfiguration, NM 217-219 *)
Definition load (file : config) : res unit * mgr :=
  load_devices (fuel_of file) (dkeys (g_devices file)) (Mgr file file []).

(** ** initialize *)
Definition s_true : pystr := lit "true".
Definition s_false : pystr := lit "false".
(** InterfaceDevice.initialize, ID 51-64 *)
Fixpoint iface_flags (args : list pystr) (auto : pystr) : res pystr :=
  match args with
  | [] => Ok auto
  | a :: r => if eqb a (lit "manual") then iface_flags r s_false else Raise GenericException
  end.
Definition iface_settings (args : list pystr) : res section :=
  match args with
  | [] => Raise IndexError
  | a :: r => match iface_flags r s_true with
              | Ok auto => Ok [(lit "playground_address", a); (lit "auto_enable", auto)]
              | Raise e => Raise e
              end
  end.
(** NetworkAccessPointDevice.initialize, NA 85-120 *)
Record apconf := ApConf { ap_auto : pystr; ap_type : pystr; ap_addr : pystr; ap_port : pystr }.
Fixpoint ap_args (fuel : nat) (args : list pystr) (c : apconf) : res apconf :=
  match fuel with
  | O => Raise RecursionError
  | S f =>
      match args with
      | [] => Ok c
      | a :: r =>
          if eqb a (lit "manual") then ap_args f r (ApConf s_false (ap_type c) (ap_addr c) (ap_port c))
          else if eqb a (lit "auto-enable") then ap_args f r (ApConf s_true (ap_type c) (ap_addr c) (ap_port c))
          else if eqb a (lit "managed") then ap_args f r (ApConf (ap_auto c) a (ap_addr c) (ap_port c))
          else if eqb a (lit "remote") then
            match r with
            | x :: p :: r' => ap_args f r' (ApConf (ap_auto c) a x p)
            | _ => Raise IndexError
            end
          else if eqb a (lit "local") || eqb a (lit "public") then
            match r with
            | p :: r' => ap_args f r' (ApConf (ap_auto c) a (ap_addr c) p)
            | _ => Raise IndexError
            end
          else Raise GenericException
      end
  end.
Definition ap_settings (args : list pystr) : res section :=
  match ap_args (S (length args)) args (ApConf s_true (lit "managed") [] []) with
  | Raise e => Raise e
  | Ok c =>
      Ok ([(lit "auto_enable", ap_auto c); (lit "physical_connection_type", ap_type c)] ++
          (if eqb (ap_type c) (lit "managed") then []
           else (if eqb (ap_type c) (lit "remote") then [(lit "tcp_address", ap_addr c)] else []) ++ [(lit "tcp_port", ap_port c)]))
  end.
Definition settings (k : kind) (args : list pystr) : res section :=
  match k with Iface => iface_settings args | Access => ap_settings args end.

(** ** addDevice, NM 272-286 *)
Definition add_device (name type : pystr) (args : list pystr) (m : mgr) : res unit * mgr :=
  let c := n_mem m in
  if sec_has (g_devices c) name then (Raise GenericException, m)
  else match type_kind type with
       | None => (Raise GenericException, m)
       | Some k =>
           let m1 := set_mem m (Config (sec_set (g_devices c) name type) (g_connections c) (g_routes c) (dset (g_sections c) name [])) in
           let (r, m2) := get_device (fuel_of (n_mem m1)) name m1 in
           match r with
           | Raise e => (Raise e, m2)
           | Ok None => (Raise AttributeError, m2)
           | Ok (Some _) =>
               match settings k args with
               | Raise e => (Raise e, m2)
               | Ok s =>
                   let c2 := n_mem m2 in
                   (Ok tt, save (set_mem m2 (Config (g_devices c2) (g_connections c2) (g_routes c2) (dset (g_sections c2) name s))))
               end
           end
       end.
(** InterfaceDevice.destroy, ID 72-76: the routes one after the other *)
Fixpoint remove_routes (rs : list pystr) (dev : pystr) (s : section) : res section :=
  match rs with [] => Ok s | r :: rest => match remove_route s dev r with Ok s' => remove_routes rest dev s' | Raise e => Raise e end end.
(** removeDevice, NM 288-305.  The alert (NM 293) tells every device that this
    one is destroyed; an interface compares the device object with the name it
    is connected to (ID 67), which is never equal, so nothing follows. *)
Definition remove_device (name : pystr) (m : mgr) : res unit * mgr :=
  if negb (sec_has (g_devices (n_mem m)) name) then (Ok tt, m)                (* NM 289-290 *)
  else
    let (r, m1) := get_device (fuel_of (n_mem m)) name m in
    match r with
    | Raise e => (Raise e, m1)
    | Ok None => (Raise AttributeError, m1)
    | Ok (Some _) =>
        let destroyed :=
          match kind_of m1 name with
          | Some Iface =>
              let m2 := disconnect m1 name in
              match remove_routes (routes_of (g_routes (n_mem m2)) name) name (g_routes (n_mem m2)) with
              | Ok s => (Ok tt, set_routes m2 s)
              | Raise e => (Raise e, m2)
              end
          | _ => (Ok tt, m1)
          end in
        match fst destroyed with
        | Raise e => (Raise e, snd destroyed)
        | Ok _ =>
            let m3 := snd destroyed in let c := n_mem m3 in
            (Ok tt, save (Mgr (Config (sec_del (g_devices c) name) (g_connections c) (g_routes c) (ddel (g_sections c) name))
                              (n_file m3) (sremove (n_objs m3) name)))        (* NM 298-305 *)
        end
    end.

(** ** Device commands: PN 268-274 with ID 89-100, 123-156 *)
Definition with_iface (name : pystr) (m : mgr) (k : mgr -> res unit * mgr) : res unit * mgr :=
  let (r, m1) := get_device (fuel_of (n_mem m)) name m in
  match r with
  | Raise e => (Raise e, m1)
  | Ok None => (Raise GenericException, m1)                                   (* PN 148-152 *)
  | Ok (Some _) => match kind_of m1 name with
                   | Some Iface => k m1
                   | _ => (Raise AttributeError, m1)                          (* NA 122-123: no _sanitize *)
                   end
  end.
(** _connect, ID 123-129, with createConnectionTo, NM 102-106 *)
Definition connect (name target : pystr) (m : mgr) : res unit * mgr :=
  with_iface name m (fun m1 =>
    let (r, m2) := get_device (fuel_of (n_mem m1)) target m1 in
    match r with
    | Raise e => (Raise e, m2)
    | Ok None => (Raise GenericException, m2)
    | Ok (Some t) =>
        match kind_of m2 t with
        | Some Access => (Ok tt, save (set_connections m2 (sec_set (g_connections (n_mem m2)) name t)))
        | _ => (Raise GenericException, m2)                                   (* NM 103-104 *)
        end
    end).
(** _route, ID 138-156; only removing a route does not save (NM 165-168) *)
Definition is_default (r : pystr) : bool := eqb r (lit "default").
Definition route_add (name route : pystr) (m : mgr) : res unit * mgr :=
  with_iface name m (fun m1 =>
    let s := g_routes (n_mem m1) in
    if is_default route then (Ok tt, save (set_routes m1 (set_default_route s name)))
    else match add_route s name route with Ok s' => (Ok tt, save (set_routes m1 s')) | Raise e => (Raise e, m1) end).
Definition route_remove (name route : pystr) (m : mgr) : res unit * mgr :=
  with_iface name m (fun m1 =>
    let s := g_routes (n_mem m1) in
    if is_default route
    then match unset_default_route s name with Ok s' => (Ok tt, save (set_routes m1 s')) | Raise e => (Raise e, m1) end
    else match remove_route s name route with Ok s' => (Ok tt, set_routes m1 s') | Raise e => (Raise e, m1) end).

Inductive command :=
| CAdd (name type : pystr) (args : list pystr)
| CRemove (name : pystr)
| CConnect (name target : pystr)
| CDisconnect (name : pystr)
| CRouteAdd (name route : pystr)
| CRouteRemove (name route : pystr)
| CLook.                                                   (* any command that changes no configuration *)
Definition exec (k : command) (m : mgr) : res unit * mgr :=
  match k with
  | CAdd n t a => add_device n t a m
  | CRemove n => remove_device n m
  | CConnect n t => connect n t m
  | CDisconnect n => with_iface n m (fun m1 => (Ok tt, disconnect m1 n))
  | CRouteAdd n r => route_add n r m
  | CRouteRemove n r => route_remove n r m
  | CLook => (Ok tt, m)
  end.
(** One run of pnetworking, PN 299-318: the result and the file afterwards *)
Definition run (k : command) (file : config) : res unit * config :=
  let (r, m) := load file in
  match r with
  | Raise e => (Raise e, n_file m)
  | Ok _ => let (o, m') := exec k m in (o, n_file m')
  end.
Fixpoint runs (ks : list command) (file : config) : config :=
  match ks with [] => file | k :: r => runs r (snd (run k file)) end.
