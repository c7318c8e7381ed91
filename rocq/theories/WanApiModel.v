(** * Model of the management verbs of the WAN process, entry_points/launch_wan.py (LW),
    over WanNetModel.v (HierarchyWAN, HierarchyRouter) and SpmpModel.v (SPMPServerProtocol).
    Simplifications: log levels and the loss rate are [Settings] with any five functions
    (the losses themselves are a given sequence, WanNetModel.v); the texts of the TypeError
    for a wrong number of arguments and of int()'s ValueError are shortened; a connection is
    listed once it has its transport (asyncio calls connection_made soon after the factory). *)
From Coq Require Import String.
From Coq Require Import List ZArith Bool.
From Verif Require Import PyBase AddrModel SwitchModel WanModel WanNetModel SpmpModel.
Import ListNotations.
Open Scope Z_scope.

(** ", ".join *)
Fixpoint commas (ps : list pystr) : pystr := match ps with [] => [] | [p] => p | p :: r => p ++ [44; 32] ++ commas r end.
(** str of a list, of the str of its elements *)
Definition py_list (ps : list pystr) : pystr := [91] ++ commas ps ++ [93].
Definition print_route (r : list Z) : pystr := py_list (map print_int r).
Definition print_prefix (p : option Z) : pystr := match p with Some z => print_int z | None => lit "None" end.

Definition int_error : pystr := lit "invalid literal for int() with base 10".
Definition argument_error : pystr := lit "wrong number of arguments".
(** WAN 35, 47, 73 *)
Definition duplicate_error (p : Z) : pystr := lit "Duplicate Router for prefix " ++ print_int p.
Definition unknown_error (p : Z) : pystr := lit "No switch located at prefix " ++ print_int p.
Definition destination_error (p : Z) : pystr := lit "No destination switch located at prefix " ++ print_int p.
Fixpoint first_unknown (a : routes Z) (ds : list Z) : Z := match ds with [] => 0 | d :: r => if dhas a d then first_unknown a r else d end.

(** [int(x) for x in args] *)
Fixpoint parse_ints (args : list pystr) : option (list Z) :=
  match args with
  | [] => Some []
  | a :: r => match parse_int a with Ok z => match parse_ints r with Some zs => Some (z :: zs) | None => None end | Raise _ => None end
  end.

Section Api.
Context {Settings : Type}.
Variables (lost : nat -> bool).
(** str(connection.transport.get_extra_info("peername")) *)
Variable peername : nat -> pystr.
(** all-log-levels, get-log-level, set-log-level, get-loss-rate, set-loss-rate, LW 48-50, 54-55 *)
Variables all_levels get_level set_level get_rate set_rate : Settings -> list pystr -> Settings * opres.
Definition wstate := (wnet * Settings)%type.
Definition setting (f : Settings -> list pystr -> Settings * opres) : operation wstate :=
  fun x args => let (s, o) := f (snd x) args in ((fst x, s), o).
Definition query (f : wnet -> list pystr -> opres) : operation wstate := fun x args => (x, f (fst x) args).

(** printConnections, LW 24-29 *)
Definition print_connections (g : wnet) : pystr :=
  lit "WAN connections" ++ [10] ++ flat_map (fun nr => [9] ++ peername (fst nr) ++ lit ": " ++ print_prefix (r_prefix (snd nr)) ++ [10]) (n_conn g).
(** printRoutes, LW 31-36 *)
Definition print_routes (g : wnet) : pystr :=
  lit "WAN Routes" ++ [10] ++ flat_map (fun s => flat_map (fun dr => [9] ++ print_int s ++ lit "->" ++ print_int (fst dr) ++ lit ": " ++ print_route (snd dr) ++ [10]) (wan_routes (n_routes g) s)) (wan_prefixes (n_routes g)).
(** setConnectionByName, LW 38-43 *)
Definition by_name (name : pystr) (g : wnet) : option nat :=
  match filter (fun nr => eqb (peername (fst nr)) name) (n_conn g) with nr :: _ => Some (fst nr) | [] => None end.
Definition no_connection (name : pystr) : pystr := lit "No such connection " ++ name.
(** set-location, LW 53 *)
Definition set_location : operation wstate := fun x args =>
  match args with
  | [name; prefix] =>
      match parse_int prefix with
      | Raise _ => (x, OpRaises int_error)
      | Ok p =>
          match by_name name (fst x) with
          | Some n => ((fst (net_locate n p (fst x)), snd x), OpValue (lit "Changed"))
          | None => (x, OpValue (no_connection name))
          end
      end
  | _ => (x, OpRaises argument_error)
  end.
(** add-switches, LW 57 *)
Fixpoint add_switches (done : nat) (args : list pystr) (g : wnet) : wnet * opres :=
  match args with
  | [] => (g, OpValue (py_list (repeat (lit "None") done)))
  | a :: r =>
      match parse_int a with
      | Raise _ => (g, OpRaises int_error)
      | Ok p => match net_register p g with
                | (g', Ok _) => add_switches (S done) r g'
                | (g', Raise _) => (g', OpRaises (duplicate_error p))
                end
      end
  end.
(** remove-switches, LW 58, and unregisterLANSwitch, WAN 103-104 *)
Definition remove_switches (args : list pystr) : opres :=
  match parse_ints args with Some zs => OpValue (py_list (map (fun _ => lit "None") zs)) | None => OpRaises int_error end.
(** set-direct-connections, LW 59 *)
Definition set_direct (args : list pystr) (g : wnet) : wnet * opres :=
  match args with
  | [] => (g, OpRaises argument_error)
  | p :: ds =>
      match parse_ints (p :: ds) with
      | Some (r :: zs) =>
          match net_set lost r zs g with
          | (g', Ok _) => (g', OpValue (lit "None"))
          | (g', Raise _) => (g', OpRaises (if dhas (n_routes g) r then destination_error (first_unknown (n_routes g) zs) else unknown_error r))
          end
      | _ => (g, OpRaises int_error)
      end
  end.
(** get-route, LW 60 *)
Definition get_route (g : wnet) (args : list pystr) : opres :=
  match args with
  | [a; b] => match parse_ints [a; b] with Some [s; d] => OpValue (print_route (wan_route (n_routes g) s d)) | _ => OpRaises int_error end
  | _ => OpRaises argument_error
  end.
Definition no_args (f : wnet -> pystr) (g : wnet) (args : list pystr) : opres := match args with [] => OpValue (f g) | _ => OpRaises argument_error end.
Definition on_net (f : list pystr -> wnet -> wnet * opres) : operation wstate := fun x args => let (g, o) := f args (fst x) in ((g, snd x), o).
(** LW 46-62; the keys in order *)
Definition verb_names : list pystr := map lit ["verbs"; "all-log-levels"; "get-log-level"; "set-log-level"; "list-connections"; "set-location"; "get-loss-rate"; "set-loss-rate"; "add-switches"; "remove-switches"; "set-direct-connections"; "get-route"; "get-routes"]%string.
Definition wan_api : dict pystr (operation wstate) :=
  combine verb_names
    [query (no_args (fun _ => commas verb_names)); setting all_levels; setting get_level; setting set_level;
     query (no_args print_connections); set_location; setting get_rate; setting set_rate;
     on_net (add_switches 0); query (fun _ => remove_switches); on_net set_direct;
     query get_route; query (no_args print_routes)].
(** ProtocolFactory, LW 64-73 *)
Definition wan_server (name : pystr) : server wstate := Server wan_api (Some local_access) name.

(** ** Histories: devices come, announce and go; requests arrive *)
Inductive wevent := WConnect (n : nat) | WAnnounce (n : nat) (a : pystr) | WLost (n : nat) | WRequest (peer : option pystr) (r : spmp).
Definition w_step (name : pystr) (e : wevent) (x : wstate) : wstate * list slog :=
  match e with
  | WConnect n => ((net_connect n (fst x), snd x), [])
  | WAnnounce n a => ((net_announce n a (fst x), snd x), [])
  | WLost n => ((net_lost n (fst x), snd x), [])
  | WRequest peer r => process (wan_server name) peer r x
  end.
Fixpoint w_run (name : pystr) (es : list wevent) (x : wstate) : wstate * list slog :=
  match es with
  | [] => (x, [])
  | e :: r => let (x1, l1) := w_step name e x in let (x2, l2) := w_run name r x1 in (x2, l1 ++ l2)
  end.
End Api.
