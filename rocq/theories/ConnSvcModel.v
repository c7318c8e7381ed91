(** * Model of PlaygroundConnectorService and of create_server and
    create_connection, network/devices/vnic/connect.py 427-517 (CN).

    The connectors directory is what os.listdir returns: entries in an arbitrary
    order, each with the body of its package if it is one. It may change between
    two calls, not during one. A body is the sequence of its calls of the
    service; the rest of it cannot touch the service's state. Connectors are
    opaque.
    Not modelled: InitializeConfigModule (CN 433-437), PacketDefinitionSilo
    (RegModel; it is entered and left around a body and cannot fail), the finding
    of the module's file on sys.path (it is the one listed), threads. *)
From Coq Require Import List ZArith Bool String.
From Verif Require Import PyBase.
Import ListNotations.
Open Scope nat_scope.

Definition conn := nat.
Definition modname := nat.

(** What a connector module's body does *)
Inductive action :=
| ASet (n : pystr) (c : conn)     (* playground.setConnector(n, c) *)
| AGet (n : pystr)                (* playground.getConnector(n) *)
| ATryGet (n : pystr)             (* the same, in try ... except Exception *)
| AReload (force : bool)          (* playground.reloadConnectors(force) *)
| ARaise                          (* an Exception *)
| AExit.                          (* a BaseException that is no Exception: sys.exit(), Ctrl-C *)
Definition script := list action.

(** None: an entry of the directory that is not a package (CN 469) *)
Definition listing := list (modname * option script).

Record svc := Svc {
  v_defaults : dict pystr conn;   (* _default_connectors *)
  v_conns : dict pystr conn;      (* _connectors *)
  v_loaded : bool;
  v_auto : bool;                  (* _autoLoading *)
  v_mods : list modname;          (* the connectors.* in sys.modules *)
  v_reloading : list modname;     (* importlib._RELOADING *)
  v_path : list pystr;            (* sys.path *)
  v_ran : list modname            (* the bodies begun so far, for the specification *)
}.

Definition default_name : pystr := lit "default".
(** CN 439-444; 0 is PlaygroundConnector() *)
Definition svc_new (path : list pystr) : svc :=
  Svc [(default_name, 0)] [(default_name, 0)] false false [] [] path [].

Definition with_conns (c : dict pystr conn) (s : svc) : svc :=
  Svc (v_defaults s) c (v_loaded s) (v_auto s) (v_mods s) (v_reloading s) (v_path s) (v_ran s).
Definition with_auto (b : bool) (s : svc) : svc :=
  Svc (v_defaults s) (v_conns s) (v_loaded s) b (v_mods s) (v_reloading s) (v_path s) (v_ran s).
Definition with_loaded (s : svc) : svc :=
  Svc (v_defaults s) (v_conns s) true (v_auto s) (v_mods s) (v_reloading s) (v_path s) (v_ran s).
Definition with_mods (m : list modname) (s : svc) : svc :=
  Svc (v_defaults s) (v_conns s) (v_loaded s) (v_auto s) m (v_reloading s) (v_path s) (v_ran s).
Definition with_reloading (m : list modname) (s : svc) : svc :=
  Svc (v_defaults s) (v_conns s) (v_loaded s) (v_auto s) (v_mods s) m (v_path s) (v_ran s).
Definition with_path (p : list pystr) (s : svc) : svc :=
  Svc (v_defaults s) (v_conns s) (v_loaded s) (v_auto s) (v_mods s) (v_reloading s) p (v_ran s).
Definition with_ran (m : modname) (s : svc) : svc :=
  Svc (v_defaults s) (v_conns s) (v_loaded s) (v_auto s) (v_mods s) (v_reloading s) (v_path s) (v_ran s ++ [m]).

(** setConnector, CN 491-494 *)
Definition set_connector (n : pystr) (c : conn) (s : svc) : svc :=
  let s1 := if v_auto s then s
            else Svc (dset (v_defaults s) n c) (v_conns s) (v_loaded s) (v_auto s) (v_mods s) (v_reloading s) (v_path s) (v_ran s) in
  with_conns (dset (v_conns s1) n c) s1.

Inductive outcome := ONorm | OExc | OExit.

(** Running a body and loading the directory, given reloadConnectors for the
    calls a body makes; None is out of fuel. *)
Section Load.
  Variable rec : bool -> svc -> option (outcome * svc).

  (** getConnector inside a body, CN 485-489: the connector itself does not matter *)
  Definition body_get (n : pystr) (s : svc) : option (outcome * svc) :=
    match rec false s with
    | Some (ONorm, s1) => Some (if dhas (v_conns s1) n then ONorm else OExc, s1)
    | r => r
    end.

  Definition act (a : action) (s : svc) : option (outcome * svc) :=
    match a with
    | ASet n c => Some (ONorm, set_connector n c s)
    | AGet n => body_get n s
    | ATryGet n => match body_get n s with Some (OExc, s1) => Some (ONorm, s1) | r => r end
    | AReload f => rec f s
    | ARaise => Some (OExc, s)
    | AExit => Some (OExit, s)
    end.

  Fixpoint body (l : script) (s : svc) : option (outcome * svc) :=
    match l with
    | [] => Some (ONorm, s)
    | a :: r => match act a s with Some (ONorm, s1) => body r s1 | x => x end
    end.

  (** CN 466-476, one entry: importlib.reload if the module is in sys.modules
      (it returns at once if the module is being reloaded, and forgets that in
      any case at the end), else importlib.import_module (a failed import is
      taken out of sys.modules) *)
  Definition load_module (m : modname) (l : script) (s : svc) : option (outcome * svc) :=
    if smem (v_mods s) m then
      if smem (v_reloading s) m then Some (ONorm, s)
      else match body l (with_ran m (with_reloading (m :: v_reloading s) s)) with
           | Some (o, s1) => Some (o, with_reloading (sremove (v_reloading s1) m) s1)
           | None => None
           end
    else match body l (with_ran m (with_mods (m :: v_mods s) s)) with
         | Some (ONorm, s1) => Some (ONorm, s1)
         | Some (o, s1) => Some (o, with_mods (sremove (v_mods s1) m) s1)
         | None => None
         end.

  (** the loop, CN 465-478: an Exception is printed (CN 477-478), anything else goes up *)
  Fixpoint load_all (d : listing) (s : svc) : option (outcome * svc) :=
    match d with
    | [] => Some (ONorm, s)
    | (_, None) :: r => load_all r s
    | (m, Some l) :: r =>
        match load_module m l s with
        | Some (OExit, s1) => Some (OExit, s1)
        | Some (_, s1) => load_all r s1
        | None => None
        end
    end.
End Load.

(** reloadConnectors, CN 446-481. The directory is None if there is none: then
    CN 461 raises FileNotFoundError. oldPath (CN 457) is the list itself, so CN
    480 changes nothing. *)
Fixpoint reload (fuel : nat) (cfg : pystr) (dir : option listing) (force : bool) (s : svc) : option (outcome * svc) :=
  match fuel with
  | 0 => None
  | S f =>
      if v_loaded s && negb force then Some (ONorm, s) else
      let s1 := with_conns (v_defaults s) s in
      let s2 := if smem (v_path s1) cfg then s1 else with_path (cfg :: v_path s1) s1 in
      match dir with
      | None => Some (OExc, s2)
      | Some d =>
          match load_all (reload f cfg dir) d (with_auto true s2) with
          | Some (OExit, s3) => Some (OExit, s3)
          | Some (_, s3) => Some (ONorm, with_loaded (with_auto false s3))
          | None => None
          end
      end
  end.

(** ** Calls from outside *)
Definition depth (dir : option listing) : nat := match dir with Some d => 2 * List.length d + 1 | None => 1 end.

Inductive answer := RDone | RFound (c : conn) | RNoSuch | RNoDir | RExit.
Inductive call := CSet (n : pystr) (c : conn) | CGet (n : pystr) | CReload (force : bool).

(** A call, with the connectors directory as it is then *)
Definition do_call (cfg : pystr) (dir : option listing) (k : call) (s : svc) : option (answer * svc) :=
  match k with
  | CSet n c => Some (RDone, set_connector n c s)
  | CGet n =>                                                     (* CN 485-489 *)
      match reload (depth dir) cfg dir false s with
      | Some (ONorm, s1) => Some (match dget (v_conns s1) n with Some c => RFound c | None => RNoSuch end, s1)
      | Some (OExc, s1) => Some (RNoDir, s1)
      | Some (OExit, s1) => Some (RExit, s1)
      | None => None
      end
  | CReload f =>
      match reload (depth dir) cfg dir f s with
      | Some (ONorm, s1) => Some (RDone, s1)
      | Some (OExc, s1) => Some (RNoDir, s1)
      | Some (OExit, s1) => Some (RExit, s1)
      | None => None
      end
  end.

Fixpoint do_calls (cfg : pystr) (h : list (option listing * call)) (s : svc) : option (list answer * svc) :=
  match h with
  | [] => Some ([], s)
  | (d, k) :: r =>
      match do_call cfg d k s with
      | Some (a, s1) => match do_calls cfg r s1 with Some (l, s2) => Some (a :: l, s2) | None => None end
      | None => None
      end
  end.

(** ** create_server and create_connection *)

(** [s.startswith(p)] *)
Fixpoint starts (p s : pystr) : bool :=
  match p, s with
  | [], _ => true
  | x :: p', y :: s' => Z.eqb x y && starts p' s'
  | _, [] => false
  end.
(** [sep in s] *)
Fixpoint contains (sep s : pystr) : bool :=
  starts sep s || match s with [] => false | _ :: r => contains sep r end.
(** [s.split(sep)], sep not empty: [skip] characters of a separator are still to
    be passed over, [cur] is the piece so far, reversed *)
Fixpoint split_str (sep : pystr) (skip : nat) (cur s : pystr) : list pystr :=
  match s with
  | [] => [rev cur]
  | x :: r =>
      match skip with
      | S k => split_str sep k cur r
      | 0 => if starts sep s then rev cur :: split_str sep (List.length sep - 1) [] r else split_str sep 0 (x :: cur) r
      end
  end.

Definition scheme : pystr := lit "://".
(** CN 504-507 and 513-516 *)
Definition choose_family (family host : option pystr) : res (pystr * option pystr) :=
  match family with
  | Some f => Ok (f, host)
  | None =>
      match host with
      | Some h => if contains scheme h
                  then match split_str scheme 0 [] h with
                       | [f; h'] => Ok (f, Some h')
                       | _ => Raise ValueError                    (* unpacking *)
                       end
                  else Ok (default_name, host)
      | None => Ok (default_name, host)
      end
  end.

(** The connector's method is called with this host and port, or something is raised *)
Inductive opened := OpCall (c : conn) (host : option pystr) (port : option Z) | OpRaise (e : exn) | OpNoSuch | OpNoDir | OpExit.

Definition via (cfg : pystr) (dir : option listing) (r : res (pystr * option pystr)) (port : option Z) (s : svc) : option (opened * svc) :=
  match r with
  | Raise e => Some (OpRaise e, s)
  | Ok (f, h) =>
      match do_call cfg dir (CGet f) s with
      | Some (RFound c, s1) => Some (OpCall c h port, s1)
      | Some (RNoSuch, s1) => Some (OpNoSuch, s1)
      | Some (RNoDir, s1) => Some (OpNoDir, s1)
      | Some (_, s1) => Some (OpExit, s1)
      | None => None
      end
  end.

(** create_server, CN 499-508; [extra]: are there further arguments? *)
Definition create_server cfg dir (host : option pystr) (port : option Z) (family : option pystr) (extra : bool) (s : svc) : option (opened * svc) :=
  let host := match host with None => Some default_name | _ => host end in
  match port with
  | None => Some (OpRaise GenericException, s)
  | Some _ => if extra then Some (OpRaise GenericException, s) else via cfg dir (choose_family family host) port s
  end.
(** create_connection, CN 510-517 *)
Definition create_connection cfg dir (host : option pystr) (port : option Z) (family : option pystr) (extra : bool) (s : svc) : option (opened * svc) :=
  if extra then Some (OpRaise GenericException, s) else via cfg dir (choose_family family host) port s.
