(** * Model of network/packet/PacketDefinitionRegistration.py (PDR) and of the
      class creation hook in network/packet/PacketType.py:23-82 (PT) *)
From Coq Require Import List ZArith Bool.
From Verif Require Import PyBase HDModel AddrModel.
Import ListNotations.
Open Scope Z_scope.

#[export] Instance EqDec_version : EqDec version.
Proof. unfold EqDec. decide equality; apply eq_dec. Defined.

(** Class objects are identified by a number *)
Definition cls := nat.

(** DefinitionPOD, PDR 6-11 *)
Record pod := Pod { p_versions : dict version cls; p_majorMax : Z; p_minorMax : dict Z Z }.
Definition new_pod : pod := Pod [] 0 [(0, 0)].

(** PacketDefinitionRegistration.__init__, PDR 15-16.
    Simplification: the POD is stored by value; the code mutates it in place
    and stores it again under the same key. *)
Definition registry := hd pystr pod.
Definition reg_empty : registry := hd_empty.

(** self.__definitions.get(identifier, None): Mapping.get over __getitem__ *)
Definition pod_of (r : registry) (i : pystr) : option pod :=
  match hd_get dot_split i r with Ok p => Some p | Raise _ => None end.

(** getDefinition, PDR 18-31; [None] for the version is MOST_RECENT.  The name
    findCompatibleVersion (27) is not defined anywhere: NameError. *)
Definition get_definition (r : registry) (i : pystr) (v : option version) : res (option cls) :=
  match pod_of r i with
  | None => Ok None
  | Some p =>
      match p_versions p with
      | [] => Ok None
      | _ =>
          bind (match v with
                | Some v => Ok v
                | None => bind (dget_e (p_minorMax p) (p_majorMax p))
                            (fun m => Ok (Version (p_majorMax p) m))
                end)
               (fun v => match dget (p_versions p) v with
                         | Some c => Ok (Some c)
                         | None => Raise NameError
                         end)
      end
  end.
(** hasDefinition, PDR 33-35 *)
Definition has_definition (r : registry) (i : pystr) (v : option version) : res bool :=
  bind (get_definition r i v) (fun o => Ok (match o with Some _ => true | None => false end)).
(** registerDefinition, PDR 37-42 *)
Definition register_definition (r : registry) (i : pystr) (v : version) (c : cls) : res registry :=
  let p := match pod_of r i with Some p => p | None => new_pod end in
  let vs := dset (p_versions p) v c in
  let mm := Z.max (v_major v) (p_majorMax p) in
  let old := match dget (p_minorMax p) (v_major v) with Some m => m | None => 0 end in
  let mn := dset (p_minorMax p) (v_major v) (Z.max old (v_minor v)) in
  hd_set dot_split i (Pod vs mm mn) r.
(** unregisterDefinition, PDR 44-46 *)
Definition unregister_definition (r : registry) (i : pystr) : res registry :=
  match pod_of r i with
  | Some _ => hd_del dot_split i r
  | None => Ok r
  end.
(** __iter__, PDR 48-49 *)
Definition reg_iter (r : registry) : list pystr := hd_keys dot_join r.

(** ** Silos *)

(** PacketDefinitionSilo: SILOS, STACK (as names of silos, innermost first) and
    the position of the AUTO_NAME generator, PDR 60-62 *)
Record silos := Silos { si_regs : dict pystr registry; si_stack : list pystr; si_auto : Z }.
Definition default_name : pystr :=
  [95; 95; 100; 101; 102; 97; 117; 108; 116; 95; 95].            (* "__default__" *)
Definition current_name : pystr :=
  [95; 95; 99; 117; 114; 114; 101; 110; 116; 95; 115; 105; 108; 111; 95; 95]. (* "__current_silo__" *)
Definition unnamed_prefix : pystr :=
  [95; 95; 117; 110; 110; 97; 109; 101; 100; 95; 95].            (* "__unnamed__" *)
Definition silos_init : silos := Silos [(default_name, reg_empty)] [default_name] 0.

(** CurrentSilo, PDR 64-66: the name of the current silo *)
Definition current_silo (s : silos) : res pystr :=
  match si_stack s with n :: _ => Ok n | [] => Raise IndexError end.
(** GetSiloByName, PDR 68-71: the name under which the registry is found *)
Definition silo_by_name (s : silos) (n : pystr) : res (option pystr) :=
  if eq_dec n current_name then bind (current_silo s) (fun m => Ok (Some m))
  else Ok (if dhas (si_regs s) n then Some n else None).
(** PacketDefinitionSilo.__init__, PDR 73-82: the name of the new silo object.
    next(AUTO_NAME) raises StopIteration after a million names. *)
Definition new_silo (s : silos) (name : option pystr) (reuse : bool) : silos * res pystr :=
  let '(s, r) :=
    match name with
    | Some n => (s, Ok n)
    | None => if si_auto s <? 1000000
              then (Silos (si_regs s) (si_stack s) (si_auto s + 1), Ok (unnamed_prefix ++ print_int (si_auto s)))
              else (s, Raise StopIteration)
    end in
  match r with
  | Raise e => (s, Raise e)
  | Ok n =>
      if dhas (si_regs s) n then (s, if reuse then Ok n else Raise GenericException)
      else (Silos (dset (si_regs s) n reg_empty) (si_stack s) (si_auto s), Ok n)
  end.
(** __enter__/__exit__, PDR 84-89 *)
Definition silo_enter (s : silos) (n : pystr) : silos := Silos (si_regs s) (n :: si_stack s) (si_auto s).
Definition silo_exit (s : silos) : res silos :=
  match si_stack s with
  | _ :: r => Ok (Silos (si_regs s) r (si_auto s))
  | [] => Raise IndexError
  end.

(** ** Class creation: PacketDefinitionLoader.__new__, PT 47-70.
    [ident]/[vers]: DEFINITION_IDENTIFIER and DEFINITION_VERSION of the class
    body if given; [silo]: DEFINITIONS_SILO_NAME is in the class body; [inherited]:
    the DEFINITIONS_SILO_NAME found on a parent; [c]: the class being made.
    PermitDuplicateRegistrations is False (37; True only when run as __main__). *)
Definition define_class (s : silos) (ident vers : option pystr) (silo : bool)
    (inherited : option pystr) (c : cls) : silos * res cls :=
  match ident, vers with
  | Some i, Some vs =>
      match (if silo then Raise UnboundLocalError
             else Ok (match inherited with Some n => n | None => current_name end)) with
      | Raise e => (s, match version_from_string vs with Raise e' => Raise e' | Ok _ => Raise e end)
      | Ok siloName =>
          match version_from_string vs with
          | Raise e => (s, Raise e)
          | Ok v =>
              match silo_by_name s siloName with
              | Raise e => (s, Raise e)
              | Ok None => (s, Raise AttributeError)
              | Ok (Some n) =>
                  match dget (si_regs s) n with
                  | None => (s, Raise AttributeError)
                  | Some r =>
                      match has_definition r i (Some v) with
                      | Raise e => (s, Raise e)
                      | Ok true => (s, Raise ValueError)
                      | Ok false =>
                          match register_definition r i v c with
                          | Raise e => (s, Raise e)
                          | Ok r' => (Silos (dset (si_regs s) n r') (si_stack s) (si_auto s), Ok c)
                          end
                      end
                  end
              end
          end
      end
  | _, _ => (s, Raise AttributeError)
  end.
