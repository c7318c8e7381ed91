(** * The management of a running VNIC: entry_points/launch_vnic.py (LV), class StatusVnic,
    with the level packets of network/protocols/vsockets.py 202-212 (VS).

    The VNIC's links and level are PromModel.v, the management server is SpmpModel.v, the
    log levels are LogModel.v.  Simplifications: as in WanApiModel.v the texts of the
    TypeError for a wrong number of arguments and of int()'s ValueError are shortened.
    A control connection is at the VNIC itself; other control packets are C29-C33's. *)
From Coq Require Import String.
From Coq Require Import List ZArith Bool.
From Verif Require Import PyBase AddrModel SpmpModel WanApiModel LogModel PromModel.
Import ListNotations.
Open Scope Z_scope.

(** LV 27-62: the VNIC; _spmp_connection_status; _presetLogging; the logging configuration
    and the number of EnablePresetLogging calls so far; everything the VNIC did on its links *)
Record vnic := Vnic { v_prom : prom; v_live : pystr; v_preset : pystr; v_log : lstate; v_calls : nat; v_did : list peffect }.

Section VnicApi.
(** PLAYGROUND_AUX_LOGGERS; can the log file of the n-th EnablePresetLogging call be created? *)
Variable aux : list pystr.
Variable creates : nat -> bool.
(** str(vnic) *)
Variable name : pystr.

Definition file_of (n : nat) : option nat := if creates n then Some (S n) else None.
(** runVnic, LV 118, 135; then StatusVnic(vnic_address), LV 43-51.  [root] is the root logger's
    level before.  (That the first log file can be created is not in here: if not, the
    exception ends the process.) *)
Definition vnic_start (root : Z) (address : pystr) : res vnic :=
  bind (prom_new address) (fun p =>
  Ok (Vnic p (lit "Not Connected") (lit "NONE") (fst (enable_preset (lit "DEBUG") aux (file_of 0) (log_new root))) 1 [])).

Definition raised (l : list peffect) : bool := existsb (fun e => match e with ERaise => true | _ => false end) l.
(** str() of the AttributeError of self.transport.write, switching.py 108, or of
    self._linkTx.changeRegisteredAddress, VNIC.py 92 *)
Definition link_error (p : prom) : pystr :=
  match p_cur p with
  | Some _ => lit "'NoneType' object has no attribute 'write'"
  | None => lit "'NoneType' object has no attribute 'changeRegisteredAddress'"
  end.
Definition with_prom (p : prom) (l : list peffect) (v : vnic) : vnic :=
  Vnic p (v_live v) (v_preset v) (v_log v) (v_calls v) (v_did v ++ l).

Definition verb_names : list pystr :=
  map lit ["verbs"; "get-promiscuity-level"; "set-promiscuity-level"; "all-log-levels"; "get-log-level"; "set-log-level"; "switch-live"]%string.
Definition no_arguments (f : vnic -> pystr) : operation vnic :=
  fun v args => (v, match args with [] => OpValue (f v) | _ => OpRaises argument_error end).
(** LV 55, with VNIC.setPromiscuousLevel, which returns None *)
Definition vop_set_level : operation vnic := fun v args =>
  match args with
  | [a] => match parse_int a with
           | Ok z => let (p, l) := set_level (Some z) (v_prom v) in
                     (with_prom p l v, if raised l then OpRaises (link_error (v_prom v)) else OpValue (lit "None"))
           | Raise _ => (v, OpRaises int_error)
           end
  | _ => (v, OpRaises argument_error)
  end.
(** LV 58 and setLogLevel, LV 48-50: the exception of EnablePresetLogging (logging.py 258, or
    of the log file) comes before the assignment *)
Definition preset_error (lvl : pystr) : pystr := lit "Unknown preset log level " ++ lvl.
Definition file_error : pystr := lit "cannot create the log file".
Definition vop_set_log : operation vnic := fun v args =>
  match args with
  | [lvl] => let (lg, r) := enable_preset lvl aux (file_of (v_calls v)) (v_log v) in
             match r with
             | Ok _ => (Vnic (v_prom v) (v_live v) lvl lg (S (v_calls v)) (v_did v), OpValue (lit "None"))
             | Raise _ => (Vnic (v_prom v) (v_live v) (v_preset v) lg (S (v_calls v)) (v_did v),
                           OpRaises (if smem preset_levels lvl then file_error else preset_error lvl))
             end
  | _ => (v, OpRaises argument_error)
  end.
(** buildSpmpApi, LV 51-61 *)
Definition vnic_api : dict pystr (operation vnic) :=
  combine verb_names
    [ no_arguments (fun _ => commas verb_names);
      no_arguments (fun v => print_int (prom_level (v_prom v)));
      vop_set_level;
      no_arguments (fun _ => commas preset_levels);
      no_arguments v_preset;
      vop_set_log;
      no_arguments v_live ].
(** controlConnectionFactory, LV 73-76: no security policy *)
Definition vnic_server : server vnic := Server vnic_api None name.

(** A link is made by the factory, gets or loses its connection; a management packet, a
    VNICPromiscuousLevelPacket with its optional field [set], arrives on a control connection *)
Inductive vevent := VNew | VMade (n : nat) | VLost (n : nat) | VRequest (peer : option pystr) (r : spmp) | VLevel (set : option Z).
(** what the control connections see *)
Inductive vout := VReply (g : slog) | VLevelIs (z : Z).

Definition v_step (e : vevent) (v : vnic) : vnic * list vout :=
  match e with
  | VNew => let (p, l) := p_step PNew (v_prom v) in (with_prom p l v, [])
  | VMade n =>                                     (* connectionMade, LV 63-66; no status if super() raises *)
      let (p, l) := p_step (PMade n) (v_prom v) in
      (Vnic p (match nth_error (p_links (v_prom v)) n with
               | Some _ => if raised l then v_live v else lit "Connected"
               | None => v_live v end) (v_preset v) (v_log v) (v_calls v) (v_did v ++ l), [])
  | VLost n =>                                     (* connectionLost, LV 68-71 *)
      let (p, l) := p_step (PLost n) (v_prom v) in
      (Vnic p (lit "Not Connected") (v_preset v) (v_log v) (v_calls v) (v_did v ++ l), [])
  | VRequest peer r => let (v', g) := process vnic_server peer r v in (v', map VReply g)
  | VLevel None => (v, [VLevelIs (prom_level (v_prom v))])
  | VLevel (Some z) =>                             (* VS 204-212: an exception is logged, nothing is sent *)
      let (p, l) := set_level (Some z) (v_prom v) in
      (with_prom p l v, if raised l then [] else [VLevelIs (prom_level p)])
  end.
Fixpoint v_run (es : list vevent) (v : vnic) : vnic * list vout :=
  match es with
  | [] => (v, [])
  | e :: r => let (v1, o1) := v_step e v in let (v2, o2) := v_run r v1 in (v2, o1 ++ o2)
  end.
End VnicApi.

(** VnicDevice.py 14-15: the verbs the device manager has names for *)
Definition device_verbs : list pystr := map lit ["set-promiscuous-level"; "get-promiscuous-level"]%string.
