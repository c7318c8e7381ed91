(** * Specification of the management of a VNIC *)
From Coq Require Import String.
From Coq Require Import List ZArith Bool.
From Verif Require Import PyBase AddrModel SpmpModel LogModel LogSpec PromModel VnicApiModel.
Import ListNotations.
Open Scope Z_scope.

(** ** What an event asks for *)
Definition asks (verb : string) (e : vevent) : option (list pystr) :=
  match e with VRequest _ r => if eqb (m_request r) (lit verb) then Some (m_args r) else None | _ => None end.
(** a level, by a level packet or by a request with one argument that is an integer *)
Definition asks_level (e : vevent) : option Z :=
  match e with
  | VLevel l => l
  | _ => match asks "set-promiscuity-level" e with
         | Some [a] => match parse_int a with Ok z => Some z | Raise _ => None end
         | _ => None
         end
  end.
Definition some {A} (o : option A) : list A := match o with Some x => [x] | None => [] end.
Definition levels_asked (es : list vevent) : list Z := flat_map (fun e => some (asks_level e)) es.
(** ... the last one counts, cut to 0..4; none is 0 *)
Definition level_after (es : list vevent) : Z := match rev (levels_asked es) with z :: _ => Z.max 0 (Z.min 4 z) | [] => 0 end.

(** a log level, by a request with one argument *)
Definition asks_log (e : vevent) : option pystr := match asks "set-log-level" e with Some [a] => Some a | _ => None end.
Definition logs_asked (es : list vevent) : list pystr := flat_map (fun e => some (asks_log e)) es.
(** the [n]-th call of EnablePresetLogging succeeds: a known name, and its log file, if it
    has one, can be created *)
Definition good_log (creates : nat -> bool) (n : nat) (lvl : pystr) : Prop :=
  exists p, lvl = preset_name p /\ (to_file p <> None -> creates n = true).

(** ** Replies *)
Definition sent (os : list vout) : list spmp := flat_map (fun o => match o with VReply (SSend p) => [p] | _ => [] end) os.
Definition requests (es : list vevent) : list spmp := flat_map (fun e => match e with VRequest _ r => [r] | _ => [] end) es.
Definition level_packets (es : list vevent) : nat := length (List.filter (fun e => match e with VLevel _ => true | _ => false end) es).
Definition level_replies (os : list vout) : nat := length (List.filter (fun o => match o with VLevelIs _ => true | _ => false end) os).

(** ** The order of the links in the launched process: a new link is made only when there
    is none, is then connected, and is lost in the end (C64) *)
Inductive phase := Off | Opening (n : nat) | On (n : nat).
Definition next_phase (x : option (phase * nat)) (e : vevent) : option (phase * nat) :=
  match x, e with
  | Some (Off, k), VNew => Some (Opening k, S k)
  | Some (Opening c, k), VMade m => if Nat.eqb m c then Some (On c, k) else None
  | Some (On c, k), VLost m => if Nat.eqb m c then Some (Off, k) else None
  | Some p, VRequest _ _ => Some p
  | Some p, VLevel _ => Some p
  | _, _ => None
  end.
Definition phase_after (es : list vevent) : option (phase * nat) := fold_left next_phase es (Some (Off, O)).
(** the level reported: that of the last successful call, NONE if there was none.  The call
    at the start of the process has number 0. *)
Definition reports (creates : nat -> bool) (asked : list pystr) (lvl : pystr) : Prop :=
  (exists pre post, asked = pre ++ lvl :: post /\ good_log creates (S (List.length pre)) lvl /\
     forall i l, nth_error post i = Some l -> ~ good_log creates (S (List.length pre) + S i) l) \/
  (lvl = lit "NONE" /\ forall i l, nth_error asked i = Some l -> ~ good_log creates (S i) l).
