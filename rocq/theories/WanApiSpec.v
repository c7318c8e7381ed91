(** * Specification of the WAN's management verbs *)
From Coq Require Import String.
From Coq Require Import List ZArith Bool.
From Verif Require Import PyBase SpmpModel WanModel WanSpec WanNetModel WanApiModel.
Import ListNotations.
Open Scope Z_scope.

Definition local : option pystr := Some (lit "127.0.0.1").
Definition request (id : Z) (verb : string) (args : list pystr) : spmp := Spmp id (lit verb) args [] None.
(** the answer to it *)
Definition answer (id : Z) (verb : string) (args : list pystr) (result : pystr) : list slog :=
  [SRun (lit verb) args; SSend (Spmp id (lit verb) args result None)].
Definition refusal (id : Z) (verb : string) (args : list pystr) (log : list slog) : Prop :=
  exists e, e <> [] /\ log = [SRun (lit verb) args; SSend (Spmp id (lit verb) args [] (Some e))].

(** the text of a list: its elements between brackets, with ", " between them *)
Definition list_text (ps : list pystr) : pystr :=
  [91] ++ match ps with [] => [] | p :: r => p ++ flat_map (fun q => lit ", " ++ q) r end ++ [93].
Definition route_text (p : list Z) : pystr := list_text (map print_int p).

(** the integers that arguments name, all of them *)
Inductive name_ints : list pystr -> list Z -> Prop :=
| names_nil : name_ints [] []
| names_cons a z args zs : parse_int a = Ok z -> name_ints args zs -> name_ints (a :: args) (z :: zs).
(** the new locations among the arguments, up to the first that is not one *)
Fixpoint addable (known : list Z) (args : list pystr) : list Z :=
  match args with
  | [] => []
  | a :: r => match parse_int a with
              | Ok z => if in_dec Z.eq_dec z known then [] else z :: addable (known ++ [z]) r
              | Raise _ => []
              end
  end.
(** What a request does to the locations and their direct connections *)
Definition ints_of (args : list pystr) : option (list Z) :=
  fold_right (fun a o => match parse_int a, o with Ok z, Some zs => Some (z :: zs) | _, _ => None end) (Some []) args.
Definition request_effect (verb : pystr) (args : list pystr) (g : graph Z) : graph Z :=
  if list_eq_dec Z.eq_dec verb (lit "add-switches") then g_run (map WReg (addable (g_nodes g) args)) g
  else if list_eq_dec Z.eq_dec verb (lit "set-direct-connections") then
    match ints_of args with Some (r :: ds) => g_step (WSet r ds) g | _ => g end
  else g.
Definition event_effect (e : wevent) (g : graph Z) : graph Z :=
  match e with
  | WRequest (Some h) r => if list_eq_dec Z.eq_dec h (lit "127.0.0.1") then request_effect (m_request r) (m_args r) g else g
  | _ => g
  end.
Definition map_after (es : list wevent) : graph Z := fold_left (fun g e => event_effect e g) es g_new.
(** the calls on the WAN that an event comes to *)
Definition request_calls (peername : nat -> pystr) (verb : pystr) (args : list pystr) (g : wnet) : list nop :=
  if list_eq_dec Z.eq_dec verb (lit "add-switches") then map NReg (addable (wan_prefixes (n_routes g)) args)
  else if list_eq_dec Z.eq_dec verb (lit "set-direct-connections") then
    match ints_of args with Some (r :: ds) => [NSet r ds] | _ => [] end
  else if list_eq_dec Z.eq_dec verb (lit "set-location") then
    match args with
    | [name; prefix] =>
        match parse_int prefix, find (fun n => if list_eq_dec Z.eq_dec (peername n) name then true else false) (map fst (n_conn g)) with
        | Ok p, Some n => [NLocate n p]
        | _, _ => []
        end
    | _ => []
    end
  else [].
Definition event_calls (peername : nat -> pystr) (e : wevent) (g : wnet) : list nop :=
  match e with
  | WConnect n => [NConnect n]
  | WAnnounce n a => [NAnnounce n a]
  | WLost n => [NLost n]
  | WRequest (Some h) r => if list_eq_dec Z.eq_dec h (lit "127.0.0.1") then request_calls peername (m_request r) (m_args r) g else []
  | WRequest None _ => []
  end.
