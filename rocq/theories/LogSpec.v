(** * Specification of logging *)
From Coq Require Import List ZArith Bool String.
From Verif Require Import PyBase LogModel.
Import ListNotations.
Open Scope nat_scope.

(** ** Tags: [tag_of name t], the last part of the name is the key and then t;
    of other names the tag is empty *)
Definition tagged_as (name t : pystr) : Prop :=
  ~ In 46%Z t /\ (name = lit "__playlogtag__" ++ t \/ exists b, name = b ++ lit ".__playlogtag__" ++ t).
Definition tag_of (name t : pystr) : Prop := tagged_as name t \/ t = [] /\ forall u, ~ tagged_as name u.

(** ** Which names a choice of modules and tags lets through *)
(** below one of the modules; no modules at all are all modules *)
Definition below (name : pystr) (mods : list pystr) : Prop := mods = [] \/ exists m r, In m mods /\ name = m ++ lit "." ++ r.
Definition tag_chosen (t : pystr) (tags : tagspec) : Prop :=
  t = [] \/ match tags with
            | TNone => False
            | TList l => In t l
            | TStr s => s = lit "verbose" \/ exists a b, s = a ++ t ++ b
            end.
Definition admits (mods : list pystr) (tags : tagspec) (name : pystr) : Prop :=
  below name mods /\ forall t, tag_of name t -> tag_chosen t tags.

(** ** Histories *)
(** the modules given to the last enableLogging that gave any *)
Definition gives (o : op) : Prop := match o with OpLogging _ (_ :: _) => True | _ => False end.
Definition added (os : list op) (ms : list pystr) : Prop :=
  (exists a l b, os = a ++ OpLogging l ms :: b /\ ms <> [] /\ forall o, In o b -> ~ gives o) \/ (ms = [] /\ forall o, In o os -> ~ gives o).
(** does it concern handler h? *)
Definition concerns (h : nat) (o : op) : Prop := match o with OpEnable h' _ _ _ => h' = h | OpDisable h' => h' = h | OpClear => True | OpLogging _ _ => False end.
Definition is_logging (o : op) : Prop := match o with OpLogging _ _ => True | _ => False end.

(** h was enabled after a, with these modules (and those of enableLogging) *)
Definition chosen (a : list op) (given : option (list pystr)) (mods : list pystr) : Prop :=
  exists m, added a m /\ mods = match given with None => lit "playground" :: m | Some l => l ++ m end.
(** h is enabled *)
Definition current (os : list op) (h : nat) (level : Z) (mods : list pystr) (tags : tagspec) : Prop :=
  exists a given b, os = a ++ OpEnable h level given tags :: b /\ chosen a given mods /\ forall o, In o b -> ~ concerns h o.
(** h was enabled when all handlers were cleared *)
Definition stale (os : list op) (h : nat) (mods : list pystr) (tags : tagspec) : Prop :=
  exists a level b, os = a ++ OpClear :: b /\ current a h level mods tags.
(** the level given to enableLogging last *)
Definition last_level (os : list op) (l : Z) : Prop := exists a m b, os = a ++ OpLogging l m :: b /\ forall o, In o b -> ~ is_logging o.

(** ** Presets *)
Inductive preset := PNone | PMinimal | PQuiet | PVerbose | PDebug | PTest | PMax.
Definition preset_name (p : preset) : pystr :=
  lit (match p with PNone => "NONE" | PMinimal => "MINIMAL" | PQuiet => "QUIET" | PVerbose => "VERBOSE" | PDebug => "DEBUG" | PTest => "TEST" | PMax => "MAX" end).
(** the least level of what goes to stderr, to the log file *)
Definition to_stderr (p : preset) : option Z := match p with PVerbose => Some 40%Z | PDebug | PTest | PMax => Some 0%Z | _ => None end.
Definition to_file (p : preset) : option Z :=
  match p with PMinimal => Some 40%Z | PQuiet => Some 20%Z | PVerbose | PMax => Some 10%Z | PDebug => Some 0%Z | _ => None end.
(** the modules besides playground; None: as before *)
Definition extra (p : preset) (aux : list pystr) : option (list pystr) :=
  match p with PVerbose | PDebug | PTest => Some [lit "asyncio"] | PMax => Some (lit "asyncio" :: aux) | _ => None end.

(** a call: the preset, the auxiliary modules and the file's handler *)
Definition call := (preset * list pystr * nat)%type.
Definition c_preset (c : call) := fst (fst c).
Definition c_aux (c : call) := snd (fst c).
Definition c_file (c : call) := snd c.
Definition run_calls (cs : list call) (s : lstate) : lstate :=
  fold_left (fun s c => fst (enable_preset (preset_name (c_preset c)) (c_aux c) (Some (c_file c)) s)) cs s.
(** the modules logged to a new file after these calls *)
Definition extra_after (cs : list call) (ms : list pystr) : Prop :=
  (exists a c b, cs = a ++ c :: b /\ extra (c_preset c) (c_aux c) = Some ms /\ forall d, In d b -> extra (c_preset d) (c_aux d) = None) \/
  (ms = [] /\ forall d, In d cs -> extra (c_preset d) (c_aux d) = None).
