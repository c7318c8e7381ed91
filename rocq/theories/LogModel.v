(** * Model of common/logging.py (LG): tags, filters, handlers and the presets.
    Handlers and filters are objects, here numbers; 0 is STDERR_HANDLER.
    Of the logging package: Logger.isEnabledFor, callHandlers and Filterer.
    Not modelled: formatting (LG 72-91), log files, propagate = False,
    logging.disable, filters the user puts on handlers. *)
From Coq Require Import List ZArith Bool String.
From Verif Require Import PyBase.
Import ListNotations.
Open Scope nat_scope.

Fixpoint starts (p s : pystr) : bool :=
  match p, s with
  | [], _ => true
  | x :: p', y :: s' => Z.eqb x y && starts p' s'
  | _, [] => false
  end.
(** [p in s] for strings *)
Fixpoint substr (p s : pystr) : bool := starts p s || match s with [] => false | _ :: r => substr p r end.

(** ** Tags, LG 14-28 *)
Definition tag_key : pystr := lit "__playlogtag__".
Definition get_tag (name : pystr) : pystr :=
  let p := last (split_on ch_dot name) [] in
  if starts tag_key p then skipn (List.length tag_key) p else [].
Definition tagged_name (base tag : pystr) : pystr := join_on ch_dot [base; tag_key ++ tag].

(** ** The filter, LG 34-70 *)
Inductive tagspec := TNone | TStr (s : pystr) | TList (l : list pystr).
Record filter := Filter { f_global : bool; f_mods : list pystr; f_exclude : list pystr; f_tags : tagspec }.
(** configure, LG 41-50, without excludeTags. [None] is the default,
    LOG_ALL_MODULES; an empty list is false. *)
Definition set_modules (mods : option (list pystr)) (f : filter) : filter :=
  match mods with
  | None | Some [] => Filter true [] (f_exclude f) (f_tags f)
  | Some l => Filter false l (f_exclude f) (f_tags f)
  end.
Definition configure (mods : option (list pystr)) (tags : tagspec) (f : filter) : filter :=
  let g := set_modules mods f in Filter (f_global g) (f_mods g) [] tags.
(** logThisTag, LG 52-56 *)
Definition log_tag (f : filter) (t : pystr) : bool :=
  if smem (f_exclude f) t then false
  else match f_tags f with
       | TStr s => eqb s (lit "verbose") || match t with [] => true | _ => match s with [] => false | _ => substr t s end end
       | TNone => match t with [] => true | _ => false end
       | TList l => match t with [] => true | _ => smem l t end
       end.
(** logThisLogger, LG 58-67; an inner return at the first module that fits *)
Definition log_logger (f : filter) (name : pystr) : bool :=
  if f_global f then log_tag f (get_tag name)
  else existsb (fun m => starts (m ++ [ch_dot]) name) (f_mods f) && log_tag f (get_tag name).

(** ** Handlers *)
Record lstate := LState {
  l_root : Z;                  (* the root logger's level *)
  l_on : bool;                 (* Config is a handler of the root logger *)
  l_level : Z;                 (* Config's own level *)
  l_handlers : dict nat nat;   (* Config.handlers: handler -> filter *)
  l_more : list pystr;         (* Config.additionalModules *)
  l_hlevel : nat -> Z;         (* a handler's level *)
  l_filters : nat -> list nat; (* a handler's filters *)
  l_heap : nat -> filter;
  l_next : nat
}.
Definition upd {A} (f : nat -> A) (k : nat) (v : A) : nat -> A := fun x => if Nat.eqb x k then v else f x.
(** LG 106-118; root level WARNING unless the application changes it *)
Definition log_new (root : Z) : lstate := LState root false 0 [] [] (fun _ => 0%Z) (fun _ => []) (fun _ => Filter true [] [] TNone) 0.

(** enableLogging, LG 142-158 *)
Definition enable_logging (level : Z) (more : list pystr) (s : lstate) : lstate :=
  LState (if Z.ltb level (l_root s) then level else l_root s) true level (l_handlers s)
    (match more with [] => l_more s | _ => more end) (l_hlevel s) (l_filters s) (l_heap s) (l_next s).
(** enableHandler, LG 160-179 *)
Definition enable_handler (h : nat) (level : Z) (mods : option (list pystr)) (tags : tagspec) (s : lstate) : lstate :=
  let ms := match mods with None => lit "playground" :: l_more s | Some l => l ++ l_more s end in
  match dget (l_handlers s) h with
  | None =>
      let f := l_next s in
      LState (l_root s) (l_on s) (l_level s) (dset (l_handlers s) h f) (l_more s) (upd (l_hlevel s) h level)
        (upd (l_filters s) h (l_filters s h ++ [f])) (upd (l_heap s) f (configure (Some ms) tags (l_heap s f))) (S f)
  | Some f =>
      LState (l_root s) (l_on s) (l_level s) (l_handlers s) (l_more s) (upd (l_hlevel s) h level)
        (l_filters s) (upd (l_heap s) f (configure (Some ms) tags (l_heap s f))) (l_next s)
  end.
(** disableHandler, LG 181-184 *)
Definition disable_handler (h : nat) (s : lstate) : lstate :=
  match dget (l_handlers s) h with
  | None => s
  | Some f => LState (l_root s) (l_on s) (l_level s) (ddel (l_handlers s) h) (l_more s) (l_hlevel s)
                (upd (l_filters s) h (sremove (l_filters s h) f)) (l_heap s) (l_next s)
  end.
(** clearAllHandlers, LG 186-187 *)
Definition clear_handlers (s : lstate) : lstate :=
  LState (l_root s) (l_on s) (l_level s) [] (l_more s) (l_hlevel s) (l_filters s) (l_heap s) (l_next s).

Inductive op :=
| OpLogging (level : Z) (more : list pystr)
| OpEnable (h : nat) (level : Z) (mods : option (list pystr)) (tags : tagspec)
| OpDisable (h : nat)
| OpClear.
Definition run_op (o : op) (s : lstate) : lstate :=
  match o with
  | OpLogging level more => enable_logging level more s
  | OpEnable h level mods tags => enable_handler h level mods tags s
  | OpDisable h => disable_handler h s
  | OpClear => clear_handlers s
  end.
Definition run_ops (os : list op) (s : lstate) : lstate := fold_left (fun s o => run_op o s) os s.

(** Config.handlers[h].configure(mods, tags, excludeTags): the name excludTags
    does not exist, LG 49 *)
Definition exclude_tags (h : nat) (mods : option (list pystr)) (s : lstate) : lstate * res unit :=
  match dget (l_handlers s) h with
  | None => (s, Raise KeyError)
  | Some f => (LState (l_root s) (l_on s) (l_level s) (l_handlers s) (l_more s) (l_hlevel s) (l_filters s)
                 (upd (l_heap s) f (set_modules mods (l_heap s f))) (l_next s), Raise NameError)
  end.

(** ** A record: Handler.handle asks every filter; Config.handle, LG 137-140;
    Logger.callHandlers; Logger.isEnabledFor (the manager's disable is 0).
    [own] is the level set on the logger or nearest to it below the root. *)
Definition passes (s : lstate) (h : nat) (name : pystr) : bool := forallb (fun f => log_logger (l_heap s f) name) (l_filters s h).
Definition handled (s : lstate) (name : pystr) (lv : Z) (h : nat) : bool :=
  l_on s && Z.leb (l_level s) lv && dhas (l_handlers s) h && (Z.eqb lv 0 || Z.leb (l_hlevel s h) lv) && passes s h name.
Definition enabled_for (s : lstate) (own : option Z) (lv : Z) : bool :=
  Z.ltb 0 lv && Z.leb (match own with Some l => l | None => l_root s end) lv.
Definition emits (s : lstate) (own : option Z) (name : pystr) (lv : Z) (h : nat) : bool := enabled_for s own lv && handled s name lv h.

(** ** Presets, LG 224-258. [file] is the handler the call creates for the log
    file, None if that raises; [aux] is PLAYGROUND_AUX_LOGGERS. *)
Definition stderr : nat := 0.
Definition asyncio : pystr := lit "asyncio".
Definition with_file (file : option nat) (level : Z) (s : lstate) : lstate * res unit :=
  match file with
  | None => (s, Raise GenericException)
  | Some h => (enable_handler h level None TNone s, Ok tt)
  end.
Definition enable_preset (name : pystr) (aux : list pystr) (file : option nat) (s0 : lstate) : lstate * res unit :=
  let s := clear_handlers s0 in
  if eqb name (lit "NONE") then (enable_logging 50 [] s, Ok tt)
  else if eqb name (lit "MINIMAL") then with_file file 40 (enable_logging 0 [] s)
  else if eqb name (lit "QUIET") then with_file file 20 (enable_logging 0 [] s)
  else if eqb name (lit "VERBOSE") then with_file file 10 (enable_handler stderr 40 None TNone (enable_logging 0 [asyncio] s))
  else if eqb name (lit "DEBUG") then with_file file 0 (enable_handler stderr 0 None TNone (enable_logging 0 [asyncio] s))
  else if eqb name (lit "TEST") then (enable_handler stderr 0 None TNone (enable_logging 0 [asyncio] s), Ok tt)
  else if eqb name (lit "MAX") then with_file file 10 (enable_handler stderr 0 None TNone (enable_logging 0 (asyncio :: aux) s))
  else (s, Raise GenericException).
(** LG 208-222 *)
Definition preset_levels : list pystr := map lit ["NONE"; "MINIMAL"; "QUIET"; "VERBOSE"; "DEBUG"; "TEST"; "MAX"]%string.
(** CmdLineToLogging, LG 260-264 *)
Definition cmd_line (arg : pystr) (aux : list pystr) (file : option nat) (s : lstate) : lstate * res unit :=
  if eqb arg (repeat 118%Z (List.length arg)) then
    match nth_error preset_levels (List.length arg) with
    | Some p => enable_preset p aux file s
    | None => (s, Raise IndexError)
    end
  else enable_preset arg aux file s.
