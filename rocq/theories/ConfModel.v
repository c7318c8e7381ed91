(** * Model of common/Configure.py (CF): where configuration files are found,
    and PlaygroundConfigFile, a handle on one.  The text of a file is read and
    written by IniModel; %-interpolation, section assignment and section
    proxies are configparser's (Python 3.11, CP).
    Simplified: paths are compared as they are written (no links, no
    normalisation); making a directory never fails; "~user" is not a known
    user; a file written now has the time of the clock; values are strings
    (configparser turns other values of an assigned mapping into strings);
    str.lower is for ASCII. *)
From Coq Require Import String.
From Coq Require Import List ZArith Bool.
From Verif Require Import PyBase PnmsModel IniModel.
Import ListNotations.
Open Scope Z_scope.

Inductive cerr :=
| EException | EKeyError | EValueError | ETypeError | EFileNotFound
| EDuplicateOption | ENoSection | EInterpolationSyntax | EInterpolationMissing | EInterpolationDepth
| EParse (e : ierr)
| EBroken.                      (* not modelled: a handle whose last reload raised *)
Inductive out (A : Type) := Fine (x : A) | Fail (e : cerr).
Arguments Fine {A} _. Arguments Fail {A} _.

(** ** Paths *)
Definition slash : Z := 47.
Fixpoint ends_slash (p : pystr) : bool := match p with [] => false | [c] => c =? slash | _ :: r => ends_slash r end.
(** posixpath.join *)
Definition join1 (path b : pystr) : pystr :=
  match b with
  | c :: _ => if c =? slash then b
              else match path with [] => b | _ => if ends_slash path then path ++ b else path ++ slash :: b end
  | [] => match path with [] => [] | _ => if ends_slash path then path else path ++ [slash] end
  end.
Definition join_path (p : pystr) (ps : list pystr) : pystr := fold_left join1 ps p.
(** posixpath.expanduser *)
Definition expand_user (home p : pystr) : pystr :=
  match p with
  | 126 :: [] => home
  | 126 :: 47 :: r => home ++ slash :: r
  | _ => p
  end.
(** CF 91-92 (76-77) *)
Definition path_of (location identifier : pystr) : pystr := join_path location (split_on ch_dot identifier) ++ lit ".ini".

(** ** Configure, CF 11-67 *)
Definition k_instance := lit "INSTANCE".
Definition k_user := lit "USER".
Definition k_system := lit "SYSTEM".
Record search := Search { s_paths : dict pystr (option pystr); s_order : list pystr }.
(** CF 12-29; [inst] is PLAYGROUND_INSTANCE *)
Definition search0 (inst : option pystr) : search :=
  Search [(k_instance, match inst with Some d => Some (join1 d (lit ".playground")) | None => None end);
          (k_user, Some (lit "~/.playground")); (k_system, Some (lit "/var/playground"))]
         (match inst with Some _ => [k_instance; k_user; k_system] | None => [k_user; k_system] end).
(** ConfigPath, CF 33-43 *)
Definition config_path (home : pystr) (s : search) (id : pystr) : out pystr :=
  match dget (s_paths s) id with
  | None => Fail EKeyError
  | Some None => Fail EException
  | Some (Some p) => Fine (expand_user home p)
  end.
(** AddCustomPath, CF 62-67 *)
Definition add_custom_path (s : search) (id path : pystr) : out search :=
  if dhas (s_paths s) id then Fail EException
  else Fine (Search (dset (s_paths s) id (Some path)) (id :: s_order s)).

(** ** %-interpolation, CP BasicInterpolation *)
(** _KEYCRE at the beginning of a string: %( name )s *)
Fixpoint until_paren (s : pystr) : option (pystr * pystr) :=
  match s with
  | [] => None
  | 41 :: r => Some ([], r)
  | c :: r => match until_paren r with Some (n, t) => Some (c :: n, t) | None => None end
  end.
Definition reference (s : pystr) : option (pystr * pystr) :=
  match s with
  | 37 :: 40 :: r => match until_paren r with
                     | Some ((_ :: _) as n, 115 :: t) => Some (n, t)
                     | _ => None
                     end
  | _ => None
  end.
(** value.replace('%%', '') *)
Fixpoint drop_escapes (s : pystr) : pystr :=
  match s with
  | 37 :: (37 :: r) => drop_escapes r
  | c :: r => c :: drop_escapes r
  | [] => []
  end.
(** _KEYCRE.sub('', value) *)
Fixpoint drop_references (fuel : nat) (s : pystr) : pystr :=
  match fuel with
  | O => s
  | S f => match reference s with
           | Some (_, t) => drop_references f t
           | None => match s with c :: r => c :: drop_references f r | [] => [] end
           end
  end.
(** before_set *)
Definition settable (v : pystr) : bool :=
  let t := drop_escapes v in negb (smem (drop_references (List.length t) t) 37).
(** _interpolate_some; [d]: how deep it may still go *)
Definition cat (a : pystr) (b : out pystr) : out pystr := match b with Fine s => Fine (a ++ s) | Fail e => Fail e end.
Fixpoint interpolate (d : nat) (m : pystr -> option pystr) (value : pystr) : out pystr :=
  match d with
  | O => Fail EInterpolationDepth
  | S d' =>
      (fix scan (n : nat) (rest : pystr) : out pystr :=
        match n, rest with
        | _, [] | O, _ => Fine []
        | S n', 37 :: rest1 =>
            match rest1 with
            | 37 :: r => cat [37] (scan n' r)
            | 40 :: _ =>
                match reference rest with
                | None => Fail EInterpolationSyntax
                | Some (k, r) =>
                    match m (lower k) with
                    | None => Fail EInterpolationMissing
                    | Some v =>
                        if smem v 37
                        then match interpolate d' m v with Fine a => cat a (scan n' r) | Fail e => Fail e end
                        else cat v (scan n' r)
                    end
                end
            | _ => Fail EInterpolationSyntax
            end
        | S n', c :: r => cat [c] (scan n' r)
        end) (List.length value) value
  end.
Definition max_depth : nat := 10.

(** ** The parser, CP *)
Definition is_default (n : pystr) : bool := match n with [] => true | _ => eqb n default_section end.
(** the section's own options and the defaults: _unify_values *)
Definition lookup (c : ini) (n k : pystr) : option pystr :=
  match dget (i_sects c) n with
  | Some d => match dget d k with Some v => Some v | None => dget (i_defs c) k end
  | None => dget (i_defs c) k
  end.
Definition has_option (c : ini) (n k : pystr) : bool :=
  if is_default n then dhas (i_defs c) (lower k)
  else match dget (i_sects c) n with
       | None => false
       | Some d => dhas d (lower k) || dhas (i_defs c) (lower k)
       end.
(** get *)
Definition get_option (c : ini) (n k : pystr) : out pystr :=
  if negb (dhas (i_sects c) n) && negb (eqb n default_section) then Fail ENoSection
  else match lookup c n (lower k) with
       | None => Fail EKeyError
       | Some v => interpolate max_depth (lookup c n) v
       end.
(** set *)
Definition set_option (c : ini) (n k v : pystr) : out ini :=
  if negb (settable v) then Fail EValueError
  else if is_default n then Fine (Ini (dset (i_defs c) (lower k) v) (i_sects c))
  else match dget (i_sects c) n with
       | None => Fail ENoSection
       | Some d => Fine (Ini (i_defs c) (dset (i_sects c) n (dset d (lower k) v)))
       end.
(** SectionProxy.__delitem__, remove_option *)
Definition del_option (c : ini) (n k : pystr) : out ini :=
  if negb (has_option c n k) then Fail EKeyError
  else if is_default n then Fine (Ini (ddel (i_defs c) (lower k)) (i_sects c))
  else match dget (i_sects c) n with
       | None => Fail ENoSection
       | Some d => if dhas d (lower k) then Fine (Ini (i_defs c) (dset (i_sects c) n (ddel d (lower k)))) else Fail EKeyError
       end.
(** __setitem__: what was done before an error stays *)
Definition clear_section (c : ini) (n : pystr) : ini :=
  if eqb n default_section then Ini [] (i_sects c) else Ini (i_defs c) (dset (i_sects c) n []).
Fixpoint read_dict (c : ini) (n : pystr) (seen : list pystr) (kvs : list (pystr * pystr)) : ini * option cerr :=
  match kvs with
  | [] => (c, None)
  | (k, v) :: r =>
      if smem seen (lower k) then (c, Some EDuplicateOption)
      else match set_option c n (lower k) v with
           | Fine c' => read_dict c' n (lower k :: seen) r
           | Fail e => (c, Some e)
           end
  end.
Definition assign_section (c : ini) (n : pystr) (kvs : list (pystr * pystr)) : ini * option cerr :=
  read_dict (clear_section c n) n [] kvs.
(** __contains__ *)
Definition has_section (c : ini) (n : pystr) : bool := eqb n default_section || dhas (i_sects c) n.
(** __delitem__ *)
Definition del_section (c : ini) (n : pystr) : out ini :=
  if eqb n default_section then Fail EValueError
  else if dhas (i_sects c) n then Fine (Ini (i_defs c) (ddel (i_sects c) n)) else Fail EKeyError.
(** the spec's sections that the file does not have, CF 133-135 *)
Fixpoint add_spec (c : ini) (spec : list (pystr * list (pystr * pystr))) : ini * option cerr :=
  match spec with
  | [] => (c, None)
  | (n, kvs) :: r =>
      if has_section c n then add_spec c r
      else match assign_section c n kvs with
           | (c', None) => add_spec c' r
           | (c', Some e) => (c', Some e)
           end
  end.

(** ** Files and handles *)
Inductive access := Read | Write | OtherAccess.
Inductive creation := NoCreate | Overwrite | IfNeeded | OtherCreation.
Definition spec := list (pystr * list (pystr * pystr)).
Record handle := Handle { h_access : access; h_path : pystr; h_spec : spec; h_time : Z; h_parser : nat }.
Record world := World {
  w_home : pystr;
  w_search : search;
  w_files : dict pystr (pystr * Z);     (* text and time of change *)
  w_dirs : list pystr;
  w_now : Z;
  w_parsers : list (option ini);        (* None: broken *)
  w_handles : list handle
}.
Definition exists_path (w : world) (p : pystr) : bool := dhas (w_files w) p || smem (w_dirs w) p.
(** CurrentPath, CF 45-51 *)
Fixpoint first_path (w : world) (ids : list pystr) : out (option pystr) :=
  match ids with
  | [] => Fine None
  | i :: r => match config_path (w_home w) (w_search w) i with
              | Fail e => Fail e
              | Fine [] => first_path w r
              | Fine p => if exists_path w p then Fine (Some p) else first_path w r
              end
  end.
Definition current_path (w : world) : out (option pystr) := first_path w (s_order (w_search w)).

Definition set_search (w : world) (s : search) : world := World (w_home w) s (w_files w) (w_dirs w) (w_now w) (w_parsers w) (w_handles w).
Definition put_file (w : world) (p text : pystr) : world :=
  World (w_home w) (w_search w) (dset (w_files w) p (text, w_now w)) (w_dirs w) (w_now w) (w_parsers w) (w_handles w).
Definition set_parsers (w : world) (ps : list (option ini)) : world := World (w_home w) (w_search w) (w_files w) (w_dirs w) (w_now w) ps (w_handles w).
Fixpoint replace {A} (n : nat) (l : list A) (x : A) : list A :=
  match n, l with O, _ :: r => x :: r | S n', y :: r => y :: replace n' r x | _, [] => [] end.
Definition set_parser (w : world) (i : nat) (c : ini) : world := set_parsers w (replace i (w_parsers w) (Some c)).
Definition set_handle (w : world) (i : nat) (h : handle) : world :=
  World (w_home w) (w_search w) (w_files w) (w_dirs w) (w_now w) (w_parsers w) (replace i (w_handles w) h).
Definition parser (w : world) (i : nat) : out ini :=
  match nth_error (w_parsers w) i with Some (Some c) => Fine c | _ => Fail EBroken end.

(** CF 131-135: a new parser reads the file, then the spec's sections are added *)
Definition load (text : pystr) (s : spec) : ini * option cerr :=
  match read_text text with
  | (c, None) => add_spec c s
  | (c, Some e) => (c, Some (EParse e))
  end.
(** the first line of a new file, CF 96-99; [date] is time.asctime() *)
Definition greeting (identifier date : pystr) : pystr := lit "# Playground Config " ++ identifier ++ lit " Created " ++ date ++ [10; 10].

Inductive value := VNone | VBool (b : bool) | VText (s : pystr) | VPath (p : option pystr) | VHandle (i : nat) | VProxy (i : nat) (n : pystr).
Inductive op :=
(* the world *)
| OTick (d : nat) | OMakeDir (p : pystr) | OWriteFile (p text : pystr) | ORemoveFile (p : pystr)
(* Configure *)
| OAddCustomPath (id path : pystr) | OConfigPath (id : pystr) | OCurrentPath
(* PlaygroundConfigFile *)
| OExists (identifier : pystr) (location : option pystr)
| OOpen (identifier : pystr) (a : access) (cr : creation) (location : option pystr) (s : spec) (date : pystr)
| OReload (h : nat) (force : bool) | OSave (h : nat) | OWithEnd (h : nat)
| OSection (h : nat) (n : pystr) | OAssign (h : nat) (n : pystr) (kvs : list (pystr * pystr)) | OHasSection (h : nat) (n : pystr) | ODelSection (h : nat) (n : pystr)
(* a section's proxy: of parser i, section n *)
| OGet (i : nat) (n k : pystr) | OHas (i : nat) (n k : pystr) | OSet (i : nat) (n k v : pystr) | ODel (i : nat) (n k : pystr).

Definition where_ (w : world) (location : option pystr) : out (option pystr) :=
  match location with Some l => Fine (Some l) | None => current_path w end.
(** Open, CF 80-102, with __init__, CF 104-110 *)
Definition open_file (w : world) (identifier : pystr) (a : access) (cr : creation) (location : option pystr) (s : spec) (date : pystr) : world * out value :=
  match a with OtherAccess => (w, Fail EException) | _ =>
  match cr with OtherCreation => (w, Fail EException) | _ =>
  match where_ w location with
  | Fail e => (w, Fail e)
  | Fine None => (w, Fail EException)
  | Fine (Some l) =>
      let p := path_of l identifier in
      let w1 := if match cr with IfNeeded => negb (exists_path w p) | Overwrite => true | _ => false end
                then put_file w p (greeting identifier date) else w in
      match dget (w_files w1) p with
      | None => (w1, Fail EException)
      | Some (text, _) =>
          match load text s with
          | (c, None) =>
              (World (w_home w1) (w_search w1) (w_files w1) (w_dirs w1) (w_now w1) (w_parsers w1 ++ [Some c])
                 (w_handles w1 ++ [Handle a p s (w_now w1) (List.length (w_parsers w1))]),
               Fine (VHandle (List.length (w_handles w1))))
          | (_, Some e) => (w1, Fail e)
          end
      end
  end end end.
(** reload, CF 128-135 *)
Definition reload (w : world) (i : nat) (h : handle) (force : bool) : world * out value :=
  match dget (w_files w) (h_path h) with
  | None => (w, Fail EFileNotFound)
  | Some (text, t) =>
      if (h_time h <? t) || force then
        let h' := Handle (h_access h) (h_path h) (h_spec h) (h_time h) (List.length (w_parsers w)) in
        match load text (h_spec h) with
        | (c, None) => (set_handle (set_parsers w (w_parsers w ++ [Some c])) i h', Fine VNone)
        | (_, Some e) => (set_handle (set_parsers w (w_parsers w ++ [None])) i h', Fail e)
        end
      else (w, Fine VNone)
  end.
(** save, CF 137-141 *)
Definition save (w : world) (h : handle) : world * out value :=
  match h_access h with
  | Write => match parser w (h_parser h) with
             | Fail e => (w, Fail e)
             | Fine c => (put_file w (h_path h) (write_text c), Fine VNone)
             end
  | _ => (w, Fail EException)
  end.
(** the program ends during save: the file was emptied and [m] characters reached it *)
Definition crashed_save (w : world) (h : handle) (m : nat) : world :=
  match parser w (h_parser h) with
  | Fine c => put_file w (h_path h) (firstn m (write_text c))
  | Fail _ => w
  end.
Definition with_handle (w : world) (i : nat) (k : handle -> world * out value) : world * out value :=
  match nth_error (w_handles w) i with Some h => k h | None => (w, Fail EBroken) end.
Definition with_parser (w : world) (i : nat) (k : ini -> world * out value) : world * out value :=
  match parser w i with Fine c => k c | Fail e => (w, Fail e) end.
Definition update (w : world) (i : nat) (r : out ini) : world * out value :=
  match r with Fine c => (set_parser w i c, Fine VNone) | Fail e => (w, Fail e) end.

Definition step (w : world) (o : op) : world * out value :=
  match o with
  | OTick d => (World (w_home w) (w_search w) (w_files w) (w_dirs w) (w_now w + Z.of_nat d) (w_parsers w) (w_handles w), Fine VNone)
  | OMakeDir p => (World (w_home w) (w_search w) (w_files w) (sadd (w_dirs w) p) (w_now w) (w_parsers w) (w_handles w), Fine VNone)
  | OWriteFile p text => (put_file w p text, Fine VNone)
  | ORemoveFile p => (World (w_home w) (w_search w) (ddel (w_files w) p) (w_dirs w) (w_now w) (w_parsers w) (w_handles w), Fine VNone)
  | OAddCustomPath id path => match add_custom_path (w_search w) id path with Fine s => (set_search w s, Fine VNone) | Fail e => (w, Fail e) end
  | OConfigPath id => (w, match config_path (w_home w) (w_search w) id with Fine p => Fine (VText p) | Fail e => Fail e end)
  | OCurrentPath => (w, match current_path w with Fine p => Fine (VPath p) | Fail e => Fail e end)
  | OExists identifier location =>                                            (* CF 70-78 *)
      (w, match where_ w location with
          | Fail e => Fail e
          | Fine None => Fine (VBool false)
          | Fine (Some l) => Fine (VBool (exists_path w (path_of l identifier)))
          end)
  | OOpen identifier a cr location s date => open_file w identifier a cr location s date
  | OReload i force => with_handle w i (fun h => reload w i h force)
  | OSave i => with_handle w i (fun h => save w h)
  | OWithEnd i => with_handle w i (fun _ => (w, Fail ETypeError))              (* CF 124: __exit__ takes no arguments *)
  | OSection i n => with_handle w i (fun h => with_parser w (h_parser h) (fun c =>
      (w, if has_section c n then Fine (VProxy (h_parser h) n) else Fail EKeyError)))
  | OAssign i n kvs => with_handle w i (fun h => with_parser w (h_parser h) (fun c =>
      let (c', e) := assign_section c n kvs in
      (set_parser w (h_parser h) c', match e with None => Fine VNone | Some e => Fail e end)))
  | OHasSection i n => with_handle w i (fun h => with_parser w (h_parser h) (fun c => (w, Fine (VBool (has_section c n)))))
  | ODelSection i n => with_handle w i (fun h => with_parser w (h_parser h) (fun c => update w (h_parser h) (del_section c n)))
  | OGet i n k => with_parser w i (fun c =>
      (w, if has_option c n k then match get_option c n k with Fine v => Fine (VText v) | Fail e => Fail e end else Fail EKeyError))
  | OHas i n k => with_parser w i (fun c => (w, Fine (VBool (has_option c n k))))
  | OSet i n k v => with_parser w i (fun c => update w i (set_option c n k v))
  | ODel i n k => with_parser w i (fun c => update w i (del_option c n k))
  end.
Fixpoint run (w : world) (os : list op) : world := match os with [] => w | o :: r => run (fst (step w o)) r end.
Definition world0 (home : pystr) (inst : option pystr) (files : dict pystr (pystr * Z)) (dirs : list pystr) (now : Z) : world :=
  World home (search0 inst) files dirs now [] [].
