(** * Model of the text of a configuration file: what
    PlaygroundConfigFile.save writes and reload reads (common/Configure.py
    134-147, CF), that is configparser.ConfigParser with its default settings
    (Lib/configparser.py of Python 3.11, CP: _read 1012-1130, write 921-953,
    BasicInterpolation 390-440).
    Simplified: str.lower only for ASCII letters; the encoding of the file is
    total and loses nothing; '\n' is the platform's line end. *)
From Coq Require Import String.
From Coq Require Import List ZArith Bool.
From Verif Require Import PyBase PnmsModel.
Import ListNotations.
Open Scope Z_scope.

(** str.isspace, also \s of regular expressions *)
Definition white (c : Z) : bool :=
  ((9 <=? c) && (c <=? 13)) || ((28 <=? c) && (c <=? 32)) || (c =? 133) || (c =? 160) || (c =? 5760) ||
  ((8192 <=? c) && (c <=? 8202)) || (c =? 8232) || (c =? 8233) || (c =? 8239) || (c =? 8287) || (c =? 12288).
Fixpoint trim_l (s : pystr) : pystr :=
  match s with c :: r => if white c then trim_l r else s | [] => [] end.
Definition trim_r (s : pystr) : pystr := rev (trim_l (rev s)).
(** str.strip *)
Definition trim (s : pystr) : pystr := trim_r (trim_l s).

(** text mode: '\r\n' and '\r' are read as '\n' *)
Fixpoint newlines (s : pystr) : pystr :=
  match s with
  | [] => []
  | 13 :: r => 10 :: match r with 10 :: r' => newlines r' | _ => newlines r end
  | c :: r => c :: newlines r
  end.
(** the lines of a file; each line's '\n' is dropped, it is stripped anyway *)
Definition file_lines (s : pystr) : list pystr :=
  let ps := split_on 10 s in match last ps [] with [] => removelast ps | _ => ps end.

(** the place of the first non-space *)
Fixpoint indent_of (s : pystr) : nat := match s with c :: r => if white c then S (indent_of r) else O | [] => O end.
Definition comment (value : pystr) : bool := match value with c :: _ => (c =? 35) || (c =? 59) | [] => false end.
(** what is before the last [c] *)
Fixpoint before_last (c : Z) (s : pystr) : option pystr :=
  match s with
  | [] => None
  | x :: r => match before_last c r with Some p => Some (x :: p) | None => if x =? c then Some [] else None end
  end.
(** SECTCRE, \[(.+)\] *)
Definition header (value : pystr) : option pystr :=
  match value with
  | x :: r => if x =? 91 then match before_last 93 r with Some [] | None => None | Some h => Some h end else None
  | [] => None
  end.
(** OPTCRE, (.*?)\s*(=|:)\s*(.* )$ *)
Fixpoint option_line (value : pystr) : option (pystr * pystr) :=
  match value with
  | [] => None
  | x :: r => if (x =? 61) || (x =? 58) then Some ([], r)
              else match option_line r with Some (k, v) => Some (x :: k, v) | None => None end
  end.

(** ** Reading, CP 1012-1130 *)
Inductive ierr := DuplicateSection | DuplicateOption | MissingSectionHeader | ParsingError.
Definition default_section : pystr := lit "DEFAULT".
Definition opts := dict pystr (list pystr).
Record pst := Pst {
  p_defs : opts; p_sects : dict pystr opts;
  p_cur : option pystr;               (* sectname; None: no cursect *)
  p_opt : pystr;                      (* optname; [] is None or '' *)
  p_indent : nat;
  p_seen : list (pystr * pystr);      (* the options in elements_added *)
  p_err : bool
}.
Definition pst0 : pst := Pst [] [] None [] 0 [] false.
Definition sect_get (st : pst) (n : pystr) : opts :=
  if eqb n default_section then p_defs st else match dget (p_sects st) n with Some o => o | None => [] end.
Definition sect_set (st : pst) (n : pystr) (o : opts) : pst :=
  if eqb n default_section then Pst o (p_sects st) (p_cur st) (p_opt st) (p_indent st) (p_seen st) (p_err st)
  else Pst (p_defs st) (dset (p_sects st) n o) (p_cur st) (p_opt st) (p_indent st) (p_seen st) (p_err st).
(** cursect[optname].append(x) *)
Definition append_value (st : pst) (x : pystr) : pst :=
  match p_cur st with
  | None => st
  | Some n => let o := sect_get st n in
      match dget o (p_opt st) with Some ls => sect_set st n (dset o (p_opt st) (ls ++ [x])) | None => st end
  end.
Definition continues (st : pst) (line : pystr) : bool :=
  match p_cur st, p_opt st with
  | Some _, _ :: _ => Nat.ltb (p_indent st) (indent_of line)
  | _, _ => false
  end.
Definition set_indent (st : pst) (i : nat) : pst := Pst (p_defs st) (p_sects st) (p_cur st) (p_opt st) i (p_seen st) (p_err st).
Definition set_err (st : pst) : pst := Pst (p_defs st) (p_sects st) (p_cur st) (p_opt st) (p_indent st) (p_seen st) true.
Definition set_cur (st : pst) (n : pystr) : pst := Pst (p_defs st) (p_sects st) (Some n) [] (p_indent st) (p_seen st) (p_err st).
(** a section header, CP 1069-1085 *)
Definition read_header (st : pst) (n : pystr) : pst * option ierr :=
  if dhas (p_sects st) n then (st, Some DuplicateSection)
  else if eqb n default_section then (set_cur st n, None)
  else (set_cur (sect_set st n []) n, None).
(** an option line, CP 1090-1111 *)
Definition read_option (st : pst) (n value : pystr) : pst * option ierr :=
  match option_line value with
  | None => (set_err st, None)
  | Some (k0, v) =>
      let st1 := match trim_r k0 with [] => set_err st | _ => st end in
      let k := lower (trim_r k0) in
      let st2 := Pst (p_defs st1) (p_sects st1) (p_cur st1) k (p_indent st1) (p_seen st1) (p_err st1) in
      if smem (p_seen st2) (n, k) then (st2, Some DuplicateOption)
      else (sect_set (Pst (p_defs st2) (p_sects st2) (p_cur st2) (p_opt st2) (p_indent st2) ((n, k) :: p_seen st2) (p_err st2)) n
              (dset (sect_get st2 n) k [trim v]), None)
  end.
Definition read_line (st : pst) (line : pystr) : pst * option ierr :=
  let value := trim line in
  if comment value then (st, None)
  else match value with
       | [] => (match p_opt st with [] => st | _ => append_value st [] end, None)
       | _ =>
           if continues st line then (append_value st value, None)
           else
             let st1 := set_indent st (indent_of line) in
             match header value with
             | Some n => read_header st1 n
             | None => match p_cur st1 with
                       | None => (st1, Some MissingSectionHeader)
                       | Some n => read_option st1 n value
                       end
             end
       end.
Fixpoint read_lines (st : pst) (ls : list pystr) : pst * option ierr :=
  match ls with
  | [] => (st, if p_err st then Some ParsingError else None)
  | l :: r => let (st', e) := read_line st l in match e with Some _ => (st', e) | None => read_lines st' r end
  end.

(** what the parser holds; values as written, before interpolation *)
Record ini := Ini { i_defs : dict pystr pystr; i_sects : dict pystr (dict pystr pystr) }.
(** _join_multiline_values, CP 1132-1142 *)
Definition joined (o : opts) : dict pystr pystr := map (fun kv => (fst kv, trim_r (join_on 10 (snd kv)))) o.
Definition result (st : pst) : ini := Ini (joined (p_defs st)) (map (fun s => (fst s, joined (snd s))) (p_sects st)).
Definition read_text (text : pystr) : ini * option ierr :=
  let (st, e) := read_lines pst0 (file_lines (newlines text)) in (result st, e).

(** ** Writing, CP 921-953 *)
Definition tab_lines (v : pystr) : pystr := flat_map (fun c => if c =? 10 then [10; 9] else [c]) v.
Definition write_item (kv : pystr * pystr) : pystr := fst kv ++ lit " = " ++ tab_lines (snd kv) ++ [10].
Definition write_section (s : pystr * dict pystr pystr) : pystr := lit "[" ++ fst s ++ lit "]" ++ [10] ++ flat_map write_item (snd s) ++ [10].
Definition write_text (c : ini) : pystr :=
  (match i_defs c with [] => [] | d => write_section (default_section, d) end) ++ flat_map write_section (i_sects c).
