(** * Specification of configuration files *)
From Coq Require Import String.
From Coq Require Import List ZArith Bool.
From Verif Require PnmsModel.
From Verif Require Import PyBase IniModel.
Import ListNotations.
Open Scope Z_scope.

(** ** Which configurations a file can hold *)
(** Unicode white space *)
Definition space (c : Z) : Prop :=
  In c [9; 10; 11; 12; 13; 28; 29; 30; 31; 32; 133; 160; 5760; 8192; 8193; 8194; 8195; 8196; 8197; 8198; 8199; 8200; 8201; 8202; 8232; 8233; 8239; 8287; 12288].
(** neither begins nor ends with a space *)
Definition stripped (s : pystr) : Prop := (forall c r, s = c :: r -> ~ space c) /\ (forall r c, s = r ++ [c] -> ~ space c).
(** begins with # or ; *)
Definition like_comment (s : pystr) : Prop := exists r, s = lit "#" ++ r \/ s = lit ";" ++ r.
Definition like_header (s : pystr) : Prop := exists h t, h <> [] /\ s = lit "[" ++ h ++ lit "]" ++ t.

Record name_ok (n : pystr) : Prop := { n_some : n <> []; n_not_default : n <> lit "DEFAULT"; n_lf : ~ In 10 n; n_cr : ~ In 13 n }.
Record key_ok (k : pystr) : Prop := {
  k_some : k <> []; k_strip : stripped k; k_comment : ~ like_comment k;
  k_chars : forall c, In c k -> c <> 61 (* = *) /\ c <> 58 (* : *) /\ c <> 10 /\ c <> 13 /\ ~ (65 <= c <= 90) (* A-Z *)
}.
Record value_ok (v : pystr) : Prop := {
  v_cr : ~ In 13 v;
  v_lines : forall l, In l (split_on 10 v) -> stripped l;
  v_comments : forall l, In l (tl (split_on 10 v)) -> ~ like_comment l;      (* a line after the first *)
  v_end : forall a, v <> a ++ [10]
}.
Definition first_line (v : pystr) : pystr := hd [] (split_on 10 v).
Definition item_ok (kv : pystr * pystr) : Prop :=
  key_ok (fst kv) /\ value_ok (snd kv) /\ ~ like_header (fst kv ++ lit " = " ++ first_line (snd kv)).
Definition options_ok (d : dict pystr pystr) : Prop := NoDup (map fst d) /\ Forall item_ok d.
Record storable (c : ini) : Prop := {
  s_defs : options_ok (i_defs c);
  s_names : NoDup (map fst (i_sects c)) /\ Forall (fun s => name_ok (fst s)) (i_sects c);
  s_opts : Forall (fun s => options_ok (snd s)) (i_sects c)
}.

(** a simple sufficient condition: words of small letters, digits and some signs *)
Definition word_char (c : Z) : Prop := 97 <= c <= 122 \/ 48 <= c <= 57 \/ In c (lit "_-.@*/").
Definition word (s : pystr) : Prop := s <> [] /\ Forall word_char s.

(** ** The network's configuration as a file, NetworkManager.py 338-355 *)
Definition ini_of (c : PnmsModel.config) : ini :=
  Ini [] ([(lit "devices", PnmsModel.g_devices c); (lit "connections", PnmsModel.g_connections c); (lit "routes", PnmsModel.g_routes c)] ++
          map (fun s => (lit "Config_" ++ fst s, snd s)) (PnmsModel.g_sections c)).
(** names and values are words *)
Definition plain_section (s : dict pystr pystr) : Prop :=
  NoDup (map fst s) /\ forall k v, In (k, v) s -> word k /\ (v = [] \/ word v).
Record plain (c : PnmsModel.config) : Prop := {
  pl_devices : plain_section (PnmsModel.g_devices c); pl_connections : plain_section (PnmsModel.g_connections c); pl_routes : plain_section (PnmsModel.g_routes c);
  pl_sections : NoDup (map fst (PnmsModel.g_sections c)) /\ forall n s, In (n, s) (PnmsModel.g_sections c) -> ~ In 10 n /\ ~ In 13 n /\ plain_section s
}.

(** the command's arguments are words *)
Definition word_command (k : PnmsModel.command) : Prop :=
  match k with
  | PnmsModel.CAdd n t args => word n /\ word t /\ Forall word args
  | PnmsModel.CRemove n | PnmsModel.CDisconnect n => word n
  | PnmsModel.CConnect n t => word n /\ word t
  | PnmsModel.CRouteAdd n r | PnmsModel.CRouteRemove n r => word n /\ word r
  | PnmsModel.CLook => True
  end.
(** the network's configuration in a file; a missing section is an empty one, NetworkManager.py 346-352 *)
Definition sect_of (i : ini) (n : pystr) : dict pystr pystr := match dget (i_sects i) n with Some d => d | None => [] end.
Fixpoint cut (p s : pystr) : option pystr :=
  match p, s with
  | [], _ => Some s
  | x :: p', y :: s' => if x =? y then cut p' s' else None
  | _, [] => None
  end.
Definition config_of (i : ini) : PnmsModel.config :=
  PnmsModel.Config (sect_of i (lit "devices")) (sect_of i (lit "connections")) (sect_of i (lit "routes"))
    (flat_map (fun s => match cut (lit "Config_") (fst s) with Some n => [(n, snd s)] | None => [] end) (i_sects i)).
