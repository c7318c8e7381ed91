(** * C61: a configuration file holds what was saved *)
From Coq Require Import String.
From Coq Require Import List ZArith Bool Lia.
From Verif Require PnmsModel.
From Verif Require Import PyBase PyLemmas IniModel IniSpec IniProofs IniProofs2 IniProofs3 IniPnms.
Import ListNotations.
Open Scope Z_scope.

(** What was saved is what is read, in the same order, exactly if a file can hold it. *)
Theorem C61_roundtrip c : read_text (write_text c) = (c, None) <-> storable c.
Proof. split; [apply read_storable|apply read_write]. Qed.
Print Assumptions C61_roundtrip.

(** Whatever file was opened, edited by hand or not: saving it unchanged changes
    nothing for the next one who opens it. *)
Theorem C61_load_save_load t c : read_text t = (c, None) -> read_text (write_text c) = (c, None).
Proof. intro H. apply read_write. now apply (read_storable t). Qed.
Print Assumptions C61_load_save_load.

(** Different configurations are different files. *)
Theorem C61_distinct c c' : storable c -> storable c' -> write_text c = write_text c' -> c = c'.
Proof. intros A B E. apply read_write in A, B. rewrite E in A. congruence. Qed.
Print Assumptions C61_distinct.

(** ** Networks *)
(** The network's configuration lasts as a file if its names and values are words. *)
Theorem C61_network_file c : plain c -> read_text (write_text (ini_of c)) = (ini_of c, None).
Proof.
  intros [A B C [ND D]]. apply read_write. constructor; cbn [ini_of i_defs i_sects].
  - split; constructor.
  - split.
    + rewrite map_app, map_map. cbn [map fst]. assert (Inj : NoDup (map (fun s : pystr * dict pystr pystr => lit "Config_" ++ fst s) (PnmsModel.g_sections c))).
      { rewrite <- (map_map fst (fun n => lit "Config_" ++ n)). apply FinFun.Injective_map_NoDup; [|exact ND]. intros x y E. now apply app_inv_head in E. }
      cbn [app]. repeat constructor; try exact Inj; cbn [In]; rewrite ?in_map_iff; intros X; repeat destruct X as [X|X]; try discriminate; try (destruct X as ([n s] & E & _); discriminate).
    + cbn [app]. repeat constructor; try discriminate; try (vm_compute; intuition discriminate). apply Forall_map. apply Forall_forall. intros [n s] X. destruct (D n s X) as (L & R & _). cbn [fst].
      constructor; [discriminate|discriminate| |]; intro Y; apply in_app_or in Y as [Y|Y]; try contradiction; vm_compute in Y; intuition discriminate.
  - cbn [app]. constructor; [now apply plain_options|]. constructor; [now apply plain_options|]. constructor; [now apply plain_options|]. apply Forall_map. apply Forall_forall. intros [n s] X. cbn [snd]. apply plain_options. now apply (D n s).
Qed.
Print Assumptions C61_network_file.

(** After any history of pnetworking commands whose arguments are words, the
    file that holds the network's configuration is read without error, and what
    is read is the configuration that the commands made. *)
Theorem C61_pnetworking ks : Forall word_command ks ->
  let f := PnmsModel.runs ks PnmsModel.config_empty in
  snd (read_text (write_text (ini_of f))) = None /\ config_of (fst (read_text (write_text (ini_of f)))) = f.
Proof.
  intros W f. pose proof (C61_network_file f (plain_runs ks _ W plain_empty)) as E. rewrite E. cbn [fst snd]. split; [reflexivity|apply config_of_ini].
Qed.
Print Assumptions C61_pnetworking.

(** (refuted: whatever the application sets is there after a save) Not with a
    name that has = or :, is indented or begins with # or ;, nor with a value
    with a line that is indented, ends in a space or (after the first) begins
    with # or ;, or with a last line that is empty. *)
Theorem C61_lost_refuted c n d k v : In (n, d) (i_sects c) -> In (k, v) d ->
  In 61 k \/ In 58 k \/ like_comment k \/ (exists x r, k = x :: r /\ space x) \/ (exists r x, k = r ++ [x] /\ space x) \/
  In 13 v \/ (exists l, In l (split_on 10 v) /\ ~ stripped l) \/ (exists l, In l (tl (split_on 10 v)) /\ like_comment l) \/ (exists a, v = a ++ [10]) ->
  read_text (write_text c) <> (c, None).
Proof.
  intros I J B E. apply read_storable in E. pose proof (s_opts _ E) as F. rewrite Forall_forall in F. destruct (F _ I) as [_ G]. cbn [snd] in G. rewrite Forall_forall in G. destruct (G _ J) as ([K1 K2 K3 K4] & [V1 V2 V3 V4] & _). cbn [fst snd] in *.
  destruct B as [X|[X|[X|[X|[X|[X|[X|[X|X]]]]]]]].
  - apply K4 in X. tauto.
  - apply K4 in X. tauto.
  - contradiction.
  - destruct X as (x & r & -> & X). now apply (proj1 K2 x r).
  - destruct X as (r & x & -> & X). now apply (proj2 K2 r x).
  - contradiction.
  - destruct X as (l & Il & X). now apply X, V2.
  - destruct X as (l & Il & X). now apply (V3 l).
  - destruct X as (a & ->). now apply (V4 a).
Qed.
Print Assumptions C61_lost_refuted.

Lemma header_line n : name_ok n -> read_line pst0 (lit "[" ++ n ++ lit "]") = (Pst [] [(n, [])] (Some n) [] 0 [] false, None).
Proof.
  intros [Nn Nd _ _]. assert (T : trim (lit "[" ++ n ++ lit "]") = lit "[" ++ n ++ lit "]").
  { apply trim_id, stripped_iff. split; [reflexivity|]. rewrite !rev_app_distr. reflexivity. }
  unfold read_line. rewrite T. change (comment (lit "[" ++ n ++ lit "]")) with false. cbv iota.
  change (lit "[" ++ n ++ lit "]") with (91 :: n ++ lit "]") at 1. cbv iota. change (indent_of (lit "[" ++ n ++ lit "]")) with 0%nat.
  change (continues pst0 (lit "[" ++ n ++ lit "]")) with false. cbv iota. rewrite header_of by exact Nn. unfold read_header, set_indent, pst0. cbn [p_sects dhas dget p_defs p_cur p_opt p_seen p_err].
  change (dhas [] n) with false. cbv iota. unfold eqb, set_cur, sect_set, eqb. destruct (eq_dec n default_section) as [E|]; [now apply Nd in E|]. reflexivity.
Qed.
Lemma one_line n k v : name_ok n -> clean k -> clean v ->
  read_text (write_text (Ini [] [(n, [(k, v)])])) =
  let (st, e) := read_lines (Pst [] [(n, [])] (Some n) [] 0 [] false) [k ++ lit " = " ++ v; []] in (result st, e).
Proof.
  intros N K V. pose proof N as [Nn Nd Nl Nc]. unfold read_text. rewrite write_text_lines.
  assert (L : text_lines (Ini [] [(n, [(k, v)])]) = [lit "[" ++ n ++ lit "]"; k ++ lit " = " ++ v; []]).
  { unfold text_lines, sect_lines, item_lines. cbn [i_defs i_sects flat_map fst snd app]. now rewrite (split_on_clean 10 v) by apply V. }
  destruct clean_lits as (L1 & L2 & L3 & _).
  assert (C : Forall clean [lit "[" ++ n ++ lit "]"; k ++ lit " = " ++ v; []]).
  { constructor; [apply clean_app; [exact L2|apply clean_app; [split; assumption|exact L3]]|]. constructor; [apply clean_app; [exact K|now apply clean_app]|]. constructor; [split; intros []|constructor]. }
  rewrite L, newlines_id, file_lines_unlines.
  - cbn [read_lines]. now rewrite (header_line n N).
  - eapply Forall_impl; [|exact C]. intros l X. apply X.
  - intro X. unfold unlines in X. apply in_flat_map in X as (l & Il & X). rewrite Forall_forall in C. apply in_app_or in X as [X|[X|[]]]; [|discriminate]. now apply (C l Il) in X.
Qed.
(** An option whose name begins with # or ; is gone when the file is read, *)
Theorem C61_comment_refuted n k v : name_ok n -> like_comment k -> clean k -> clean v ->
  read_text (write_text (Ini [] [(n, [(k, v)])])) = (Ini [] [(n, [])], None).
Proof.
  intros N C K V. rewrite one_line by assumption.
  assert (T : comment (trim (k ++ lit " = " ++ v)) = true).
  { assert (X : exists c r, k ++ lit " = " ++ v = c :: r /\ (c = 35 \/ c = 59)) by (destruct C as [r [E|E]]; rewrite E; cbn [app lit]; eexists _, _; split; try reflexivity; [now left|now right]).
    destruct X as (c & r & E & Ec). rewrite E. unfold trim. assert (W : white c = false) by (destruct Ec as [-> | ->]; reflexivity). cbn [trim_l]. rewrite W.
    destruct (trim_r_split (c :: r)) as (w & Ew & Aw). destruct (trim_r (c :: r)) as [|c' r'].
    - cbn in Ew. subst w. inversion Aw. congruence.
    - injection Ew as <- _. destruct Ec as [-> | ->]; reflexivity. }
  cbn [read_lines]. unfold read_line at 1. rewrite T. reflexivity.
Qed.
Print Assumptions C61_comment_refuted.

(** and one with = or : is cut there: a device added as a:b of type vnic is next
    time a device a of the unknown type "b = vnic". *)
Theorem C61_cut_refuted n a d b v : name_ok n -> key_ok a -> (forall r, a <> 91 :: r) -> (d = 61 \/ d = 58) -> clean b -> clean v -> stripped v -> v <> [] ->
  read_text (write_text (Ini [] [(n, [(a ++ d :: b, v)])])) = (Ini [] [(n, [(a, trim (b ++ lit " = " ++ v))])], None).
Proof.
  intros N A H D B V Sv Nv. destruct A as [Na Sa Ca Ch].
  assert (Ka : clean a) by (split; intro X; apply Ch in X; tauto).
  assert (Kd : clean (d :: b)) by (split; intros [X|X]; try (apply B in X; exact X); destruct D; subst; discriminate).
  rewrite one_line; [|exact N|now apply clean_app|exact V].
  apply stripped_iff in Sa as [A1 A2]. apply stripped_iff in Sv as [_ V2].
  set (line := (a ++ d :: b) ++ lit " = " ++ v).
  assert (T : trim line = line).
  { unfold trim. rewrite trim_l_id by (unfold line; destruct a; [congruence|exact A1]). apply trim_r_id. unfold line. rewrite !rev_app_distr. destruct (rev v) as [|z zs] eqn:E; [|exact V2]. apply (f_equal (@rev Z)) in E. rewrite rev_involutive in E. now apply Nv in E. }
  assert (C : comment line = false) by (apply comment_false in Ca; unfold line; destruct a; [congruence|exact Ca]).
  assert (Hl : header line = None).
  { apply header_none. intro X. apply header_shape in X as (r & E & _). unfold line in E. destruct a as [|x a]; [congruence|]. injection E as -> _. now apply (H a). }
  assert (Io : indent_of line = 0%nat) by (unfold line; destruct a as [|x a]; [congruence|cbn in *; now rewrite A1]).
  assert (Ol : option_line line = Some (a, b ++ lit " = " ++ v)).
  { unfold line. rewrite <- app_assoc. cbn [app]. clear -Ch D. induction a as [|x a IH]; cbn [app option_line].
    - destruct D as [-> | ->]; reflexivity.
    - destruct (Ch x (or_introl eq_refl)) as (X1 & X2 & _). apply Z.eqb_neq in X1, X2. rewrite X1, X2. cbn [orb]. rewrite IH; [reflexivity|]. intros c X. apply Ch. now right. }
  cbn [read_lines]. unfold read_line at 1. rewrite T, C, Io, Hl.
  assert (Nl : line <> []) by (unfold line; destruct a; discriminate). clearbody line. destruct line as [|l0 lr]; [congruence|]. cbn [continues p_cur p_opt set_indent p_defs p_sects p_seen p_err p_indent]. unfold read_option. rewrite Ol.
  rewrite (trim_r_id a A2), (lower_id a) by (intros c X; apply Ch in X; tauto).
  replace (match a with [] => set_err _ | _ => _ end) with (Pst [] [(n, [])] (Some n) [] 0 [] false) by (destruct a; [congruence|reflexivity]).
  cbn [p_seen p_defs p_sects p_cur p_opt p_indent p_err smem]. rewrite sect_set_eq, sect_get_eq.
  destruct N as [_ Nd _ _]. assert (Go : get_o [] [(n, [])] n = []).
  { unfold get_o, eqb. destruct (eq_dec n default_section) as [E|_]; [now apply Nd in E|]. cbn [dget]. now destruct (eq_dec n n). }
  rewrite Go. cbn [dset].
  destruct (read_blank [] [(n, [])] n a [(n, a)] [(a, [trim (b ++ lit " = " ++ v)])] [] [trim (b ++ lit " = " ++ v)] eq_refl) as (o' & J & E); [discriminate|exact Na|intros []|].
  etransitivity; [exact (f_equal (fun x : pst * option ierr => let (st, e) := (let (st', e) := x in match e with Some _ => (st', e) | None => (st', if p_err st' then Some ParsingError else None) end) in (result st, e)) E)|].
  cbn [p_err]. unfold result. cbn [p_defs p_sects]. unfold put_d, put_s, eqb. destruct (eq_dec n default_section) as [E'|_]; [now apply Nd in E'|]. cbn [dset]. destruct (eq_dec n n) as [_|X]; [|congruence].
  cbn [map fst snd]. rewrite J. unfold joined. cbn [map fst snd join_on]. rewrite (trim_r_id (trim _)); [reflexivity|]. apply trim_r_tl.
Qed.
Print Assumptions C61_cut_refuted.

(** ** Examples *)
Definition ex_ini := Ini [] [(lit "devices", [(lit "v 1", lit "vnic"); (lit "s", lit "switch")]); (lit "Config_V", [(lit "a", lit "1.2" ++ [10; 10] ++ lit "[x] = %")]); (lit "e", [])].
Example ex_text : write_text ex_ini = lit "[devices]" ++ [10] ++ lit "v 1 = vnic" ++ [10] ++ lit "s = switch" ++ [10; 10] ++ lit "[Config_V]" ++ [10] ++ lit "a = 1.2" ++ [10; 9; 10; 9] ++ lit "[x] = %" ++ [10; 10] ++ lit "[e]" ++ [10; 10].
Proof. vm_compute. reflexivity. Qed.
Example ex_storable : storable ex_ini.
Proof. apply C61_roundtrip. vm_compute. reflexivity. Qed.
(** a file written by hand *)
Example ex_hand : read_text (lit "# my network" ++ [13; 10] ++ lit "[Routes]" ++ [10] ++ lit "  A : 1" ++ [10] ++ lit "    2" ++ [10] ++ lit "  c: 3" ++ [10] ++ lit "b=" ++ [10]) = (Ini [] [(lit "Routes", [(lit "a", lit "1" ++ [10] ++ lit "2"); (lit "c", lit "3"); (lit "b", [])])], None).
Proof. vm_compute. reflexivity. Qed.
Definition wordb (s : pystr) : bool := match s with [] => false | _ => forallb (fun c => ((97 <=? c) && (c <=? 122)) || ((48 <=? c) && (c <=? 57)) || existsb (Z.eqb c) (lit "_-.@*/")) s end.
Lemma wordb_word s : wordb s = true -> word s.
Proof.
  intro H. destruct s as [|x s]; [discriminate|]. split; [discriminate|]. unfold wordb in H. apply Forall_forall. intros c X. unfold wordb in H. rewrite forallb_forall in H. specialize (H c X).
  rewrite !orb_true_iff, !andb_true_iff, !Z.leb_le in H. unfold word_char. destruct H as [[H|H]|H]; [tauto|tauto|]. right. right. apply existsb_exists in H as (y & Y & E). apply Z.eqb_eq in E. now subst.
Qed.
Lemma nodup_small {A} (l : list A) : (List.length l <= 1)%nat -> NoDup l.
Proof. destruct l as [|x [|y l]]; cbn; intro; [constructor|constructor; [intros []|constructor]|lia]. Qed.
Example ex_plain : plain (PnmsModel.Config [(lit "vnic_1", lit "vnic")] [] [(lit "__default__", lit "vnic_1")] [(lit "Vnic_1", [(lit "playground_address", lit "1.2.3.4")])]).
Proof.
  constructor; cbn [PnmsModel.g_devices PnmsModel.g_connections PnmsModel.g_routes PnmsModel.g_sections].
  - split; [apply nodup_small; cbn; lia|]. intros k v [X|[]]. injection X as <- <-. split; [|right]; apply wordb_word; reflexivity.
  - split; [constructor|]. intros k v [].
  - split; [apply nodup_small; cbn; lia|]. intros k v [X|[]]. injection X as <- <-. split; [|right]; apply wordb_word; reflexivity.
  - split; [apply nodup_small; cbn; lia|]. intros n s [X|[]]. injection X as <- <-. split; [vm_compute; intuition discriminate|]. split; [vm_compute; intuition discriminate|].
  split; [apply nodup_small; cbn; lia|]. intros k v [X|[]]. injection X as <- <-. split; [|right]; apply wordb_word; reflexivity.
Qed.
Definition ex_cmds := [PnmsModel.CAdd (lit "v1") (lit "vnic") [lit "1.2.3.4"]; PnmsModel.CAdd (lit "sw") (lit "switch") [lit "local"; lit "9090"]; PnmsModel.CConnect (lit "v1") (lit "sw"); PnmsModel.CRouteAdd (lit "v1") (lit "*.*.*.*")].
Example ex_word_cmds : Forall word_command ex_cmds.
Proof.
  assert (W : forall l, forallb wordb l = true -> Forall word l) by (intros l H; rewrite forallb_forall in H; apply Forall_forall; intros s X; apply wordb_word, H, X).
  unfold ex_cmds. constructor; [|constructor; [|constructor; [|constructor; [|constructor]]]]; cbn [word_command]; repeat split; try (apply W; reflexivity); try discriminate;
    match goal with |- Forall word_char ?s => assert (Q : word s) by (apply wordb_word; reflexivity); apply Q end.
Qed.
Example ex_cmds_file : write_text (ini_of (PnmsModel.runs ex_cmds PnmsModel.config_empty)) =
  flat_map (fun l => l ++ [10])%list
   [lit "[devices]"; lit "v1 = vnic"; lit "sw = switch"; []; lit "[connections]"; lit "v1 = sw"; []; lit "[routes]"; lit "*.*.*.* = v1"; [];
    lit "[Config_v1]"; lit "playground_address = 1.2.3.4"; lit "auto_enable = true"; [];
    lit "[Config_sw]"; lit "auto_enable = true"; lit "physical_connection_type = local"; lit "tcp_port = 9090"; []].
Proof. vm_compute. reflexivity. Qed.
