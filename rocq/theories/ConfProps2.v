(** * C62, continued: handles over their whole life, errors, deletion *)
From Coq Require Import String.
From Coq Require Import List ZArith Bool Lia.
From Verif Require Import PyBase PyLemmas PnmsModel IniModel IniSpec IniProofs IniProofs2 IniProofs3 ConfModel ConfSpec ConfProofs ConfProofs2 ConfProofs3 ConfProofs4.
Import ListNotations.
Open Scope Z_scope.

(** what a successful open makes *)
Lemma opened w id a cr loc s date w1 j : step w (OOpen id a cr loc s date) = (w1, Fine (VHandle j)) ->
  exists l t tm c, where_ w loc = Fine (Some l) /\ dget (w_files w1) (path_of l id) = Some (t, tm) /\ load t s = (c, None) /\
    nth_error (w_handles w1) j = Some (Handle a (path_of l id) s (w_now w) (List.length (w_parsers w))) /\
    nth_error (w_parsers w1) (List.length (w_parsers w)) = Some (Some c) /\
    (w_files w1 = w_files w \/ tm = w_now w) /\ w_now w1 = w_now w.
Proof.
  cbn [step]. unfold open_file. intro E.
  assert (X : a <> OtherAccess /\ cr <> OtherCreation) by (split; intros ->; [discriminate|destruct a; discriminate]). destruct X as [Xa Xc].
  set (body := match where_ w loc with Fail e => (w, Fail e) | Fine None => (w, Fail EException) | Fine (Some l) => _ end) in E.
  assert (Eb : body = (w1, Fine (VHandle j))) by (destruct a, cr; congruence). clear E. unfold body in Eb. clear body.
  destruct (where_ w loc) as [[l|]|] eqn:L; try discriminate. cbv zeta in Eb. exists l.
  destruct (match cr with IfNeeded => negb (exists_path w (path_of l id)) | Overwrite => true | _ => false end).
  - cbn [put_file w_files w_parsers w_handles w_home w_search w_dirs w_now] in Eb. rewrite dget_dset_same in Eb. destruct (load (greeting id date) s) as [c [e|]] eqn:Lo; [discriminate|]. injection Eb as <- <-.
    exists (greeting id date), (w_now w), c. cbn [w_files w_handles w_parsers w_now]. rewrite dget_dset_same, !nth_error_app2, !Nat.sub_diag by lia. repeat split; auto.
  - destruct (dget (w_files w) (path_of l id)) as [[t tm]|] eqn:D; [|discriminate]. destruct (load t s) as [c [e|]] eqn:Lo; [discriminate|]. injection Eb as <- <-.
    exists t, tm, c. cbn [w_files w_handles w_parsers w_now]. rewrite D, !nth_error_app2, !Nat.sub_diag by lia. repeat split; auto.
Qed.

(** A handle opened for reading can never save, whatever is done later. *)
Theorem C62_reader_never_saves w id cr loc s date w1 j os : step w (OOpen id Read cr loc s date) = (w1, Fine (VHandle j)) ->
  let w2 := run w1 os in step w2 (OSave j) = (w2, Fail EException).
Proof.
  intros E w2. destruct (opened _ _ _ _ _ _ _ _ _ E) as (l & t & tm & c & _ & _ & _ & H & _). destruct (run_handles os w1 j _ H) as (h' & H' & (A & _)).
  cbn [step]. unfold with_handle. fold w2 in H'. rewrite H'. unfold save. rewrite A. reflexivity.
Qed.
Print Assumptions C62_reader_never_saves.
(** A handle opened for writing saves what it holds to the file it was opened on,
    at any later time, unless a reload failed. *)
Theorem C62_writer_saves w id cr loc s date w1 j os l c : step w (OOpen id Write cr loc s date) = (w1, Fine (VHandle j)) -> where_ w loc = Fine (Some l) ->
  let w2 := run w1 os in holds w2 j c -> exists w3, step w2 (OSave j) = (w3, Fine VNone) /\ text_at w3 (path_of l id) = Some (write_text c) /\ forall p, p <> path_of l id -> text_at w3 p = text_at w2 p.
Proof.
  intros E L w2 (h' & H' & P). destruct (opened _ _ _ _ _ _ _ _ _ E) as (l' & t & tm & c' & L' & _ & _ & H & _). rewrite L in L'. injection L' as <-. destruct (run_handles os w1 j _ H) as (h2 & H2 & (A & B & _)). fold w2 in H2. rewrite H' in H2. injection H2 as ->.
  cbn [h_access h_path] in A, B. exists (put_file w2 (path_of l id) (write_text c)). cbn [step]. unfold with_handle. rewrite H'. unfold save, parser. rewrite A, P, B. split; [reflexivity|]. unfold text_at. cbn [put_file w_files]. split; [now rewrite dget_dset_same|]. intros p N. now rewrite dget_dset_other.
Qed.
Print Assumptions C62_writer_saves.
(** Until its file is written a handle keeps what it holds at every reload that
    is not forced. *)
Theorem C62_reload_keeps_later w id a cr loc s date w1 j l os : step w (OOpen id a cr loc s date) = (w1, Fine (VHandle j)) -> where_ w loc = Fine (Some l) ->
  (forall t tm, dget (w_files w) (path_of l id) = Some (t, tm) -> tm <= w_now w) -> quiet w1 os (path_of l id) ->
  let w2 := run w1 os in step w2 (OReload j false) = (w2, Fine VNone).
Proof.
  intros E L T Q w2. destruct (opened _ _ _ _ _ _ _ _ _ E) as (l' & t & tm & c & L' & D & _ & H & _ & F & _). rewrite L in L'. injection L' as <-. destruct (run_handles os w1 j _ H) as (h' & H' & (_ & B & _ & Tm)). cbn [h_path h_time] in B, Tm.
  assert (Le : tm <= w_now w) by (destruct F as [F | ->]; [rewrite F in D; eauto|lia]).
  cbn [step]. unfold with_handle. fold w2 in H'. rewrite H'. unfold reload. rewrite B, Tm. unfold w2. rewrite (quiet_files os _ _ Q), D. assert (w_now w <? tm = false) as -> by (apply Z.ltb_ge; exact Le). reflexivity.
Qed.
Print Assumptions C62_reload_keeps_later.

(** ** Errors *)
(** A file that cannot be read is an error, and no handle is made of it. *)
Theorem C62_bad_file w id a cr loc s date l t e : a = Read \/ a = Write -> cr = NoCreate \/ cr = IfNeeded -> where_ w loc = Fine (Some l) -> text_at w (path_of l id) = Some t -> snd (read_text t) = Some e ->
  step w (OOpen id a cr loc s date) = (w, Fail (EParse e)).
Proof.
  intros Ha Hc L T R. cbn [step]. unfold open_file. unfold text_at in T. destruct (dget (w_files w) (path_of l id)) as [[t' tm]|] eqn:D; [|discriminate]. injection T as ->.
  assert (X : exists_path w (path_of l id) = true) by (unfold exists_path; apply orb_true_iff; left; apply dhas_true; eauto).
  assert (Lo : exists c, load t s = (c, Some (EParse e))) by (unfold load; destruct (read_text t) as [c o]; cbn [snd] in R; subst o; eauto). destruct Lo as (c & Lo).
  destruct Ha as [-> | ->], Hc as [-> | ->]; rewrite L; cbv zeta; rewrite ?X; cbn [negb]; rewrite D, Lo; reflexivity.
Qed.
Print Assumptions C62_bad_file.
(** An error changes nothing, except that an open may have created its file, an
    assignment may be half done and a reload may have broken the handle. *)
Theorem C62_error_keeps w o e : snd (step w o) = Fail e ->
  match o with OOpen _ _ _ _ _ _ | OAssign _ _ _ | OReload _ _ => True | _ => fst (step w o) = w end.
Proof.
  assert (WP : forall j k, (forall c, snd (k c) = Fail e -> fst (k c) = w) -> snd (with_parser w j k) = Fail e -> fst (with_parser w j k) = w) by (intros j k X; unfold with_parser; destruct (parser w j); [apply X|reflexivity]).
  assert (WH : forall j k, (forall h, snd (k h) = Fail e -> fst (k h) = w) -> snd (with_handle w j k) = Fail e -> fst (with_handle w j k) = w) by (intros j k X; unfold with_handle; destruct (nth_error _ j); [apply X|reflexivity]).
  assert (UP : forall j r, snd (update w j r) = Fail e -> fst (update w j r) = w) by (intros j [c|x]; [discriminate|reflexivity]).
  destruct o; intro E; try exact Logic.I; try discriminate E; try reflexivity; revert E; cbn [step].
  - destruct (add_custom_path (w_search w) id path); [discriminate|reflexivity].
  - apply WH. intros hh. unfold save. destruct (h_access hh); try reflexivity. destruct (parser w (h_parser hh)); [discriminate|reflexivity].
  - apply WH. reflexivity.
  - apply WH. intro hh. apply WP. reflexivity.
  - apply WH. intro hh. apply WP. reflexivity.
  - apply WH. intro hh. apply WP. intro c. apply UP.
  - apply WP. reflexivity.
  - apply WP. reflexivity.
  - apply WP. intro c. apply UP.
  - apply WP. intro c. apply UP.
Qed.
Print Assumptions C62_error_keeps.
(** Nothing is set in a section that is not there. *)
Theorem C62_set_missing w i c (n : pystr) k v : nth_error (w_parsers w) i = Some (Some c) -> n <> [] -> n <> lit "DEFAULT" -> dget (i_sects c) n = None ->
  step w (OSet i n k v) = (w, Fail (if settable v then ENoSection else EValueError)).
Proof.
  intros H Nn Nd D. assert (is_default n = false) as Df. { unfold is_default. destruct n; [congruence|]. destruct (eqb _ default_section) eqn:X; [apply (proj1 (eqb_iff _ _)) in X; now apply Nd in X|reflexivity]. }
  cbn [step]. unfold with_parser, parser. rewrite H. unfold update, set_option. rewrite Df, D. destruct (settable v); reflexivity.
Qed.
Print Assumptions C62_set_missing.
(** A deleted option is gone from its section and nothing else is changed; one that only DEFAULT has cannot be deleted there. *)
Theorem C62_delete w i c (n : pystr) d k : nth_error (w_parsers w) i = Some (Some c) -> n <> [] -> n <> lit "DEFAULT" -> dget (i_sects c) n = Some d -> NoDup (map fst d) ->
  match dget d (PnmsModel.lower k) with
  | Some _ => exists w' c', step w (ODel i n k) = (w', Fine VNone) /\ nth_error (w_parsers w') i = Some (Some c') /\ i_defs c' = i_defs c /\
                exists d', dget (i_sects c') n = Some d' /\ dget d' (PnmsModel.lower k) = None /\ (forall k', k' <> PnmsModel.lower k -> dget d' k' = dget d k') /\ forall n', n' <> n -> dget (i_sects c') n' = dget (i_sects c) n'
  | None => step w (ODel i n k) = (w, Fail EKeyError)
  end.
Proof.
  intros H Nn Nd D ND. assert (is_default n = false) as Df. { unfold is_default. destruct n; [congruence|]. destruct (eqb _ default_section) eqn:X; [apply (proj1 (eqb_iff _ _)) in X; now apply Nd in X|reflexivity]. }
  destruct (dget d (PnmsModel.lower k)) as [v|] eqn:Dk.
  - set (c' := Ini (i_defs c) (dset (i_sects c) n (ddel d (PnmsModel.lower k)))). exists (set_parser w i c'), c'. split; [|split; [|split; [reflexivity|exists (ddel d (PnmsModel.lower k)); split; [|split; [|split]]]]].
    + cbn [step]. unfold with_parser, parser. rewrite H. unfold update, del_option, has_option. rewrite Df, D. assert (dhas d (PnmsModel.lower k) = true) as -> by (apply dhas_true; eauto). reflexivity.
    + cbn [set_parser set_parsers w_parsers]. rewrite nth_replace, Nat.eqb_refl, H. reflexivity.
    + unfold c'. cbn [i_sects]. apply dget_dset_same.
    + rewrite dget_ddel by exact ND. destruct (eq_dec _ _); [reflexivity|congruence].
    + intros k' N. rewrite dget_ddel by exact ND. destruct (eq_dec _ _); [congruence|reflexivity].
    + intros n' N. unfold c'. cbn [i_sects]. now apply dget_dset_other.
  - cbn [step]. unfold with_parser, parser. rewrite H. unfold update, del_option, has_option. rewrite Df, D. assert (dhas d (PnmsModel.lower k) = false) as -> by (now apply dhas_false). destruct (dhas (i_defs c) (PnmsModel.lower k)); reflexivity.
Qed.
Print Assumptions C62_delete.
Lemma read_dict_nodup n kvs : forall c seen c', read_dict c n seen kvs = (c', None) -> NoDup (map (fun kv => PnmsModel.lower (fst kv)) kvs) /\ forall kv, In kv kvs -> ~ In (PnmsModel.lower (fst kv)) seen.
Proof.
  induction kvs as [|[k v] r IH]; intros c seen c' E; cbn [read_dict] in E; [split; [constructor|intros ? []]|].
  destruct (smem seen (PnmsModel.lower k)) eqn:Sm; [discriminate|]. destruct (set_option c n _ v) as [c1|]; [|discriminate]. destruct (IH _ _ _ E) as [A B]. split.
  - cbn [map fst]. constructor; [|exact A]. intro X. apply in_map_iff in X as (kv & X & Y). apply (B kv Y). rewrite X. now left.
  - intros kv [<-|X] Y; [cbn [fst] in Y; rewrite <- not_true_iff_false in Sm; apply Sm; now apply (proj2 (smem_true _ _))|]. apply (B kv X). now right.
Qed.
(** An assigned section has exactly the options given, and no other section is changed. *)
Theorem C62_assign w i c (n : pystr) kvs w' : holds w i c -> n <> [] -> n <> lit "DEFAULT" -> step w (OAssign i n kvs) = (w', Fine VNone) ->
  exists c', holds w' i c' /\ i_defs c' = i_defs c /\ dget (i_sects c') n = Some (map (fun kv => (PnmsModel.lower (fst kv), snd kv)) kvs) /\ forall n', n' <> n -> dget (i_sects c') n' = dget (i_sects c) n'.
Proof.
  intros (h & Hh & Hp) Nn Nd E. cbn [step] in E. unfold with_handle, with_parser, parser in E. rewrite Hh, Hp in E. destruct (assign_section c n kvs) as [c' [e|]] eqn:A; [discriminate|]. injection E as <-.
  destruct (read_dict_nodup n kvs _ _ _ A) as [ND _]. destruct (dget_assign c n kvs c' Nn Nd ND A) as (X & Y & Z0). exists c'. split; [|auto].
  exists h. split; [exact Hh|]. cbn [set_parser set_parsers w_parsers]. rewrite nth_replace, Nat.eqb_refl, Hp. reflexivity.
Qed.
Print Assumptions C62_assign.
(** ** Examples *)
Definition ex2_w := run (world0 (lit "/h") (Some (lit "/i")) [] [lit "/i/.playground"] 7) [OOpen (lit "a") Write Overwrite None [(lit "s", [(lit "K", lit "1"); (lit "l", lit "2")])] []; OTick 1].
Example ex2_assign : exists w', step ex2_w (OAssign 0 (lit "t") [(lit "X", lit "%%")]) = (w', Fine VNone) /\ snd (step w' (OGet 0 (lit "t") (lit "x"))) = Fine (VText (lit "%")) /\ snd (step w' (OGet 0 (lit "s") (lit "k"))) = Fine (VText (lit "1")).
Proof. eexists. vm_compute. repeat split. Qed.
Example ex2_del : exists w', step ex2_w (ODel 0 (lit "s") (lit "k")) = (w', Fine VNone) /\ snd (step w' (OGet 0 (lit "s") (lit "k"))) = Fail EKeyError /\ snd (step w' (OGet 0 (lit "s") (lit "l"))) = Fine (VText (lit "2")).
Proof. eexists. vm_compute. repeat split. Qed.
Example ex2_keep : let w := run ex2_w [OOpen (lit "a") Read NoCreate None [] []; OTick 3; OSet 0 (lit "s") (lit "k") (lit "9"); OReload 1 false] in w_now w = 11 /\ List.length (w_parsers w) = 2%nat /\ snd (step w (OSave 1)) = Fail EException.
Proof. vm_compute. repeat split. Qed.
Example ex2_bad : snd (step (fst (step ex2_w (OWriteFile (lit "/i/.playground/a.ini") (lit "oops")))) (OOpen (lit "a") Read NoCreate None [] [])) = Fail (EParse MissingSectionHeader).
Proof. vm_compute. reflexivity. Qed.
