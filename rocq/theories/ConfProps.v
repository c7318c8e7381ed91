(** * C62: configuration files: where they are, who writes them, what is read *)
From Coq Require Import String.
From Coq Require Import List ZArith Bool Lia.
From Verif Require Import PyBase PyLemmas PnmsModel IniModel IniSpec IniProofs IniProofs2 IniProofs3 ConfModel ConfSpec ConfProofs ConfProofs2 ConfProofs3 ConfProofs4.
Import ListNotations.
Open Scope Z_scope.

(** ** Where *)
(** After any history the configuration directory is the first that exists of:
    the custom paths, the latest first, the instance's, the user's, the system's. *)
Theorem C62_search home inst files dirs now os : let w := run (world0 home inst files dirs now) os in
  exists r, snd (step w OCurrentPath) = Fine (VPath r) /\ first_there w (map (expand_user home) (places inst os)) r.
Proof.
  intro w. assert (P : searches inst (w_search w) (customs os [])).
  { apply (searches_run inst os (world0 home inst files dirs now) []). constructor; try reflexivity; [constructor|intros id X []]. }
  pose proof (order_paths inst (w_home w) _ _ P) as F. destruct (first_path_there w _ _ F) as (r & R & T). exists r. cbn [step]. unfold current_path. rewrite R. split; [reflexivity|].
  assert (Eh : w_home w = home) by (unfold w; now rewrite run_home). rewrite Eh in T. exact T.
Qed.
Print Assumptions C62_search.
Theorem C62_search_unique w ps r r' : first_there w ps r -> first_there w ps r' -> r = r'.
Proof. apply first_there_det. Qed.
Print Assumptions C62_search_unique.

(** An identifier without a slash names a file below the location, never above it. *)
Theorem C62_inside loc id : loc <> [] -> ~ In 47 id ->
  exists rest, path_of loc id = (if ends_slash loc then loc else loc ++ lit "/") ++ rest /\
    forall x, In x (split_on 47 rest) -> x <> lit "." /\ x <> lit "..".
Proof.
  intros N H. assert (F : Forall (fun p => ~ In slash p /\ ~ In ch_dot p) (split_on ch_dot id)).
  { pose proof (split_parts_clean ch_dot id) as D. rewrite Forall_forall in D. apply Forall_forall. intros p P. split; [|now apply D]. intro X. apply H. now apply (split_incl ch_dot id p). }
  set (pre := if ends_slash loc then loc else loc ++ lit "/").
  assert (Ep : ends_slash pre = true) by (unfold pre; destruct (ends_slash loc) eqn:E; [exact E|rewrite ends_slash_app by discriminate; reflexivity]).
  assert (Np : pre <> []) by (unfold pre; destruct (ends_slash loc); [exact N|destruct loc; discriminate]).
  assert (J : exists rest, join_path loc (split_on ch_dot id) = pre ++ rest /\ ~ In ch_dot rest).
  { destruct (split_on ch_dot id) as [|p ps] eqn:Sp; [now apply split_on_nonempty in Sp|].
    assert (J1 : join1 loc p = pre ++ p).
    { inversion F as [|? ? [Ps _] _]; subst. unfold pre. destruct p as [|c p]; cbn [join1].
      - destruct loc; [congruence|]. destruct (ends_slash _); now rewrite ?app_nil_r.
      - assert (c =? slash = false) as -> by (apply Z.eqb_neq; intro X; apply Ps; now left). destruct loc; [congruence|]. destruct (ends_slash _); [reflexivity|]. now rewrite <- app_assoc. }
    inversion F as [|? ? [_ Pd] F']; subst. change (join_path loc (p :: ps)) with (join_path (join1 loc p) ps). rewrite J1. now apply join_inside. }
  destruct J as (rest & J & D). exists (rest ++ lit ".ini"). unfold path_of. rewrite J, <- app_assoc. split; [reflexivity|].
  intros x X. apply split_in_app in X as [(y & _ & ->)|X]; [|split; intros ->; apply D; eapply split_incl; eauto; now left|vm_compute; intuition discriminate].
  split; intro E; apply (f_equal (@List.length Z)) in E; rewrite app_length in E; cbn [lit List.length] in E; lia.
Qed.
Print Assumptions C62_inside.

(** Different identifiers are different files, if their parts are not empty and have no slash. *)
Definition plain_id (id : pystr) : Prop := ~ In 47 id /\ forall p, In p (split_on 46 id) -> p <> [].
Theorem C62_paths_distinct loc a b : loc <> [] -> plain_id a -> plain_id b -> path_of loc a = path_of loc b -> a = b.
Proof.
  intros N [A1 A2] [B1 B2] E. unfold path_of in E. apply app_inv_tail in E. change ch_dot with 46 in E.
  assert (P : forall id, ~ In 47 id -> (forall p, In p (split_on 46 id) -> p <> []) -> parts_ok (split_on 46 id)).
  { intros id H1 H2. apply Forall_forall. intros p X. split; [now apply H2|]. intro Y. apply H1. now apply (split_incl 46 id p). }
  apply P in A2; [|exact A1]. apply P in B2; [|exact B1].
  destruct (split_on 46 a) as [|x xs] eqn:Ea; [now apply split_on_nonempty in Ea|]. destruct (split_on 46 b) as [|y ys] eqn:Eb; [now apply split_on_nonempty in Eb|].
  rewrite !join_any_loc in E by assumption. apply app_inv_head in E.
  assert (J : forall l z zs, parts_ok (z :: zs) -> z ++ flat_map (fun x => slash :: x) zs = l -> split_on 47 l = z :: zs).
  { intros l z zs F <-. revert z F. induction zs as [|u us IH]; intros z F; inversion F as [|? ? [_ Sz] F']; subst; cbn [flat_map].
    - rewrite app_nil_r. now apply split_on_clean.
    - cbn [app]. unfold slash. rewrite split_on_app by exact Sz. f_equal. now apply IH. }
  pose proof (J _ x xs A2 eq_refl) as J1. pose proof (J _ y ys B2 eq_refl) as J2. rewrite E, J2 in J1. apply (split_inj 46). congruence.
Qed.
Print Assumptions C62_paths_distinct.

Lemma join_last (ps : list pystr) (p loc : pystr) : p <> [] -> exists v, join_path loc (ps ++ [p]) = v ++ p.
Proof.
  intro N. unfold join_path. rewrite fold_left_app. cbn [fold_left]. generalize (fold_left join1 ps loc). intro u.
  destruct p as [|c p]; [congruence|]. cbn [join1]. destruct (c =? slash); [now exists []|]. destruct u as [|z u]; [now exists []|].
  destruct (ends_slash (z :: u)); [now exists (z :: u)|]. exists ((z :: u) ++ [slash]). now rewrite <- app_assoc.
Qed.
(** (refuted: an identifier is one file's only name, and below the location) *)
Theorem C62_alias_refuted loc a b : plain_id a -> plain_id b -> loc <> [] -> path_of loc (a ++ lit ".." ++ b) = path_of loc (a ++ lit "." ++ b).
Proof.
  intros [A1 A2] [B1 B2] N. unfold path_of. f_equal. change ch_dot with 46.
  destruct (exists_last (split_on_nonempty 46 a)) as (ps & p & E).
  assert (S1 : forall r, split_on 46 (a ++ 46 :: r) = split_on 46 a ++ split_on 46 r).
  { intro r. clear. induction a as [|x a IH]; [reflexivity|]. cbn [app split_on]. destruct (Z.eq_dec x 46); [now rewrite IH|]. rewrite IH. destruct (split_on 46 a) as [|q qs] eqn:S; [now apply split_on_nonempty in S|reflexivity]. }
  change (a ++ lit ".." ++ b) with (a ++ 46 :: 46 :: b). change (a ++ lit "." ++ b) with (a ++ 46 :: b). rewrite !S1. change (split_on 46 (46 :: b)) with ([] :: split_on 46 b).
  unfold join_path. rewrite !fold_left_app. cbn [fold_left]. set (q := fold_left join1 (split_on 46 a) loc).
  destruct (split_on 46 b) as [|y ys] eqn:Eb; [now apply split_on_nonempty in Eb|]. cbn [fold_left]. apply (f_equal (fold_left join1 ys)).
  assert (Q : q <> [] /\ ends_slash q = false).
  { assert (P : parts_ok (split_on 46 a)). { apply Forall_forall. intros z X. split; [now apply A2|]. intro Y. apply A1. now apply (split_incl 46 a z). }
    rewrite E in P. apply Forall_app in P as [P1 P2]. inversion P2 as [|? ? [Np Sp] _]; subst. destruct (join_last ps p loc Np) as (v & Ej). assert (Eq : q = v ++ p) by (unfold q; rewrite E; exact Ej).
    rewrite Eq. split; [intro X; apply app_eq_nil in X as [_ X]; contradiction|]. rewrite ends_slash_app by exact Np. now apply ends_slash_no. }
  destruct Q as [Q1 Q2]. assert (Ny : y <> []) by (apply B2; now left). assert (Sy : ~ In slash y) by (intro X; apply B1; apply (split_incl 46 b y); [rewrite Eb; now left|exact X]).
  transitivity (q ++ slash :: y); [|symmetry; exact (join1_part q y Q1 Q2 Ny Sy)]. assert (J0 : join1 q [] = q ++ [slash]) by (cbn [join1]; destruct q; [congruence|]; now rewrite Q2). transitivity (join1 (join1 q []) y); [reflexivity|]. rewrite J0.
  destruct y as [|c y]; [congruence|]. cbn [join1]. assert (c =? slash = false) as -> by (apply Z.eqb_neq; intro X; apply Sy; now left).
  destruct (q ++ [slash]) eqn:Z0; [destruct q; discriminate|]. rewrite <- Z0, ends_slash_app by discriminate. cbn [ends_slash]. rewrite Z.eqb_refl. now rewrite <- app_assoc.
Qed.
Print Assumptions C62_alias_refuted.
Theorem C62_escape_refuted loc x : ~ In 46 x -> path_of loc (lit "/" ++ x) = lit "/" ++ x ++ lit ".ini".
Proof. intro H. unfold path_of. change ch_dot with 46. rewrite split_on_clean; [reflexivity|]. intros [X|X]; [discriminate|contradiction]. Qed.
Print Assumptions C62_escape_refuted.

(** ** Who writes *)
(** A file changes only by another program, a save of a handle opened for
    writing, or an open that creates. *)
Theorem C62_writers w o p : text_at (fst (step w o)) p <> text_at w p -> writes w o p.
Proof. intro H. destruct (step_files w o p) as [E|E]; [|exact E]. unfold text_at in H. rewrite E in H. congruence. Qed.
Print Assumptions C62_writers.
(** A handle opened for reading never changes any file. *)
Theorem C62_read_only w i h : nth_error (w_handles w) i = Some h -> h_access h = Read -> step w (OSave i) = (w, Fail EException).
Proof. intros H A. cbn [step]. unfold with_handle, save. now rewrite H, A. Qed.
Print Assumptions C62_read_only.

(** ** Durability *)
(** What a handle held when it was saved is what everyone reads who opens the
    file before it is written again, with the sections of his spec that it lacks. *)
Theorem C62_durable home inst files dirs now os1 i h c w1 os2 id a cr loc s date l :
  Forall op_ok os1 -> let w := run (world0 home inst files dirs now) os1 in
  nth_error (w_handles w) i = Some h -> holds w i c -> step w (OSave i) = (w1, Fine VNone) ->
  quiet w1 os2 (h_path h) -> let w2 := run w1 os2 in
  where_ w2 loc = Fine (Some l) -> path_of l id = h_path h -> a = Read \/ a = Write -> cr = NoCreate \/ cr = IfNeeded ->
  forall c', add_spec c s = (c', None) ->
  exists w3 j, step w2 (OOpen id a cr loc s date) = (w3, Fine (VHandle j)) /\ holds w3 j c'.
Proof.
  intros F w Hh Hc Sv Q w2 L Ep Ha Hcr c' Es. assert (P : storable c).
  { destruct Hc as (h' & _ & Hp). apply (as_parsers w) in Hp; [exact Hp|]. apply run_storable; [exact F|apply storable0]. }
  assert (T : text_at w1 (h_path h) = Some (write_text c)).
  { cbn [step] in Sv. unfold with_handle in Sv. rewrite Hh in Sv. unfold save in Sv. destruct (h_access h); try discriminate. destruct Hc as (h' & Hh' & Hp). rewrite Hh in Hh'. injection Hh' as <-.
    unfold parser in Sv. rewrite Hp in Sv. injection Sv as <-. unfold text_at. cbn [put_file w_files]. now rewrite dget_dset_same. }
  assert (T2 : text_at w2 (path_of l id) = Some (write_text c)) by (unfold w2, text_at; rewrite Ep, (quiet_files os2 _ w1 Q); exact T).
  destruct (open_text w2 id a cr loc s date l (write_text c) c' Ha Hcr L T2) as (w3 & E & H3 & _); [now rewrite (load_written c s P)|]. eauto.
Qed.
Print Assumptions C62_durable.

(** The spec adds the sections that the file does not have and changes nothing else. *)
Theorem C62_spec_sections (s : spec) c c' : (forall (n : pystr) kvs, In (n, kvs) s -> n <> [] /\ NoDup (map (fun kv => PnmsModel.lower (fst kv)) kvs)) -> NoDup (map fst s) -> add_spec c s = (c', None) ->
  i_defs c' = i_defs c /\
  (forall n d, dget (i_sects c) n = Some d -> dget (i_sects c') n = Some d) /\
  (forall (n : pystr) kvs, In (n, kvs) s -> n <> lit "DEFAULT" -> dget (i_sects c) n = None -> dget (i_sects c') n = Some (map (fun kv => (PnmsModel.lower (fst kv), snd kv)) kvs)) /\
  (forall n : pystr, ~ In n (map fst s) -> dget (i_sects c') n = dget (i_sects c) n).
Proof. apply spec_sections. Qed.
Print Assumptions C62_spec_sections.

(** ** Values *)
(** What is read is the stored value with its references replaced, at most ten
    values deep. *)
Theorem C62_value w i c (n : pystr) k s : nth_error (w_parsers w) i = Some (Some c) -> n <> [] -> n <> lit "DEFAULT" ->
  snd (step w (OGet i n k)) = Fine (VText s) <-> exists v, stored c n (PnmsModel.lower k) = Some v /\ means (stored c n) 9 v s.
Proof.
  intros H Nn Nd. cbn [step]. unfold with_parser, parser. rewrite H. cbn [snd]. unfold has_option, get_option, stored.
  assert (is_default n = false) as ->. { unfold is_default. destruct n; [congruence|]. destruct (eqb _ default_section) eqn:X; [apply (proj1 (eqb_iff _ _)) in X; now apply Nd in X|reflexivity]. }
  destruct (dget (i_sects c) n) as [d|] eqn:D.
  2:{ split; [discriminate|]. intros (v & E & _). discriminate. }
  assert (dhas (i_sects c) n = true) as -> by (apply dhas_true; eauto). cbn [negb andb].
  assert (Lk : forall k, lookup c n k = match dget d k with Some v => Some v | None => dget (i_defs c) k end) by (intro k0; unfold lookup; now rewrite D).
  rewrite Lk. assert (G : forall v, match interpolate max_depth (lookup c n) v with Fine x => Fine (VText x) | Fail e => Fail e end = Fine (VText s) <-> means (fun k => match dget d k with Some v => Some v | None => dget (i_defs c) k end) 9 v s).
  { intro v. assert (X : interpolate max_depth (lookup c n) v = Fine s <-> means (lookup c n) 9 v s). { rewrite interpolate_means. split; [intros (d' & E & M); injection E as <-; exact M|intro M; now exists 9%nat]. }
    assert (Y : forall m m' : pystr -> option pystr, (forall k, m k = m' k) -> forall d v s, means m d v s -> means m' d v s).
    { intros m m' Em d0 v0 s0 M. induction M.
      - apply m_nil.
      - now apply m_char.
      - now apply m_percent.
      - apply m_plain; try assumption. now rewrite <- Em.
      - apply m_deep with (x := x); try assumption. now rewrite <- Em. }
    split.
    - destruct (interpolate max_depth (lookup c n) v) as [x|]; intro E; [|discriminate]. injection E as ->. apply (Y (lookup c n)); [exact Lk|]. now apply X.
    - intro M. apply (Y _ (lookup c n)) in M; [|intro k0; now rewrite Lk]. apply X in M. now rewrite M. }
  destruct (dget d (PnmsModel.lower k)) as [v|] eqn:Dk.
  - assert (dhas d (PnmsModel.lower k) = true) as -> by (apply dhas_true; eauto). cbn [orb]. rewrite G. split; [eauto|]. intros (v' & E & M). now injection E as <-.
  - assert (dhas d (PnmsModel.lower k) = false) as -> by (now apply dhas_false). cbn [orb]. destruct (dget (i_defs c) (PnmsModel.lower k)) as [v|] eqn:Df.
    + assert (dhas (i_defs c) (PnmsModel.lower k) = true) as -> by (apply dhas_true; eauto). rewrite G. split; [eauto|]. intros (v' & E & M). now injection E as <-.
    + assert (dhas (i_defs c) (PnmsModel.lower k) = false) as -> by (now apply dhas_false). split; [discriminate|]. intros (v' & E & _). discriminate.
Qed.
Print Assumptions C62_value.
(** A text set with its percent signs doubled is accepted and read back as it
    was, and no other option of any section is changed. *)
Theorem C62_set_get w i c (n : pystr) d k s : nth_error (w_parsers w) i = Some (Some c) -> n <> [] -> n <> lit "DEFAULT" -> dget (i_sects c) n = Some d ->
  exists w' c', step w (OSet i n k (escaped s)) = (w', Fine VNone) /\ snd (step w' (OGet i n k)) = Fine (VText s) /\
    nth_error (w_parsers w') i = Some (Some c') /\ forall n' k', n' <> n \/ k' <> PnmsModel.lower k -> stored c' n' k' = stored c n' k'.
Proof.
  intros H Nn Nd D. set (c' := Ini (i_defs c) (dset (i_sects c) n (dset d (PnmsModel.lower k) (escaped s)))). exists (set_parser w i c'), c'.
  assert (N : nth_error (w_parsers (set_parser w i c')) i = Some (Some c')) by (cbn [set_parser set_parsers w_parsers]; rewrite nth_replace, Nat.eqb_refl, H; reflexivity).
  assert (is_default n = false) as Df. { unfold is_default. destruct n; [congruence|]. destruct (eqb _ default_section) eqn:X; [apply (proj1 (eqb_iff _ _)) in X; now apply Nd in X|reflexivity]. }
  split; [|split; [|split; [exact N|]]].
  - cbn [step]. unfold with_parser, parser. rewrite H. unfold update, set_option. now rewrite settable_escaped, Df, D.
  - apply (C62_value _ i c' n k s N Nn Nd). exists (escaped s). split; [|apply means_escaped]. unfold stored, c'. cbn [i_sects i_defs]. now rewrite !dget_dset_same.
  - intros n' k' X. unfold stored, c'. cbn [i_sects i_defs]. destruct (eq_dec n' n) as [->|Nn'].
    + rewrite dget_dset_same, D. rewrite dget_dset_other; [reflexivity|]. destruct X as [X|X]; [congruence|exact X].
    + now rewrite dget_dset_other by exact Nn'.
Qed.
Print Assumptions C62_set_get.
(** (refuted: what can be set can be read) "%(a)%%s" is accepted and never read. *)
Theorem C62_unreadable_refuted w i c (n : pystr) d k : nth_error (w_parsers w) i = Some (Some c) -> n <> [] -> n <> lit "DEFAULT" -> dget (i_sects c) n = Some d ->
  exists w', step w (OSet i n k (lit "%(a)%%s")) = (w', Fine VNone) /\ snd (step w' (OGet i n k)) = Fail EInterpolationSyntax.
Proof.
  intros H Nn Nd D. set (c' := Ini (i_defs c) (dset (i_sects c) n (dset d (PnmsModel.lower k) (lit "%(a)%%s")))). exists (set_parser w i c').
  assert (N : nth_error (w_parsers (set_parser w i c')) i = Some (Some c')) by (cbn [set_parser set_parsers w_parsers]; rewrite nth_replace, Nat.eqb_refl, H; reflexivity).
  assert (is_default n = false) as Df. { unfold is_default. destruct n; [congruence|]. destruct (eqb _ default_section) eqn:X; [apply (proj1 (eqb_iff _ _)) in X; now apply Nd in X|reflexivity]. }
  split.
  - cbn [step]. unfold with_parser, parser. rewrite H. unfold update, set_option. rewrite Df, D. change (settable (lit "%(a)%%s")) with true. reflexivity.
  - cbn [step]. unfold with_parser, parser. rewrite N. cbn [snd]. unfold has_option, get_option. rewrite Df. unfold c' at 1 2 3. cbn [i_sects i_defs]. rewrite dget_dset_same.
    assert (dhas (dset d (PnmsModel.lower k) (lit "%(a)%%s")) (PnmsModel.lower k) = true) as -> by (apply dhas_true; rewrite dget_dset_same; eauto). cbn [orb].
    assert (dhas (dset (i_sects c) n (dset d (PnmsModel.lower k) (lit "%(a)%%s"))) n = true) as -> by (apply dhas_true; rewrite dget_dset_same; eauto). cbn [negb andb].
    assert (lookup c' n (PnmsModel.lower k) = Some (lit "%(a)%%s")) as -> by (unfold lookup, c'; cbn [i_sects i_defs]; now rewrite !dget_dset_same). reflexivity.
Qed.
Print Assumptions C62_unreadable_refuted.
(** (refuted: a failed assignment changes nothing) The section is emptied first. *)
Theorem C62_assign_refuted w i c (n : pystr) d k v kvs : holds w i c -> n <> [] -> n <> lit "DEFAULT" -> dget (i_sects c) n = Some d -> settable v = false ->
  exists w' c', step w (OAssign i n ((k, v) :: kvs)) = (w', Fail EValueError) /\ holds w' i c' /\ dget (i_sects c') n = Some [].
Proof.
  intros (h & Hh & Hp) Nn Nd D Sv. set (c' := Ini (i_defs c) (dset (i_sects c) n [])).
  assert (A : assign_section c n ((k, v) :: kvs) = (c', Some EValueError)).
  { unfold assign_section, clear_section. destruct (eqb n default_section) eqn:X; [apply (proj1 (eqb_iff _ _)) in X; now apply Nd in X|]. cbn [read_dict]. change (smem [] (PnmsModel.lower k)) with false. cbv iota. unfold set_option. rewrite Sv. reflexivity. }
  exists (set_parser w (h_parser h) c'), c'. split; [|split].
  - cbn [step]. unfold with_handle, with_parser, parser. rewrite Hh, Hp, A. reflexivity.
  - exists h. split; [exact Hh|]. cbn [set_parser set_parsers w_parsers]. rewrite nth_replace, Nat.eqb_refl, Hp. reflexivity.
  - unfold c'. cbn [i_sects]. apply dget_dset_same.
Qed.
Print Assumptions C62_assign_refuted.

(** ** Creation *)
(** An open with overwrite leaves only the first line, whatever the file was,
    (refuted: a handle for reading changes nothing) even one for reading, and
    even if the open fails. *)
Theorem C62_overwrite_refuted w id a loc s date l : a = Read \/ a = Write -> where_ w loc = Fine (Some l) ->
  text_at (fst (step w (OOpen id a Overwrite loc s date))) (path_of l id) = Some (greeting id date).
Proof.
  intros Ha L. assert (T : forall w1, w_files w1 = dset (w_files w) (path_of l id) (greeting id date, w_now w) -> text_at w1 (path_of l id) = Some (greeting id date)) by (intros w1 E; unfold text_at; now rewrite E, dget_dset_same).
  cbn [step]. unfold open_file. destruct Ha as [-> | ->]; rewrite L; cbv zeta; cbn [put_file w_files]; rewrite dget_dset_same; destruct (load (greeting id date) s) as [c [e|]]; apply T; reflexivity.
Qed.
Print Assumptions C62_overwrite_refuted.
(** A new file has the sections of the spec and no others; a file that is there is kept. *)
Theorem C62_create w id a cr loc s date l c : a = Read \/ a = Write -> where_ w loc = Fine (Some l) -> ~ In 10 id -> ~ In 13 id -> ~ In 10 date -> ~ In 13 date ->
  cr = Overwrite \/ cr = IfNeeded /\ exists_path w (path_of l id) = false -> add_spec (Ini [] []) s = (c, None) ->
  exists w' j, step w (OOpen id a cr loc s date) = (w', Fine (VHandle j)) /\ holds w' j c.
Proof.
  intros Ha L I1 I2 D1 D2 Hc Es.
  assert (G : load (greeting id date) s = (c, None)).
  { unfold load. assert (R : read_text (greeting id date) = (Ini [] [], None)).
    { set (line := lit "# Playground Config " ++ id ++ lit " Created " ++ date). assert (E : greeting id date = unlines [line; []]) by (unfold greeting, unlines, line; cbn [flat_map]; rewrite <- !app_assoc; reflexivity).
      assert (L10 : ~ In 10 line) by (unfold line; intro X; apply in_app_or in X as [X|X]; [vm_compute in X; intuition discriminate|]; apply in_app_or in X as [X|X]; [contradiction|]; apply in_app_or in X as [X|X]; [vm_compute in X; intuition discriminate|contradiction]).
      assert (L13 : ~ In 13 line) by (unfold line; intro X; apply in_app_or in X as [X|X]; [vm_compute in X; intuition discriminate|]; apply in_app_or in X as [X|X]; [contradiction|]; apply in_app_or in X as [X|X]; [vm_compute in X; intuition discriminate|contradiction]).
      unfold read_text. rewrite E, newlines_id, file_lines_unlines.
      - cbn [read_lines]. assert (Cm : comment (trim line) = true).
        { unfold trim, line. change (lit "# Playground Config " ++ id ++ lit " Created " ++ date) with (35 :: (lit " Playground Config " ++ id ++ lit " Created " ++ date)). set (r := lit " Playground Config " ++ id ++ lit " Created " ++ date). clearbody r. cbn [trim_l]. change (white 35) with false. cbv iota.
          destruct (trim_r_split (35 :: r)) as (u & Eu & Au). destruct (trim_r (35 :: r)) as [|z zs]; [cbn in Eu; subst u; inversion Au; discriminate|]. injection Eu as <- _. reflexivity. }
        unfold read_line at 1. rewrite Cm. reflexivity.
      - repeat constructor; [exact L10|intros []].
      - unfold unlines. cbn [flat_map]. rewrite app_nil_r. intro X. apply in_app_or in X as [X|X]; [apply in_app_or in X as [X|[X|[]]]; [contradiction|discriminate]|]. destruct X as [X|[]]; discriminate. }
    now rewrite R. }
  cbn [step]. unfold open_file.
  assert (B : match cr with IfNeeded => negb (exists_path w (path_of l id)) | Overwrite => true | _ => false end = true) by (destruct Hc as [-> | [-> X]]; [reflexivity|now rewrite X]).
  assert (Ncr : cr <> OtherCreation) by (destruct Hc as [-> | [-> _]]; discriminate).
  destruct Ha as [-> | ->]; (destruct cr; try congruence); rewrite L; cbv zeta; rewrite ?B; cbn [put_file w_files w_handles w_parsers w_home w_search w_dirs w_now]; rewrite dget_dset_same, G; eexists _, _; (split; [reflexivity|]); unfold holds; cbn [w_handles w_parsers]; eexists; (split; [rewrite nth_error_app2, Nat.sub_diag by lia; reflexivity|]); cbn [h_parser]; rewrite nth_error_app2, Nat.sub_diag by lia; reflexivity.
Qed.
Print Assumptions C62_create.
Theorem C62_missing w id a loc s date l : where_ w loc = Fine (Some l) -> text_at w (path_of l id) = None -> step w (OOpen id a NoCreate loc s date) = (w, Fail EException).
Proof. intros L T. cbn [step]. unfold open_file, text_at in *. destruct (dget (w_files w) (path_of l id)) as [[t tm]|] eqn:D; [discriminate|]. destruct a; try reflexivity; rewrite L; cbv zeta; now rewrite D. Qed.
Print Assumptions C62_missing.

(** ** Reloading *)
(** While the file was not written since the handle was opened, reload keeps everything. *)
Theorem C62_reload_keeps w i h t tm : nth_error (w_handles w) i = Some h -> dget (w_files w) (h_path h) = Some (t, tm) -> tm <= h_time h -> step w (OReload i false) = (w, Fine VNone).
Proof. intros H D L. cbn [step]. unfold with_handle, reload. rewrite H, D. assert (h_time h <? tm = false) as -> by (apply Z.ltb_ge; exact L). reflexivity. Qed.
Print Assumptions C62_reload_keeps.
(** (refuted: reload only brings in what others wrote) After the handle's own
    save, once the clock has moved, reload drops whatever was set since. *)
Theorem C62_reload_drops_refuted home inst files dirs now os1 i h c w1 os2 c' : Forall op_ok os1 -> let w := run (world0 home inst files dirs now) os1 in
  nth_error (w_handles w) i = Some h -> holds w i c -> h_time h < w_now w -> step w (OSave i) = (w1, Fine VNone) -> quiet w1 os2 (h_path h) ->
  add_spec c (h_spec h) = (c', None) -> exists w', step (run w1 os2) (OReload i false) = (w', Fine VNone) /\ holds w' i c'.
Proof.
  intros F w Hh Hc Lt Sv Q Es. assert (P : storable c).
  { destruct Hc as (h' & _ & Hp). apply (as_parsers w) in Hp; [exact Hp|]. apply run_storable; [exact F|apply storable0]. }
  cbn [step] in Sv. unfold with_handle in Sv. rewrite Hh in Sv. unfold save in Sv. destruct (h_access h); try discriminate. destruct Hc as (h' & Hh' & Hp). rewrite Hh in Hh'. injection Hh' as <-.
  unfold parser in Sv. rewrite Hp in Sv. injection Sv as <-.
  assert (D : dget (w_files (run (put_file w (h_path h) (write_text c)) os2)) (h_path h) = Some (write_text c, w_now w)).
  { rewrite (quiet_files os2 _ _ Q). cbn [put_file w_files]. apply dget_dset_same. }
  set (w2 := run (put_file w (h_path h) (write_text c)) os2) in *.
  destruct (run_handles os2 (put_file w (h_path h) (write_text c)) i h Hh) as (h2 & H2 & (E1 & E2 & E3 & E4)). fold w2 in H2.
  cbn [step]. unfold with_handle, reload. rewrite H2, E2, D, E4. assert (h_time h <? w_now w = true) as -> by (now apply Z.ltb_lt). cbn [orb]. cbv zeta. rewrite E3, (load_written c _ P), Es.
  eexists. split; [reflexivity|]. unfold holds. cbn [set_handle set_parsers w_handles w_parsers]. eexists. split; [rewrite nth_replace, Nat.eqb_refl, H2; reflexivity|]. cbn [h_parser]. rewrite nth_error_app2, Nat.sub_diag by lia. reflexivity.
Qed.
Print Assumptions C62_reload_drops_refuted.
(** (refuted: a section goes on being the handle's) A section taken before a
    reload that read the file is another one: what is set there is never saved. *)
Theorem C62_stale_refuted w i h c w1 n k v : nth_error (w_handles w) i = Some h -> holds w i c -> step w (OReload i true) = (w1, Fine VNone) ->
  forall c1, holds w1 i c1 -> holds (fst (step w1 (OSet (h_parser h) n k v))) i c1.
Proof.
  intros Hh (h' & Hh' & Hp) R c1 (h1 & H1 & P1). rewrite Hh in Hh'. injection Hh' as <-. cbn [step] in R. unfold with_handle, reload in R. rewrite Hh in R.
  destruct (dget (w_files w) (h_path h)) as [[t tm]|]; [|discriminate]. rewrite orb_true_r in R. cbv zeta in R. destruct (load t (h_spec h)) as [c0 [e|]]; [discriminate|]. injection R as <-.
  cbn [set_handle set_parsers w_handles w_parsers] in H1, P1. rewrite nth_replace, Nat.eqb_refl, Hh in H1. injection H1 as <-. cbn [h_parser] in P1.
  assert (Lt : (h_parser h < List.length (w_parsers w))%nat) by (apply nth_error_Some; congruence).
  set (w1 := set_handle _ _ _). assert (Hw : nth_error (w_handles w1) i = Some (Handle (h_access h) (h_path h) (h_spec h) (h_time h) (List.length (w_parsers w)))) by (unfold w1; cbn [set_handle set_parsers w_handles]; rewrite nth_replace, Nat.eqb_refl, Hh; reflexivity).
  assert (Pw : nth_error (w_parsers w1) (List.length (w_parsers w)) = Some (Some c1)) by exact P1. clearbody w1.
  cbn [step]. unfold with_parser. destruct (parser w1 (h_parser h)) as [cx|]; [|eexists; split; [exact Hw|exact Pw]]. unfold update. destruct (set_option cx n k v) as [cy|]; [|eexists; split; [exact Hw|exact Pw]].
  eexists. split; [exact Hw|]. cbn [fst set_parser set_parsers w_parsers h_parser]. rewrite nth_replace. destruct (Nat.eqb_spec (h_parser h) (List.length (w_parsers w))); [lia|exact Pw].
Qed.
Print Assumptions C62_stale_refuted.

(** ** Two handles, and crashes *)
Lemma save_step w i h c : nth_error (w_handles w) i = Some h -> h_access h = Write -> nth_error (w_parsers w) (h_parser h) = Some (Some c) -> step w (OSave i) = (put_file w (h_path h) (write_text c), Fine VNone).
Proof. intros H A P. cbn [step]. unfold with_handle, save, parser. now rewrite H, A, P. Qed.
Lemma set_step w i c n k v c' : nth_error (w_parsers w) i = Some (Some c) -> set_option c n k v = Fine c' -> step w (OSet i n k v) = (set_parser w i c', Fine VNone).
Proof. intros P E. cbn [step]. unfold with_parser, parser, update. now rewrite P, E. Qed.
(** (refuted: what was saved stays until it is changed) Of two handles on one
    file the second to save undoes what the first saved. *)
Theorem C62_lost_update_refuted w i1 i2 h1 h2 c (n : pystr) d k1 v1 k2 v2 :
  nth_error (w_handles w) i1 = Some h1 -> nth_error (w_handles w) i2 = Some h2 -> h_access h1 = Write -> h_access h2 = Write -> h_path h1 = h_path h2 -> h_parser h1 <> h_parser h2 ->
  holds w i1 c -> holds w i2 c -> dget (i_sects c) n = Some d -> n <> [] -> n <> lit "DEFAULT" -> settable v1 = true -> settable v2 = true -> storable c -> item_ok (PnmsModel.lower k2, v2) ->
  exists w', run w [OSet (h_parser h1) n k1 v1; OSave i1; OSet (h_parser h2) n k2 v2; OSave i2] = w' /\
    exists t, text_at w' (h_path h1) = Some t /\ read_text t = (Ini (i_defs c) (dset (i_sects c) n (dset d (PnmsModel.lower k2) v2)), None).
Proof.
  intros H1 H2 A1 A2 Ep Np (x1 & X1 & P1) (x2 & X2 & P2) D Nn Nd S1 S2 St I2. rewrite H1 in X1. injection X1 as <-. rewrite H2 in X2. injection X2 as <-.
  assert (is_default n = false) as Df. { unfold is_default. destruct n; [congruence|]. destruct (eqb _ default_section) eqn:X; [apply (proj1 (eqb_iff _ _)) in X; now apply Nd in X|reflexivity]. }
  set (c1 := Ini (i_defs c) (dset (i_sects c) n (dset d (PnmsModel.lower k1) v1))). set (c2 := Ini (i_defs c) (dset (i_sects c) n (dset d (PnmsModel.lower k2) v2))).
  assert (E1 : set_option c n k1 v1 = Fine c1) by (unfold set_option; now rewrite S1, Df, D). assert (E2 : set_option c n k2 v2 = Fine c2) by (unfold set_option; now rewrite S2, Df, D).
  eexists. split; [reflexivity|]. exists (write_text c2). split.
  - cbn [run]. rewrite (set_step w _ c n k1 v1 c1 P1 E1). cbn [fst]. set (wa := set_parser w (h_parser h1) c1).
    assert (Pa : nth_error (w_parsers wa) (h_parser h1) = Some (Some c1)) by (unfold wa; cbn [set_parser set_parsers w_parsers]; rewrite nth_replace, Nat.eqb_refl, P1; reflexivity).
    assert (Pb : nth_error (w_parsers wa) (h_parser h2) = Some (Some c)) by (unfold wa; cbn [set_parser set_parsers w_parsers]; rewrite nth_replace; destruct (Nat.eqb_spec (h_parser h1) (h_parser h2)); [contradiction|exact P2]).
    assert (Ha : w_handles wa = w_handles w) by reflexivity. clearbody wa.
    rewrite (save_step wa i1 h1 c1) by (try rewrite Ha; assumption). cbn [fst]. set (wb := put_file wa _ _).
    rewrite (set_step wb (h_parser h2) c n k2 v2 c2 Pb E2). cbn [fst]. set (wc := set_parser wb _ _).
    assert (Pc : nth_error (w_parsers wc) (h_parser h2) = Some (Some c2)) by (unfold wc; cbn [set_parser set_parsers w_parsers]; rewrite nth_replace, Nat.eqb_refl; unfold wb; cbn [put_file w_parsers]; rewrite Pb; reflexivity).
    assert (Hc : w_handles wc = w_handles w) by (unfold wc, wb; cbn [set_parser set_parsers put_file w_handles]; exact Ha). clearbody wc.
    rewrite (save_step wc i2 h2 c2) by (try rewrite Hc; assumption). cbn [fst]. unfold text_at. cbn [put_file w_files]. rewrite Ep, dget_dset_same. reflexivity.
  - apply read_write. apply (storable_set c n k2 v2 c2 St I2 E2).
Qed.
Print Assumptions C62_lost_update_refuted.
(** (refuted: a crash during save leaves the old configuration or the new one)
    It can leave none, which reads without an error, *)
Theorem C62_crash_refuted w h c : parser w (h_parser h) = Fine c ->
  exists t, text_at (crashed_save w h 0) (h_path h) = Some t /\ read_text t = (Ini [] [], None).
Proof.
  intro P. exists []. split; [|reflexivity]. unfold crashed_save. rewrite P. unfold text_at. cbn [put_file w_files firstn]. now rewrite dget_dset_same.
Qed.
Print Assumptions C62_crash_refuted.
(** or one with a value cut short, which no one wrote. *)
Theorem C62_crash_cut_refuted w h d ss n os k a x b : let c v := Ini d (ss ++ [(n, os ++ [(k, v)])]) in
  storable (c (a ++ [x])) -> ~ In 10 (a ++ [x]) -> parser w (h_parser h) = Fine (c ((a ++ [x]) ++ b)) ->
  exists m t, text_at (crashed_save w h m) (h_path h) = Some t /\ read_text t = (c (a ++ [x]), None).
Proof.
  intros c St N P. unfold c in *. set (pre := write_text (Ini d ss) ++ (lit "[" ++ n ++ lit "]" ++ [10] ++ flat_map write_item os ++ k ++ lit " = ")).
  assert (TA : forall v, ~ In 10 v -> forall u, tab_lines (v ++ u) = v ++ tab_lines u).
  { intros v. induction v as [|y v IH]; intros Hv u; [reflexivity|]. cbn [app]. unfold tab_lines in *. cbn [flat_map]. assert (y =? 10 = false) as -> by (apply Z.eqb_neq; intro Q; apply Hv; now left). cbn [app]. f_equal. apply IH. intro Q. apply Hv. now right. }
  assert (W : forall v, write_text (Ini d (ss ++ [(n, os ++ [(k, v)])])) = pre ++ tab_lines v ++ [10; 10]) by (intro v; rewrite write_last; unfold pre; rewrite <- !app_assoc; reflexivity).
  exists (List.length (pre ++ a ++ [x])), (pre ++ a ++ [x]). split.
  - unfold crashed_save. rewrite P. unfold text_at. cbn [put_file w_files]. rewrite dget_dset_same. f_equal. rewrite W, (TA _ N b). assert (F : forall p q : pystr, firstn (List.length p) (p ++ q) = p) by (intros p q; rewrite firstn_app, Nat.sub_diag, firstn_all; apply app_nil_r). transitivity (firstn (List.length (pre ++ a ++ [x])) ((pre ++ a ++ [x]) ++ (tab_lines b ++ [10; 10]))); [clearbody pre; now rewrite <- !app_assoc|apply F].
  - assert (R : read_text (write_text (Ini d (ss ++ [(n, os ++ [(k, a ++ [x])])]))) = (Ini d (ss ++ [(n, os ++ [(k, a ++ [x])])]), None)) by (now apply read_write).
    pose proof (write_no_cr _ St) as Cr. rewrite W in R, Cr. pose proof (TA _ N []) as T0. rewrite app_nil_r in T0. cbn [tab_lines flat_map] in T0. rewrite app_nil_r in T0. rewrite T0 in R, Cr.
    rewrite app_assoc. apply read_cut.
    + intro Q. apply N. apply in_or_app. right. now left.
    + intro Q. apply Cr. rewrite app_assoc. apply in_or_app. left. now rewrite app_assoc.
    + rewrite <- !app_assoc in *. exact R.
Qed.
Print Assumptions C62_crash_cut_refuted.

(** ** Examples *)
Definition ex_user := lit "/home/u/.playground".
Definition ex_w0 := world0 (lit "/home/u") None [] [ex_user] 100.
Definition ex_spec : spec := [(lit "net", [(lit "Host", lit "h1")])].
Definition ex_ops := [OOpen (lit "app.conf") Write IfNeeded None ex_spec (lit "today"); OTick 5; OSet 0 (lit "net") (lit "Port") (lit "80%%"); OSet 0 (lit "net") (lit "url") (lit "%(host)s:%(PORT)s"); OSave 0].
(** the user's directory is found, the file is made there *)
Example ex_dir : step ex_w0 OCurrentPath = (ex_w0, Fine (VPath (Some ex_user))).
Proof. vm_compute. reflexivity. Qed.
Example ex_created : text_at (run ex_w0 (firstn 1 ex_ops)) (lit "/home/u/.playground/app/conf.ini") = Some (lit "# Playground Config app.conf Created today" ++ [10; 10]).
Proof. vm_compute. reflexivity. Qed.
Example ex_saved : text_at (run ex_w0 ex_ops) (lit "/home/u/.playground/app/conf.ini") = Some (lit "[net]" ++ [10] ++ lit "host = h1" ++ [10] ++ lit "port = 80%%" ++ [10] ++ lit "url = %(host)s:%(PORT)s" ++ [10; 10]).
Proof. vm_compute. reflexivity. Qed.
(** another handle reads it, with the references replaced *)
Example ex_read : let w := run ex_w0 (ex_ops ++ [OOpen (lit "app.conf") Read NoCreate (Some (lit "~/x")) [] []; OOpen (lit "app.conf") Read NoCreate None [] []]) in
  List.length (w_handles w) = 2%nat /\ snd (step w (OGet 1 (lit "net") (lit "URL"))) = Fine (VText (lit "h1:80%")) /\ snd (step w (OSave 1)) = Fail EException.
Proof. vm_compute. repeat split. Qed.
Lemma item_by kv : read_text (write_text (Ini [kv] [])) = (Ini [kv] [], None) -> item_ok kv.
Proof. intro E. apply read_storable in E. destruct (s_defs _ E) as [_ F]. now inversion F. Qed.
Example ex_ops_ok : Forall op_ok ex_ops.
Proof.
  unfold ex_ops. repeat (apply Forall_cons || apply Forall_nil); cbn [op_ok]; try exact Logic.I; try (apply item_by; vm_compute; reflexivity).
  intros n kvs [E|[]]. injection E as <- <-. split.
  - left. split; [discriminate|vm_compute; discriminate|vm_compute; intuition discriminate|vm_compute; intuition discriminate].
  - intros k v [E|[]]. injection E as <- <-. apply item_by. vm_compute. reflexivity.
Qed.
(** a crash that cuts "8080" to "80" *)
Example ex_crash : let w := run ex_w0 [OOpen (lit "a") Write IfNeeded None [(lit "net", [(lit "port", lit "8080")])] []] in
  forall h, nth_error (w_handles w) 0 = Some h -> exists t, text_at (crashed_save w h 15) (h_path h) = Some t /\ read_text t = (Ini [] [(lit "net", [(lit "port", lit "80")])], None).
Proof. intros w h H. vm_compute in H. injection H as <-. eexists. split; vm_compute; reflexivity. Qed.
Example ex_plain : plain_id (lit "app.conf").
Proof. split; [vm_compute; intuition discriminate|]. intros p H E. subst p. vm_compute in H. intuition discriminate. Qed.
Example ex_custom : places (Some (lit "/i")) [OAddCustomPath (lit "A") (lit "/a"); OAddCustomPath (lit "USER") (lit "/b"); OAddCustomPath (lit "A") (lit "/c"); OAddCustomPath (lit "B") (lit "/d")]
  = [lit "/d"; lit "/a"; lit "/i/.playground"; lit "~/.playground"; lit "/var/playground"].
Proof. vm_compute. reflexivity. Qed.
(** after the save the clock has moved: a reload drops what was set since *)
Example ex_drop : let w := run ex_w0 (ex_ops ++ [OSet 0 (lit "net") (lit "port") (lit "81"); OReload 0 false; OSection 0 (lit "net")]) in
  snd (step w (OGet 1 (lit "net") (lit "port"))) = Fine (VText (lit "80%")).
Proof. vm_compute. reflexivity. Qed.
