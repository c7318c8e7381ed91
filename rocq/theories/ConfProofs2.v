(** * Configuration handles: where files are found, who writes them *)
From Coq Require Import String.
From Coq Require Import List ZArith Bool Lia.
From Verif Require Import PyBase PyLemmas PnmsModel IniModel IniSpec IniProofs IniProofs2 IniProofs3 ConfModel ConfSpec ConfProofs.
Import ListNotations.
Open Scope Z_scope.

(** ** The search *)
Definition std := [k_instance; k_user; k_system].
Record searches (inst : option pystr) (s : search) (done : list (pystr * pystr)) : Prop := {
  se_order : s_order s = map fst done ++ s_order (search0 inst);
  se_paths : forall id, dget (s_paths s) id = match dget done id with Some p => Some (Some p) | None => dget (s_paths (search0 inst)) id end;
  se_nodup : NoDup (dkeys done);
  se_std : forall id, In id std -> ~ In id (dkeys done)
}.
Lemma std_has inst (id : pystr) : dget (s_paths (search0 inst)) id <> None <-> In id std.
Proof.
  unfold search0, std. cbn [s_paths dget In]. destruct (eq_dec id k_instance) as [->|N1]; [split; [intros _; now left|discriminate]|].
  destruct (eq_dec id k_user) as [->|N2]; [split; [intros _; right; now left|discriminate]|]. destruct (eq_dec id k_system) as [->|N3]; [split; [intros _; right; right; now left|discriminate]|].
  split; [congruence|]. intros [X|[X|[X|[]]]]; congruence.
Qed.
Lemma searches_run inst os : forall w done, searches inst (w_search w) done -> searches inst (w_search (run w os)) (customs os done).
Proof.
  induction os as [|o os IH]; intros w done P; [exact P|]. cbn [run]. destruct (step_search w o) as [_ Q].
  assert (E : forall d, searches inst (w_search (fst (step w o))) d -> customs (o :: os) done = customs os d -> searches inst (w_search (run (fst (step w o)) os)) (customs (o :: os) done)) by (intros d A B; rewrite B; now apply IH).
  destruct (match o with OAddCustomPath _ _ => true | _ => false end) eqn:K.
  2:{ destruct Q as [Q|(id & p & -> & _)]; [|discriminate]. apply (E done); [now rewrite Q|destruct o; try reflexivity; discriminate]. }
  destruct o; try discriminate. clear K. cbn [customs]. cbn [step]. unfold add_custom_path.
  destruct P as [P1 P2 P3 P4].
  assert (H : dhas (s_paths (w_search w)) id = true <-> In id (map fst done ++ std)).
  { rewrite dhas_true, P2, in_app_iff, <- (std_has inst id). destruct (dget done id) as [v|] eqn:G.
    - split; [|eauto]. intros _. left. now apply dget_some_in_keys in G.
    - apply dget_none in G. split.
      + intros [v X]. right. congruence.
      + intros [X|X]; [contradiction|]. destruct (dget (s_paths (search0 inst)) id); [eauto|congruence]. }
  match goal with |- context [if ?x then customs _ _ else _] => destruct x as [I|I] end.
  - apply H in I. rewrite I. cbn [fst]. apply IH. now constructor.
  - destruct (dhas (s_paths (w_search w)) id) eqn:D; [exfalso; apply I, H; reflexivity|]. cbn [fst]. apply IH. unfold set_search. cbn [w_search]. rewrite in_app_iff in I. constructor.
    + cbn [s_order map fst app]. now rewrite P1.
    + intro id'. cbn [s_paths dget]. destruct (eq_dec id' id) as [->|N].
      * now rewrite dget_dset_same.
      * rewrite dget_dset_other by exact N. apply P2.
    + cbn [dkeys map fst]. constructor; [tauto|exact P3].
    + intros x X [Y|Y]; [cbn in Y; subst x; tauto|]. now apply (P4 x).
Qed.
Lemma there_iff w p : there w p <-> p <> [] /\ exists_path w p = true.
Proof.
  unfold there, exists_path. rewrite orb_true_iff, smem_true, dhas_in. split; intros [N H]; (split; [exact N|]); (destruct H as [H|H]; [left|now right]).
  - destruct H as [f H]. apply (in_map fst) in H. exact H.
  - unfold dkeys in H. apply in_map_iff in H as ([q f] & E & H). cbn in E. subst q. now exists f.
Qed.
Lemma first_path_there w ids ps : Forall2 (fun id p => config_path (w_home w) (w_search w) id = Fine p) ids ps ->
  exists r, first_path w ids = Fine r /\ first_there w ps r.
Proof.
  induction 1 as [|id p ids ps E F IH]; [exists None; split; [reflexivity|constructor]|]. destruct IH as (r & R & T). cbn [first_path]. rewrite E.
  destruct p as [|c p]; [exists r; split; [exact R|]; apply ft_later; [intros [N _]; congruence|exact T]|].
  destruct (exists_path w (c :: p)) eqn:X.
  - exists (Some (c :: p)). split; [reflexivity|]. apply ft_here, there_iff. now split.
  - exists r. split; [exact R|]. apply ft_later; [|exact T]. rewrite there_iff. intros [_ Y]. congruence.
Qed.
Lemma first_there_det w ps : forall r r', first_there w ps r -> first_there w ps r' -> r = r'.
Proof. induction ps as [|p ps IH]; intros r r' A B; inversion A; subst; inversion B; subst; try congruence; try contradiction. now apply IH. Qed.
Lemma run_home os : forall w, w_home (run w os) = w_home w.
Proof. induction os as [|o os IH]; intro w; [reflexivity|]. cbn [run]. rewrite IH. apply step_search. Qed.
Lemma order_paths inst home s done : searches inst s done ->
  Forall2 (fun id p => config_path home s id = Fine p) (s_order s) (map (expand_user home) (map snd done ++ match inst with Some d => [join1 d (lit ".playground")] | None => [] end ++ [lit "~/.playground"; lit "/var/playground"])).
Proof.
  intros [P1 P2 P3 P4]. rewrite P1, map_app. apply Forall2_app.
  - assert (G : forall l, (forall x, In x l -> In x done) -> Forall2 (fun id p => config_path home s id = Fine p) (map fst l) (map (expand_user home) (map snd l))).
    { induction l as [|[i p] l IH]; intro H; [constructor|]. cbn [map fst snd]. constructor; [|apply IH; intros x X; apply H; now right].
      unfold config_path. rewrite P2, (in_dget done i p P3 (H _ (or_introl eq_refl))). reflexivity. }
    apply G. auto.
  - assert (G : forall id, In id std -> dget (s_paths s) id = dget (s_paths (search0 inst)) id).
    { intros id X. rewrite P2. apply P4 in X. apply dget_none in X. now rewrite X. }
    assert (U : config_path home s k_user = Fine (expand_user home (lit "~/.playground"))) by (unfold config_path; rewrite G by (right; now left); reflexivity).
    assert (S1 : config_path home s k_system = Fine (expand_user home (lit "/var/playground"))) by (unfold config_path; rewrite G by (right; right; now left); reflexivity).
    destruct inst as [d|]; cbn [search0 s_order app map].
    + constructor; [unfold config_path; rewrite G by (now left); reflexivity|]. repeat constructor; assumption.
    + repeat constructor; assumption.
Qed.

(** ** Names and paths *)
Definition parts_ok (ps : list pystr) : Prop := Forall (fun p => p <> [] /\ ~ In slash p) ps.
Lemma ends_slash_app a b : b <> [] -> ends_slash (a ++ b) = ends_slash b.
Proof. intro N. induction a as [|x a IH]; [reflexivity|]. cbn [app ends_slash]. destruct (a ++ b) eqn:E; [destruct a, b; try discriminate; congruence|exact IH]. Qed.
Lemma ends_slash_no p : ~ In slash p -> ends_slash p = false.
Proof.
  induction p as [|x p IH]; intro H; [reflexivity|]. cbn [ends_slash]. destruct p as [|y p]; [apply Z.eqb_neq; intro E; apply H; now left|]. apply IH. intro X. apply H. now right.
Qed.
Lemma join1_part p b : p <> [] -> ends_slash p = false -> b <> [] -> ~ In slash b -> join1 p b = p ++ slash :: b.
Proof.
  intros Np E Nb Sb. destruct b as [|c b]; [congruence|]. cbn [join1]. assert (c =? slash = false) as -> by (apply Z.eqb_neq; intro X; apply Sb; now left).
  destruct p; [congruence|]. now rewrite E.
Qed.
Lemma join_parts ps : forall p, parts_ok ps -> p <> [] -> ends_slash p = false -> join_path p ps = p ++ flat_map (fun x => slash :: x) ps.
Proof.
  unfold join_path. induction ps as [|b ps IH]; intros p F N E; cbn [fold_left flat_map]; [now rewrite app_nil_r|]. inversion F as [|? ? [Nb Sb] F']; subst. rewrite (join1_part p b N E Nb Sb).
  rewrite IH; [|exact F'|destruct p; discriminate|].
  - now rewrite <- app_assoc.
  - change (slash :: b) with ([slash] ++ b). rewrite app_assoc. rewrite ends_slash_app by exact Nb. now apply ends_slash_no.
Qed.
(** a location that ends with a slash *)
Lemma join_any_loc loc b ps : parts_ok (b :: ps) -> loc <> [] -> join_path loc (b :: ps) = (if ends_slash loc then loc else loc ++ [slash]) ++ b ++ flat_map (fun x => slash :: x) ps.
Proof.
  intros F N. inversion F as [|? ? [Nb Sb] F']; subst. change (join_path loc (b :: ps)) with (join_path (join1 loc b) ps).
  assert (J : join1 loc b = (if ends_slash loc then loc else loc ++ [slash]) ++ b).
  { destruct b as [|c b]; [congruence|]. cbn [join1]. assert (c =? slash = false) as -> by (apply Z.eqb_neq; intro X; apply Sb; now left).
    destruct loc; [congruence|]. destruct (ends_slash _); [reflexivity|]. now rewrite <- app_assoc. }
  rewrite join_parts, J, <- app_assoc; [reflexivity|exact F'| |].
  - rewrite J. destruct b; [congruence|]. destruct (if ends_slash loc then _ else _); discriminate.
  - rewrite J, ends_slash_app by exact Nb. now apply ends_slash_no.
Qed.

(** ** Who writes a file *)
Lemma replace_length {A} n (l : list A) x : List.length (replace n l x) = List.length l.
Proof. revert n. induction l as [|y l IH]; intros [|n]; cbn; congruence. Qed.
Lemma nth_replace {A} (l : list A) x : forall n k, nth_error (replace n l x) k = if Nat.eqb n k then match nth_error l k with Some _ => Some x | None => None end else nth_error l k.
Proof.
  induction l as [|y l IH]; intros [|n] [|k]; cbn; try reflexivity; [now destruct (Nat.eqb n k)|apply IH].
Qed.
Lemma exists_text w p : exists_path w p = false -> text_at w p = None.
Proof. unfold exists_path, text_at. rewrite orb_false_iff, dhas_false. now intros [-> _]. Qed.
Lemma step_files w o p : dget (w_files (fst (step w o))) p = dget (w_files w) p \/ writes w o p.
Proof.
  assert (WP : forall i k, (forall c, dget (w_files (fst (k c))) p = dget (w_files w) p) -> dget (w_files (fst (with_parser w i k))) p = dget (w_files w) p) by (intros i k H; unfold with_parser; destruct (parser w i); [apply H|reflexivity]).
  assert (WH : forall i k, (forall h, dget (w_files (fst (k h))) p = dget (w_files w) p) -> dget (w_files (fst (with_handle w i k))) p = dget (w_files w) p) by (intros i k H; unfold with_handle; destruct (nth_error _ i); [apply H|reflexivity]).
  assert (UP : forall i r, dget (w_files (fst (update w i r))) p = dget (w_files w) p) by (intros i [c|e]; reflexivity).
  destruct o; cbn [step writes]; try (now left).
  - cbn [fst put_file w_files]. destruct (eq_dec p0 p) as [->|N]; [now right|left]. apply dget_dset_other. congruence.
  - cbn [fst w_files]. destruct (eq_dec p0 p) as [->|N]; [now right|left]. apply dget_ddel_other. congruence.
  - left. destruct (add_custom_path _ id path); reflexivity.
  - unfold open_file.
    assert (G : forall w1 l, dget (w_files w1) p = dget (w_files w) p -> dget (w_files (fst (match dget (w_files w1) (path_of l identifier) with
      | None => (w1, Fail EException)
      | Some (text, _) => match load text s with
          | (c, None) => (World (w_home w1) (w_search w1) (w_files w1) (w_dirs w1) (w_now w1) (w_parsers w1 ++ [Some c]) (w_handles w1 ++ [Handle a (path_of l identifier) s (w_now w1) (List.length (w_parsers w1))]), Fine (VHandle (List.length (w_handles w1))))
          | (_, Some e) => (w1, Fail e) end end))) p = dget (w_files w) p).
    { intros w1 l E. destruct (dget (w_files w1) (path_of l identifier)) as [[t tm]|]; [|exact E]. destruct (load t s) as [c [e|]]; exact E. }
    destruct a; try (now left); (destruct cr; [| | |now left]); (destruct (where_ w location) as [[l|]|e] eqn:L; try (now left)); cbv zeta.
    1,4: left; now apply G.
    1,3: destruct (eq_dec (path_of l identifier) p) as [E|N]; [right; exists l; auto|left; apply G; cbn [put_file w_files]; apply dget_dset_other; congruence].
    1,2: destruct (exists_path w (path_of l identifier)) eqn:X; cbn [negb]; [left; now apply G|]; (destruct (eq_dec (path_of l identifier) p) as [E|N]; [right; exists l; split; [reflexivity|]; split; [exact E|]; right; split; [reflexivity|]; rewrite <- E; now apply exists_text|left; apply G; cbn [put_file w_files]; apply dget_dset_other; congruence]).
  - left. apply WH. intro hd. unfold reload. destruct (dget (w_files w) (h_path hd)) as [[t tm]|]; [|reflexivity]. destruct (_ || _); [|reflexivity]. cbv zeta. destruct (load t _) as [c [e|]]; reflexivity.
  - unfold with_handle. destruct (nth_error (w_handles w) h) as [hd|] eqn:N; [|now left]. unfold save. destruct (h_access hd) eqn:A; try (now left). destruct (parser w _); [|now left].
    cbn [fst put_file w_files]. destruct (eq_dec (h_path hd) p) as [E|Np]; [right; eauto|left; apply dget_dset_other; congruence].
  - left. apply WH. intro hd. reflexivity.
  - left. apply WH. intro hd. apply WP. intro c. reflexivity.
  - left. apply WH. intro hd. apply WP. intro c. destruct (assign_section c n kvs) as [c' [e|]]; reflexivity.
  - left. apply WH. intro hd. apply WP. intro c. reflexivity.
  - left. apply WH. intro hd. apply WP. intro c. apply UP.
  - left. apply WP. intro c. reflexivity.
  - left. apply WP. intro c. reflexivity.
  - left. apply WP. intro c. apply UP.
  - left. apply WP. intro c. apply UP.
Qed.
Lemma quiet_files os p : forall w, quiet w os p -> dget (w_files (run w os)) p = dget (w_files w) p.
Proof.
  induction os as [|o os IH]; intros w Q; [reflexivity|]. destruct Q as [N Q]. cbn [run]. rewrite (IH _ Q). destruct (step_files w o p) as [E|X]; [exact E|contradiction].
Qed.
