(** * Configuration handles: what they hold can be saved *)
From Coq Require Import String.
From Coq Require Import List ZArith Bool Lia.
From Verif Require Import PyBase PyLemmas PnmsModel IniModel IniSpec IniProofs IniProofs2 IniProofs3 ConfModel ConfSpec ConfProofs ConfProofs2.
Import ListNotations.
Open Scope Z_scope.

Lemma lower_lower k : lower (lower k) = lower k.
Proof. apply lower_id. intros c X. rewrite lower_low in X. apply in_map_iff in X as (x & <- & _). apply low_range. Qed.
Lemma options_set (d : dict pystr pystr) (k v : pystr) : options_ok d -> item_ok (k, v) -> options_ok (dset d k v).
Proof. intros [A B] I. split; [now apply (nodup_dset d k v)|now apply Forall_dset]. Qed.
Lemma options_del (d : dict pystr pystr) (k : pystr) : options_ok d -> options_ok (ddel d k).
Proof.
  intros [A B]. split; [now apply (nodup_ddel d k)|]. rewrite Forall_forall in *. intros x X. apply (in_ddel d k x A) in X as [X _]. now apply B.
Qed.
Lemma options_nil : options_ok [].
Proof. split; constructor. Qed.
Lemma storable_defs c d : storable c -> options_ok d -> storable (Ini d (i_sects c)).
Proof. intros [A B C] O. now constructor. Qed.
Lemma storable_sect c (n : pystr) d : storable c -> name_ok n -> options_ok d -> storable (Ini (i_defs c) (dset (i_sects c) n d)).
Proof.
  intros [A [B1 B2] C] N O. constructor; cbn [i_defs i_sects]; [exact A| |now apply (Forall_dset (fun s => options_ok (snd s)))].
  split; [now apply (nodup_dset (i_sects c) n d)|now apply (Forall_dset (fun s : pystr * dict pystr pystr => name_ok (fst s)))].
Qed.
Lemma storable_get c (n : pystr) d : storable c -> dget (i_sects c) n = Some d -> name_ok n /\ options_ok d.
Proof. intros [A [B1 B2] C] G. apply dget_in in G. rewrite Forall_forall in B2, C. split; [exact (B2 _ G)|exact (C _ G)]. Qed.
Lemma storable_set c n k v c' : storable c -> item_ok (lower k, v) -> set_option c n k v = Fine c' -> storable c'.
Proof.
  intros P I E. unfold set_option in E. destruct (settable v); cbn [negb] in E; [|discriminate]. destruct (is_default n).
  - injection E as <-. apply storable_defs; [exact P|]. apply options_set; [apply P|exact I].
  - destruct (dget (i_sects c) n) as [d|] eqn:G; [|discriminate]. injection E as <-. destruct (storable_get c n d P G) as [N O]. apply storable_sect; [exact P|exact N|now apply options_set].
Qed.
Lemma storable_del_option c n k c' : storable c -> del_option c n k = Fine c' -> storable c'.
Proof.
  intros P E. unfold del_option in E. destruct (has_option c n k); cbn [negb] in E; [|discriminate]. destruct (is_default n).
  - injection E as <-. apply storable_defs; [exact P|]. apply options_del, P.
  - destruct (dget (i_sects c) n) as [d|] eqn:G; [|discriminate]. destruct (dhas d (lower k)); [|discriminate]. injection E as <-. destruct (storable_get c n d P G) as [N O]. apply storable_sect; [exact P|exact N|now apply options_del].
Qed.
Lemma storable_del_section c n c' : storable c -> del_section c n = Fine c' -> storable c'.
Proof.
  intros [A [B1 B2] C] E. unfold del_section in E. destruct (eqb n default_section); [discriminate|]. destruct (dhas (i_sects c) n); [|discriminate]. injection E as <-.
  constructor; cbn [i_defs i_sects]; [exact A| |].
  - split; [now apply (nodup_ddel (i_sects c) n)|]. rewrite Forall_forall in *. intros x X. apply (in_ddel (i_sects c) n x B1) in X as [X _]. now apply B2.
  - rewrite Forall_forall in *. intros x X. apply (in_ddel (i_sects c) n x B1) in X as [X _]. now apply C.
Qed.
Lemma storable_dict n kvs : forall c seen, storable c -> keeps kvs -> storable (fst (read_dict c n seen kvs)).
Proof.
  induction kvs as [|[k v] r IH]; intros c seen P K; [exact P|]. cbn [read_dict]. destruct (smem seen (lower k)); [exact P|]. destruct (set_option c n (lower k) v) as [c'|e] eqn:E; [|exact P].
  apply IH; [|intros k' v' X; apply K; now right]. apply (storable_set _ _ _ _ _ P) in E; [exact E|]. rewrite lower_lower. apply K. now left.
Qed.
Lemma storable_assign c n kvs : storable c -> section_name n -> keeps kvs -> storable (fst (assign_section c n kvs)).
Proof.
  intros P N K. unfold assign_section. apply storable_dict; [|exact K]. unfold clear_section, eqb. destruct (eq_dec n default_section) as [E|E].
  - apply storable_defs; [exact P|apply options_nil].
  - destruct N as [N|N]; [|now destruct (E N)]. apply storable_sect; [exact P|exact N|apply options_nil].
Qed.
Definition spec_ok (s : spec) : Prop := forall n kvs, In (n, kvs) s -> section_name n /\ keeps kvs.
Lemma storable_spec s : forall c, storable c -> spec_ok s -> storable (fst (add_spec c s)).
Proof.
  induction s as [|[n kvs] s IH]; intros c P K; [exact P|]. assert (K' : spec_ok s) by (intros a b X; apply K; now right). cbn [add_spec]. destruct (has_section c n); [now apply IH|].
  destruct (K n kvs (or_introl eq_refl)) as [N Kv]. pose proof (storable_assign c n kvs P N Kv) as Q. destruct (assign_section c n kvs) as [c' [e|]]; [exact Q|now apply IH].
Qed.
Lemma storable_load t s c : spec_ok s -> load t s = (c, None) -> storable c.
Proof.
  intros K E. unfold load in E. destruct (read_text t) as [c0 [e|]] eqn:R; [discriminate|]. apply read_storable in R. apply (storable_spec s) in R; [|exact K]. now rewrite E in R.
Qed.
Record all_storable (w : world) : Prop := {
  as_parsers : forall i c, nth_error (w_parsers w) i = Some (Some c) -> storable c;
  as_specs : forall i h, nth_error (w_handles w) i = Some h -> spec_ok (h_spec h)
}.
Lemma nth_snoc {A} (l : list A) x i y : nth_error (l ++ [x]) i = Some y -> nth_error l i = Some y \/ y = x /\ i = List.length l.
Proof.
  intro H. destruct (Nat.lt_ge_cases i (List.length l)) as [L|L]; [rewrite nth_error_app1 in H by exact L; now left|]. rewrite nth_error_app2 in H by exact L.
  destruct (i - List.length l)%nat as [|k] eqn:D; [right; cbn in H; split; [congruence|lia]|]. cbn in H. destruct k; discriminate.
Qed.
Lemma as_set_parser w i c : all_storable w -> storable c -> all_storable (set_parser w i c).
Proof.
  intros [A B] P. constructor; [|exact B]. intros k c' H. cbn [set_parser set_parsers w_parsers] in H. rewrite nth_replace in H. destruct (Nat.eqb i k); [|now apply (A k)]. destruct (nth_error (w_parsers w) k); [|discriminate]. now injection H as <-.
Qed.
Lemma parser_some w i c : parser w i = Fine c -> nth_error (w_parsers w) i = Some (Some c).
Proof. unfold parser. destruct (nth_error _ i) as [[x|]|]; intro H; try discriminate. now injection H as ->. Qed.
Lemma step_storable w o : op_ok o -> all_storable w -> all_storable (fst (step w o)).
Proof.
  intros K P. pose proof P as [A B].
  assert (WP : forall i k, (forall c, storable c -> all_storable (fst (k c))) -> all_storable (fst (with_parser w i k))).
  { intros i k H. unfold with_parser. destruct (parser w i) as [c|] eqn:E; [|exact P]. apply H. apply parser_some in E. now apply (A i). }
  assert (WH : forall i k, (forall h, nth_error (w_handles w) i = Some h -> all_storable (fst (k h))) -> all_storable (fst (with_handle w i k))).
  { intros i k H. unfold with_handle. destruct (nth_error _ i) as [h|] eqn:E; [now apply H|exact P]. }
  assert (UP : forall i r, (forall c, r = Fine c -> storable c) -> all_storable (fst (update w i r))) by (intros i [c|e] H; [apply as_set_parser; auto|exact P]).
  destruct o; cbn [step op_ok] in *; try exact P; try (now constructor).
  - destruct (add_custom_path _ id path); [now constructor|exact P].
  - assert (G : forall w1 l, all_storable w1 -> all_storable (fst (match dget (w_files w1) (path_of l identifier) with
      | None => (w1, Fail EException)
      | Some (text, _) => match load text s with
          | (c, None) => (World (w_home w1) (w_search w1) (w_files w1) (w_dirs w1) (w_now w1) (w_parsers w1 ++ [Some c]) (w_handles w1 ++ [Handle a (path_of l identifier) s (w_now w1) (List.length (w_parsers w1))]), Fine (VHandle (List.length (w_handles w1))))
          | (_, Some e) => (w1, Fail e) end end))).
    { intros w1 l [A1 B1]. destruct (dget (w_files w1) (path_of l identifier)) as [[t tm]|]; [|now constructor]. destruct (load t s) as [c [e|]] eqn:L; [now constructor|]. apply storable_load in L; [|exact K]. constructor; cbn [fst w_parsers w_handles].
      - intros i c' H. apply nth_snoc in H as [H|[H _]]; [now apply (A1 i)|]. now injection H as ->.
      - intros i h H. apply nth_snoc in H as [H|[H _]]; [now apply (B1 i)|]. now rewrite H. }
    assert (PF : forall p t, all_storable (put_file w p t)) by (intros; now constructor).
    unfold open_file. destruct a; try exact P; (destruct cr; try exact P); (destruct (where_ w location) as [[l|]|e]; try exact P); cbv zeta; try (apply G; try exact P; apply PF); destruct (negb _); apply G; try exact P; apply PF.
  - apply WH. intros hd Eh. unfold reload. destruct (dget (w_files w) (h_path hd)) as [[t tm]|]; [|exact P]. destruct (_ || _); [|exact P]. cbv zeta.
    assert (R : forall q, (forall c, q = Some c -> storable c) -> all_storable (set_handle (set_parsers w (w_parsers w ++ [q])) h (Handle (h_access hd) (h_path hd) (h_spec hd) (h_time hd) (List.length (w_parsers w))))).
    { intros q Hq. constructor; cbn [set_handle set_parsers w_parsers w_handles].
      - intros i c' H. apply nth_snoc in H as [H|[H _]]; [now apply (A i)|]. now apply Hq.
      - intros i h' H. rewrite nth_replace in H. destruct (Nat.eqb h i); [|now apply (B i)]. destruct (nth_error (w_handles w) i); [|discriminate]. injection H as <-. cbn [h_spec]. now apply (B h). }
    destruct (load t _) as [c [e|]] eqn:L; cbn [fst]; apply R; [discriminate|]. intros c' E. injection E as <-. apply storable_load in L; [exact L|now apply (B h)].
  - apply WH. intros hd Eh. unfold save. destruct (h_access hd); try exact P. destruct (parser w _); [now constructor|exact P].
  - apply WH. intros hd Eh. exact P.
  - apply WH. intros hd Eh. apply WP. intros c Pc. exact P.
  - apply WH. intros hd Eh. apply WP. intros c Pc. pose proof (storable_assign c n kvs Pc (proj1 K) (proj2 K)) as Q. destruct (assign_section c n kvs) as [c' e]. now apply as_set_parser.
  - apply WH. intros hd Eh. apply WP. intros c Pc. exact P.
  - apply WH. intros hd Eh. apply WP. intros c Pc. apply UP. intros c' E. now apply (storable_del_section c n).
  - apply WP. intros c Pc. exact P.
  - apply WP. intros c Pc. exact P.
  - apply WP. intros c Pc. apply UP. intros c' E. now apply (storable_set c n k v).
  - apply WP. intros c Pc. apply UP. intros c' E. now apply (storable_del_option c n k).
Qed.
Lemma run_storable os : forall w, Forall op_ok os -> all_storable w -> all_storable (run w os).
Proof. induction os as [|o os IH]; intros w F P; [exact P|]. inversion F; subst. cbn [run]. apply IH; [assumption|]. now apply step_storable. Qed.
Lemma storable0 home inst files dirs now : all_storable (world0 home inst files dirs now).
Proof. constructor; intros [|i] c H; discriminate. Qed.

(** ** Opening *)
Lemma open_text w id a cr loc s date l t c : (a = Read \/ a = Write) -> (cr = NoCreate \/ cr = IfNeeded) -> where_ w loc = Fine (Some l) -> text_at w (path_of l id) = Some t -> load t s = (c, None) ->
  exists w', step w (OOpen id a cr loc s date) = (w', Fine (VHandle (List.length (w_handles w)))) /\ holds w' (List.length (w_handles w)) c /\ w_files w' = w_files w.
Proof.
  intros Ha Hc L T E. cbn [step]. unfold open_file. unfold text_at in T. destruct (dget (w_files w) (path_of l id)) as [[t' tm]|] eqn:D; [|discriminate]. injection T as ->.
  assert (X : exists_path w (path_of l id) = true) by (unfold exists_path; apply orb_true_iff; left; apply dhas_true; eauto).
  destruct Ha as [-> | ->], Hc as [-> | ->]; rewrite L; cbv zeta; rewrite ?X; cbn [negb]; rewrite D, E; eexists; (split; [reflexivity|]); (split; [|reflexivity]); unfold holds; cbn [w_handles w_parsers]; eexists; (split; [rewrite nth_error_app2, Nat.sub_diag by lia; reflexivity|]); cbn [h_parser]; rewrite nth_error_app2, Nat.sub_diag by lia; reflexivity.
Qed.
Lemma load_written c s : storable c -> load (write_text c) s = add_spec c s.
Proof. intro P. unfold load. now rewrite (read_write c P). Qed.
