(** * Configuration handles: crashes, paths, specs *)
From Coq Require Import String.
From Coq Require Import List ZArith Bool Lia.
From Verif Require Import PyBase PyLemmas PnmsModel IniModel IniSpec IniProofs IniProofs2 IniProofs3 ConfModel ConfSpec ConfProofs ConfProofs2 ConfProofs3.
Import ListNotations.
Open Scope Z_scope.

(** ** A text cut off *)
Lemma blank_result st : good st -> result (fst (read_line st [])) = result st /\ p_err (fst (read_line st [])) = p_err st /\ snd (read_line st []) = None.
Proof.
  intro G. change (read_line st []) with (match p_opt st with [] => st | _ => append_value st [] end, @None ierr). cbn [fst snd].
  assert (G1 : result (append_value st []) = result st /\ p_err (append_value st []) = p_err st).
  2:{ destruct (p_opt st); [auto|]. destruct G1. auto. }
  unfold append_value. destruct (p_cur st) as [n|] eqn:Ec; [|auto]. cbv zeta.
  destruct (dget (sect_get st n) (p_opt st)) as [ls|] eqn:D; [|auto].
  match goal with |- context [sect_set st n ?o] => assert (J : joined o = joined (sect_get st n)) end.
  { destruct (good_get st n G) as [ND B]. pose proof D as Di. apply dget_in in Di. rewrite Forall_forall in B. assert (Nl : ls <> []) by exact (e_some _ (B _ Di)).
    clear -D Nl. induction (sect_get st n) as [|[k' l'] o IH]; [discriminate|]. cbn [dset dget] in *. match goal with |- context [if ?b then _ else _] => destruct b as [E|N] end.
    - injection D as ->. unfold joined. cbn [map fst snd]. now rewrite trim_r_join_blank by exact Nl.
    - unfold joined in *. cbn [map]. f_equal. now apply IH. }
  split; [|unfold sect_set; destruct (eqb n default_section); reflexivity].
  match goal with |- context [sect_set st n ?o] => revert J; generalize o end. intros o' J. unfold result, sect_set. unfold sect_get in J, D. destruct (eqb n default_section) eqn:Ed; cbn [p_defs p_sects].
  - now rewrite J.
  - f_equal. destruct (dget (p_sects st) n) as [o|] eqn:Do; [|discriminate]. clear -J Do. induction (p_sects st) as [|[n' o0] S IH]; [discriminate|]. cbn [dset dget] in *. match goal with |- context [if ?b then _ else _] => destruct b as [E|N] end.
    + injection Do as ->. cbn [map fst snd]. now rewrite J.
    + cbn [map]. f_equal. now apply IH.
Qed.
Lemma good0 : good pst0.
Proof. constructor; cbn; try (split; constructor); try constructor. discriminate. Qed.
Lemma read_lines_snoc ls : forall st, Forall clean ls -> good st -> forall st', read_lines st (ls ++ [[]]) = (st', None) ->
  exists st1, read_lines st ls = (st1, None) /\ result st1 = result st'.
Proof.
  induction ls as [|l ls IH]; intros st F G st' E.
  - cbn [app read_lines] in E. destruct (blank_result st G) as (R1 & R2 & R3). destruct (read_line st []) as [s0 e0]. cbn [fst snd] in *. subst e0. cbn [read_lines]. rewrite R2 in E. exists st. destruct (p_err st); [discriminate|]. injection E as <-. now split.
  - cbn [app read_lines] in *. destruct (read_line st l) as [s0 [e0|]] eqn:L; [discriminate|]. inversion F; subst.
    assert (X : p_err s0 = false).
    { clear -E. revert s0 E. induction (ls ++ [[]]) as [|x r IHr]; intros s0 E; cbn [read_lines] in E; [destruct (p_err s0); [discriminate|reflexivity]|].
      destruct (read_line s0 x) as [s1 [e|]] eqn:L; [discriminate|]. apply (err_mono s0 x s1 None L). now apply IHr. }
    apply (IH s0); [assumption| |exact E]. apply (good_line st l s0); try assumption. now apply (err_mono st l s0 None).
Qed.
Lemma split_snoc_clean c a b : ~ In c b -> forall p ps, split_on c a = ps ++ [p] -> split_on c (a ++ b) = ps ++ [p ++ b].
Proof.
  intros Hb. induction a as [|x a IH]; intros p ps E.
  - cbn in E. destruct ps as [|q [|q' ps]]; try discriminate. injection E as <-. cbn [app]. now rewrite split_on_clean.
  - cbn [split_on app] in *. destruct (Z.eq_dec x c) as [->|N].
    + destruct ps as [|q ps]; [injection E as <- E; destruct (split_on c a) eqn:S; [now apply split_on_nonempty in S|discriminate]|]. injection E as <- E. cbn [app]. f_equal. now apply IH.
    + destruct (split_on c a) as [|q qs] eqn:S; [now apply split_on_nonempty in S|]. destruct ps as [|r ps].
      * injection E as <- ->. rewrite (IH q [] eq_refl). reflexivity.
      * injection E as <- ->. rewrite (IH p (q :: ps) eq_refl). reflexivity.
Qed.
(** P is the text of lines, the last one not empty; with two line ends more it has one more line, empty *)
Lemma lines_cut (P : pystr) x : x <> 10 -> file_lines (P ++ [x] ++ [10; 10]) = file_lines (P ++ [x]) ++ [[]].
Proof.
  intro N. assert (Hx : ~ In 10 [x]) by (intros [X|[]]; congruence). destruct (exists_last (split_on_nonempty 10 P)) as (ps & p & E).
  unfold file_lines. cbv zeta. rewrite (split_snoc_clean 10 P [x] Hx p ps E). rewrite last_last.
  assert (S2 : split_on 10 (P ++ [x] ++ [10; 10]) = (ps ++ [p ++ [x]]) ++ [[]; []]).
  { rewrite app_assoc. change [10; 10] with ([10] ++ [10]). rewrite app_assoc, !split_ends, (split_snoc_clean 10 P [x] Hx p ps E), <- !app_assoc. reflexivity. }
  rewrite S2. change ([[]; []] : list pystr) with ([[]] ++ [[]] : list pystr). rewrite app_assoc, last_last, removelast_last. destruct (p ++ [x]) eqn:Q; [now destruct p|reflexivity].
Qed.
Lemma read_cut P x c : x <> 10 -> ~ In 13 (P ++ [x]) -> read_text (P ++ [x] ++ [10; 10]) = (c, None) -> read_text (P ++ [x]) = (c, None).
Proof.
  intros N H E. unfold read_text in *. assert (H1 : ~ In 13 (P ++ [x] ++ [10; 10])) by (rewrite app_assoc; intro X; apply in_app_or in X as [X|[X|[X|[]]]]; [contradiction|discriminate|discriminate]).
  rewrite (newlines_id _ H1), (lines_cut P x N) in E. rewrite (newlines_id _ H). destruct (read_lines pst0 (file_lines (P ++ [x]) ++ [[]])) as [st' e'] eqn:R. injection E as <- ->.
  destruct (read_lines_snoc (file_lines (P ++ [x])) pst0) with (st' := st') as (st1 & R1 & R2); [|apply good0|exact R|now rewrite R1, R2].
  apply Forall_forall. intros l Il. pose proof (file_lines_clean (P ++ [x]) l) as F. rewrite (newlines_id _ H) in F. exact (F Il).
Qed.
Lemma write_no_cr c : storable c -> ~ In 13 (write_text c).
Proof.
  intros P X. rewrite write_text_lines in X. pose proof (text_lines_clean c P) as F. unfold unlines in X. apply in_flat_map in X as (l & Il & X). rewrite Forall_forall in F. apply in_app_or in X as [X|[X|[]]]; [|discriminate]. now apply (F l Il).
Qed.
(** the text of a configuration that ends with the option k = a *)
Lemma write_last d ss n os k a : write_text (Ini d (ss ++ [(n, os ++ [(k, a)])])) = write_text (Ini d ss) ++ (lit "[" ++ n ++ lit "]" ++ [10] ++ flat_map write_item os ++ k ++ lit " = ") ++ tab_lines a ++ [10; 10].
Proof.
  unfold write_text. cbn [i_defs i_sects]. rewrite flat_map_app. cbn [flat_map]. unfold write_section at 3. cbn [fst snd]. rewrite flat_map_app. cbn [flat_map]. unfold write_item at 2. cbn [fst snd]. rewrite !app_nil_r, <- !app_assoc. reflexivity.
Qed.

(** ** Paths *)
Lemma split_in_app c a b x : ~ In c b -> In x (split_on c (a ++ b)) -> (exists y, In y (split_on c a) /\ x = y ++ b) \/ In x (split_on c a).
Proof.
  intros Hb H. destruct (exists_last (split_on_nonempty c a)) as (ps & p & E). rewrite (split_snoc_clean c a b Hb p ps E) in H. rewrite E. apply in_app_or in H as [H|[H|[]]].
  - right. apply in_or_app. now left.
  - left. exists p. split; [apply in_or_app; right; now left|now symmetry].
Qed.
Lemma join_inside ps : forall pre rest, Forall (fun p => ~ In slash p /\ ~ In ch_dot p) ps -> pre <> [] -> ends_slash pre = true -> ~ In ch_dot rest ->
  exists rest', join_path (pre ++ rest) ps = pre ++ rest' /\ ~ In ch_dot rest'.
Proof.
  unfold join_path. induction ps as [|p ps IH]; intros pre rest F N E H; [now exists rest|]. inversion F as [|? ? [Ps Pd] F']; subst. cbn [fold_left].
  assert (J : exists r, join1 (pre ++ rest) p = pre ++ r /\ ~ In ch_dot r).
  { assert (Sl : ~ In ch_dot [slash]) by (intros [X|[]]; discriminate).
    destruct p as [|c p].
    - cbn [join1]. destruct (pre ++ rest) eqn:Q; [destruct pre; [congruence|discriminate]|]. rewrite <- Q. destruct (ends_slash (pre ++ rest)); [now exists rest|]. exists (rest ++ [slash]). rewrite app_assoc. split; [reflexivity|]. intro X. apply in_app_or in X as [X|X]; contradiction.
    - cbn [join1]. assert (c =? slash = false) as -> by (apply Z.eqb_neq; intro X; apply Ps; now left). destruct (pre ++ rest) eqn:Q; [destruct pre; [congruence|discriminate]|]. rewrite <- Q. destruct (ends_slash (pre ++ rest)).
      + exists (rest ++ c :: p). rewrite <- app_assoc. split; [reflexivity|]. intro X. apply in_app_or in X as [X|X]; contradiction.
      + exists (rest ++ slash :: c :: p). rewrite <- app_assoc. split; [reflexivity|]. intro X. apply in_app_or in X as [X|[X|X]]; [contradiction|discriminate|contradiction]. }
  destruct J as (r & -> & Hr). now apply IH.
Qed.

(** ** Handles stay *)
Definition same (h h' : handle) : Prop := h_access h' = h_access h /\ h_path h' = h_path h /\ h_spec h' = h_spec h /\ h_time h' = h_time h.
Lemma step_handles w o i h : nth_error (w_handles w) i = Some h -> exists h', nth_error (w_handles (fst (step w o))) i = Some h' /\ same h h'.
Proof.
  intro H. assert (Sm : exists h', nth_error (w_handles w) i = Some h' /\ same h h') by (exists h; split; [exact H|repeat split]).
  assert (WP : forall j k, (forall c, w_handles (fst (k c)) = w_handles w) -> exists h', nth_error (w_handles (fst (with_parser w j k))) i = Some h' /\ same h h') by (intros j k X; unfold with_parser; destruct (parser w j); [rewrite X|]; exact Sm).
  assert (WH : forall j k, (forall g, nth_error (w_handles w) j = Some g -> exists h', nth_error (w_handles (fst (k g))) i = Some h' /\ same h h') -> exists h', nth_error (w_handles (fst (with_handle w j k))) i = Some h' /\ same h h') by (intros j k X; unfold with_handle; destruct (nth_error _ j) eqn:G; [now apply X|exact Sm]).
  assert (UP : forall j r, w_handles (fst (update w j r)) = w_handles w) by (intros j [c|e]; reflexivity).
  destruct o; cbn [step]; try exact Sm.
  - destruct (add_custom_path _ id path); exact Sm.
  - assert (G : forall w1 l, w_handles w1 = w_handles w -> exists h', nth_error (w_handles (fst (match dget (w_files w1) (path_of l identifier) with
      | None => (w1, Fail EException)
      | Some (text, _) => match load text s with
          | (c, None) => (World (w_home w1) (w_search w1) (w_files w1) (w_dirs w1) (w_now w1) (w_parsers w1 ++ [Some c]) (w_handles w1 ++ [Handle a (path_of l identifier) s (w_now w1) (List.length (w_parsers w1))]), Fine (VHandle (List.length (w_handles w1))))
          | (_, Some e) => (w1, Fail e) end end))) i = Some h' /\ same h h').
    { intros w1 l E. destruct (dget (w_files w1) (path_of l identifier)) as [[t tm]|]; [|cbn [fst]; rewrite E; exact Sm]. destruct (load t s) as [c [e|]]; cbn [fst w_handles]; rewrite E; [exact Sm|].
      exists h. split; [|repeat split]. rewrite nth_error_app1; [exact H|]. apply nth_error_Some. congruence. }
    unfold open_file. destruct a; try exact Sm; (destruct cr; try exact Sm); (destruct (where_ w location) as [[l|]|e]; try exact Sm); cbv zeta; try (now apply G); destruct (negb _); now apply G.
  - apply WH. intros g Hg. unfold reload. destruct (dget (w_files w) (h_path g)) as [[t tm]|]; [|exact Sm]. destruct (_ || _); [|exact Sm]. cbv zeta.
    assert (R : forall q, exists h', nth_error (w_handles (set_handle (set_parsers w q) h0 (Handle (h_access g) (h_path g) (h_spec g) (h_time g) (List.length (w_parsers w))))) i = Some h' /\ same h h').
    { intro q. cbn [set_handle set_parsers w_handles]. rewrite nth_replace. destruct (Nat.eqb_spec h0 i) as [->|N]; [|exact Sm]. rewrite H. eexists. split; [reflexivity|]. rewrite H in Hg. injection Hg as <-. repeat split. }
    destruct (load t _) as [c [e|]]; apply R.
  - apply WH. intros g Hg. unfold save. destruct (h_access g); try exact Sm. destruct (parser w _); exact Sm.
  - apply WH. intros g Hg. exact Sm.
  - apply WH. intros g Hg. apply WP. reflexivity.
  - apply WH. intros g Hg. apply WP. intro c. destruct (assign_section c n kvs) as [c' e]. reflexivity.
  - apply WH. intros g Hg. apply WP. reflexivity.
  - apply WH. intros g Hg. apply WP. intro c. apply UP.
  - apply WP. reflexivity.
  - apply WP. reflexivity.
  - apply WP. intro c. apply UP.
  - apply WP. intro c. apply UP.
Qed.
Lemma run_handles os : forall w i h, nth_error (w_handles w) i = Some h -> exists h', nth_error (w_handles (run w os)) i = Some h' /\ same h h'.
Proof.
  induction os as [|o os IH]; intros w i h H; [exists h; split; [exact H|repeat split]|]. cbn [run]. destruct (step_handles w o i h H) as (h1 & H1 & (a & b & c & d)). destruct (IH _ _ _ H1) as (h2 & H2 & (a' & b' & c' & d')). exists h2. split; [exact H2|]. repeat split; congruence.
Qed.

(** ** Specs *)
Lemma eqb_iff {A} `{EqDec A} (x y : A) : eqb x y = true <-> x = y.
Proof. unfold eqb. destruct (eq_dec x y); split; congruence. Qed.
Lemma dget_assign c (n : pystr) kvs c' : n <> [] -> n <> default_section -> NoDup (map (fun kv => lower (fst kv)) kvs) -> assign_section c n kvs = (c', None) ->
  i_defs c' = i_defs c /\ (forall n', n' <> n -> dget (i_sects c') n' = dget (i_sects c) n') /\ dget (i_sects c') n = Some (map (fun kv => (lower (fst kv), snd kv)) kvs).
Proof.
  intros Nn Nd ND E. unfold assign_section, clear_section, eqb in E. destruct (eq_dec n default_section) as [X|_]; [now apply Nd in X|].
  assert (G : forall kvs c0 seen d c', NoDup (map (fun kv => lower (fst kv)) kvs) -> dget (i_sects c0) n = Some d -> (forall kv, In kv kvs -> ~ In (lower (fst kv)) (dkeys d)) -> read_dict c0 n seen kvs = (c', None) ->
    i_defs c' = i_defs c0 /\ (forall n', n' <> n -> dget (i_sects c') n' = dget (i_sects c0) n') /\ dget (i_sects c') n = Some (d ++ map (fun kv => (lower (fst kv), snd kv)) kvs)).
  { clear -Nn Nd. induction kvs as [|[k v] r IH]; intros c0 seen d c' ND D F E; cbn [read_dict] in E; [injection E as <-; cbn [map]; rewrite app_nil_r; auto|].
    destruct (smem seen (lower k)); [discriminate|]. destruct (set_option c0 n (lower k) v) as [c1|e] eqn:S1; [|discriminate]. unfold set_option in S1. destruct (negb _); [discriminate|].
    assert (is_default n = false) as X by (unfold is_default, eqb; destruct n; [congruence|]; destruct (eq_dec _ _) as [Q|_]; [now apply Nd in Q|reflexivity]). rewrite X, D in S1. injection S1 as <-. rewrite lower_lower in E.
    inversion ND as [|? ? Hk ND']; subst. edestruct (fun H1 H2 => IH _ _ (d ++ [(lower k, v)]) _ ND' H1 H2 E) as (A & B & C).
    - cbn [i_sects]. rewrite dget_dset_same. f_equal. apply dset_new. exact (F (k, v) (or_introl eq_refl)).
    - intros kv I X1. unfold dkeys in X1. rewrite map_app in X1. apply in_app_or in X1 as [X1|[X1|[]]]; [apply (F kv); [now right|exact X1]|]. cbn in X1. apply Hk. cbn [fst]. rewrite X1. now apply (in_map (fun kv : pystr * pystr => lower (fst kv))).
    - split; [exact A|]. split.
      + intros n' Nn'. rewrite B by exact Nn'. cbn [i_sects]. now apply dget_dset_other.
      + rewrite C, <- app_assoc. reflexivity. }
  edestruct (fun H1 H2 => G kvs _ [] [] c' ND H1 H2 E) as (A & B & C).
  - cbn [i_sects]. apply dget_dset_same.
  - intros kv _ [].
  - split; [exact A|]. split; [|exact C]. intros n' Nn'. rewrite B by exact Nn'. cbn [i_sects]. now apply dget_dset_other.
Qed.
Lemma spec_sections (s : list (pystr * list (pystr * pystr))) : forall c c', (forall (n : pystr) kvs, In (n, kvs) s -> n <> [] /\ NoDup (map (fun kv => lower (fst kv)) kvs)) -> NoDup (map fst s) -> add_spec c s = (c', None) ->
  i_defs c' = i_defs c /\ (forall n d, dget (i_sects c) n = Some d -> dget (i_sects c') n = Some d) /\
  (forall (n : pystr) kvs, In (n, kvs) s -> n <> default_section -> dget (i_sects c) n = None -> dget (i_sects c') n = Some (map (fun kv => (lower (fst kv), snd kv)) kvs)) /\
  (forall n : pystr, ~ In n (map fst s) -> dget (i_sects c') n = dget (i_sects c) n).
Proof.
  induction s as [|[n kvs] s IH]; intros c c' H ND E; cbn [add_spec] in E; [injection E as <-; repeat split; auto; intros ? ? []|].
  inversion ND as [|? ? Hn ND']; subst. cbn [fst] in Hn. assert (H' : forall n kvs, In (n, kvs) s -> n <> [] /\ NoDup (map (fun kv => lower (fst kv)) kvs)) by (intros a b X; apply H; now right).
  destruct (has_section c n) eqn:Hs.
  - destruct (IH c c' H' ND' E) as (A & B & C & D). split; [exact A|]. split; [exact B|]. split.
    + intros n' kvs' [X|X] Nd G; [|now apply C]. injection X as <- <-. unfold has_section in Hs. apply orb_true_iff in Hs as [Hs|Hs]; [apply (proj1 (eqb_iff _ _)) in Hs; congruence|]. apply dhas_true in Hs as [v Hs]. congruence.
    + intros n' X. apply D. intro Y. apply X. now right.
  - destruct (assign_section c n kvs) as [c1 [e|]] eqn:As; [discriminate|]. unfold has_section in Hs. apply orb_false_iff in Hs as [Hd Hs]. apply dhas_false in Hs.
    assert (Nd : n <> default_section) by (intro Q; apply (proj2 (eqb_iff _ _)) in Q; congruence).
    destruct (H n kvs (or_introl eq_refl)) as [Nn NDk]. destruct (dget_assign c n kvs c1 Nn Nd NDk As) as (A1 & B1 & C1). destruct (IH c1 c' H' ND' E) as (A & B & C & D).
    split; [congruence|]. split; [|split].
    + intros n' d G. apply B. rewrite B1; [exact G|]. intro Q. congruence.
    + intros n' kvs' [X|X] Nd' G; [injection X as <- <-; now apply B|]. apply C; [exact X|exact Nd'|]. rewrite B1; [exact G|]. intros ->. apply Hn. now apply (in_map fst) in X.
    + intros n' X. rewrite D by (intro Y; apply X; now right). apply B1. intros ->. apply X. now left.
Qed.
