(** * Reading back what was written *)
From Coq Require Import String.
From Coq Require Import List ZArith Bool Lia.
From Verif Require Import PyBase PyLemmas PnmsModel IniModel IniSpec IniProofs.
Import ListNotations.
Open Scope Z_scope.

(** ** The lines of the text *)
Definition item_lines (kv : pystr * pystr) : list pystr :=
  match split_on 10 (snd kv) with
  | [] => []
  | l :: ls => (fst kv ++ lit " = " ++ l) :: map (cons 9) ls
  end.
Definition sect_lines (s : pystr * dict pystr pystr) : list pystr := (lit "[" ++ fst s ++ lit "]") :: flat_map item_lines (snd s) ++ [[]].
Definition text_lines (c : ini) : list pystr :=
  (match i_defs c with [] => [] | d => sect_lines (default_section, d) end) ++ flat_map sect_lines (i_sects c).

Lemma unlines_app a b : unlines (a ++ b) = unlines a ++ unlines b.
Proof. unfold unlines. apply flat_map_app. Qed.
Lemma unlines_flat {A} (f : A -> list pystr) l : unlines (flat_map f l) = flat_map (fun x => unlines (f x)) l.
Proof. induction l as [|x l IH]; [reflexivity|]. cbn [flat_map]. now rewrite unlines_app, IH. Qed.
Lemma tab_lines_split v : forall l ls, split_on 10 v = l :: ls -> tab_lines v ++ [10] = unlines (l :: map (cons 9) ls).
Proof.
  induction v as [|c v IH]; intros l ls E.
  - injection E as <- <-. reflexivity.
  - cbn [split_on] in E. destruct (split_on 10 v) as [|p ps] eqn:Ev; [now apply split_on_nonempty in Ev|]. specialize (IH _ _ eq_refl). unfold tab_lines in *. cbn [flat_map].
    destruct (Z.eq_dec c 10) as [->|N].
    + injection E as <- <-. rewrite Z.eqb_refl. cbn [app]. rewrite IH. reflexivity.
    + injection E as <- <-. destruct (Z.eqb_spec c 10); [contradiction|]. cbn [app]. rewrite IH. reflexivity.
Qed.
Lemma write_item_lines kv : write_item kv = unlines (item_lines kv).
Proof.
  unfold write_item, item_lines. destruct (split_on 10 (snd kv)) as [|l ls] eqn:E; [now apply split_on_nonempty in E|].
  rewrite (tab_lines_split _ _ _ E). cbn [unlines flat_map]. now rewrite <- !app_assoc.
Qed.
Lemma write_section_lines s : write_section s = unlines (sect_lines s).
Proof.
  unfold write_section, sect_lines. cbn [unlines flat_map]. fold (unlines (flat_map item_lines (snd s) ++ [[]])). rewrite unlines_app, unlines_flat.
  rewrite <- !app_assoc. do 4 f_equal. f_equal. apply flat_map_ext. apply write_item_lines.
Qed.
Lemma write_text_lines c : write_text c = unlines (text_lines c).
Proof.
  unfold write_text, text_lines. rewrite unlines_app, unlines_flat. f_equal.
  - destruct (i_defs c); [reflexivity|apply write_section_lines].
  - apply flat_map_ext, write_section_lines.
Qed.

(** ** Clean lines *)
Definition clean (l : pystr) : Prop := ~ In 10 l /\ ~ In 13 l.
Lemma clean_app a b : clean a -> clean b -> clean (a ++ b).
Proof. intros [A1 A2] [B1 B2]. split; intro H; apply in_app_or in H; tauto. Qed.
Lemma clean_lits : clean (lit " = ") /\ clean (lit "[") /\ clean (lit "]") /\ clean [9].
Proof. unfold clean. cbn. repeat split; intuition discriminate. Qed.
Lemma value_lines_clean v l : ~ In 13 v -> In l (split_on 10 v) -> clean l.
Proof.
  intros N H. split.
  - pose proof (split_parts_clean 10 v) as F. rewrite Forall_forall in F. now apply F.
  - intro X. apply N. now apply (split_incl 10 v l).
Qed.
Lemma item_lines_clean kv : item_ok kv -> Forall clean (item_lines kv).
Proof.
  intros (K & V & _). unfold item_lines. destruct (split_on 10 (snd kv)) as [|l ls] eqn:E; [constructor|].
  assert (C : forall x, In x (l :: ls) -> clean x) by (intros x X; apply (value_lines_clean (snd kv)); [apply V|now rewrite E]).
  assert (Kc : clean (fst kv)) by (split; intro X; apply (k_chars _ K) in X; tauto).
  destruct clean_lits as (L1 & _ & _ & L4). constructor.
  - apply clean_app; [exact Kc|]. apply clean_app; [exact L1|]. apply C. now left.
  - apply Forall_forall. intros x X. apply in_map_iff in X as (y & <- & Y). change (9 :: y) with ([9] ++ y). apply clean_app; [exact L4|]. apply C. now right.
Qed.
Lemma sect_lines_clean n d : clean n -> Forall item_ok d -> Forall clean (sect_lines (n, d)).
Proof.
  intros N D. destruct clean_lits as (_ & L2 & L3 & _). unfold sect_lines. cbn [fst snd]. constructor.
  - apply clean_app; [exact L2|]. now apply clean_app.
  - apply Forall_app. split.
    + apply Forall_flat_map. eapply Forall_impl; [|exact D]. apply item_lines_clean.
    + repeat constructor; intros [].
Qed.
Lemma default_clean : clean default_section.
Proof. unfold clean, default_section. cbn. split; intuition discriminate. Qed.
Lemma text_lines_clean c : storable c -> Forall clean (text_lines c).
Proof.
  intros [[_ D] [_ N] O]. unfold text_lines. apply Forall_app. split.
  - destruct (i_defs c); [constructor|]. apply sect_lines_clean; [apply default_clean|exact D].
  - apply Forall_flat_map. rewrite Forall_forall in *. intros [n d] H. apply sect_lines_clean; [|apply (O _ H)]. destruct (N _ H) as [_ _ A B]. now split.
Qed.

(** ** Reading *)
Definition put_d (D : opts) (n : pystr) (o : opts) : opts := if eqb n default_section then o else D.
Definition put_s (S : dict pystr opts) (n : pystr) (o : opts) : dict pystr opts := if eqb n default_section then S else dset S n o.
Definition get_o (D : opts) (S : dict pystr opts) (n : pystr) : opts := if eqb n default_section then D else match dget S n with Some o => o | None => [] end.
Lemma sect_set_eq D S c k i q e n o : sect_set (Pst D S c k i q e) n o = Pst (put_d D n o) (put_s S n o) c k i q e.
Proof. unfold sect_set, put_d, put_s. destruct (eqb n default_section); reflexivity. Qed.
Lemma sect_get_eq D S c k i q e n : sect_get (Pst D S c k i q e) n = get_o D S n.
Proof. reflexivity. Qed.
Lemma get_put D S n o : get_o (put_d D n o) (put_s S n o) n = o.
Proof. unfold get_o, put_d, put_s. destruct (eqb n default_section); [reflexivity|]. now rewrite dget_dset_same. Qed.
Lemma dset_twice {K V} `{EqDec K} (d : dict K V) k v v' : dset (dset d k v) k v' = dset d k v'.
Proof.
  induction d as [|[k' w] d IH]; cbn.
  - destruct (eq_dec k k); [reflexivity|congruence].
  - destruct (eq_dec k k') as [E|N] eqn:Ek; cbn; rewrite Ek; [reflexivity|]. now rewrite IH.
Qed.
Lemma put_put_d D n o o' : put_d (put_d D n o) n o' = put_d D n o'.
Proof. unfold put_d. destruct (eqb n default_section); reflexivity. Qed.
Lemma put_put_s S n o o' : put_s (put_s S n o) n o' = put_s S n o'.
Proof. unfold put_s. destruct (eqb n default_section); [reflexivity|]. apply dset_twice. Qed.
Lemma dset_new {K V} `{EqDec K} (d : dict K V) k v : ~ In k (dkeys d) -> dset d k v = d ++ [(k, v)].
Proof.
  induction d as [|[k' w] d IH]; [reflexivity|]. cbn. intro N. destruct (eq_dec k k') as [->|Ne]; [tauto|]. rewrite IH by tauto. reflexivity.
Qed.

Lemma read_cons st l r st' : read_line st l = (st', None) -> read_lines st (l :: r) = read_lines st' r.
Proof. intro E. cbn [read_lines]. now rewrite E. Qed.

(** a continuation line *)
Lemma read_cont D S n (k : pystr) q e (o : opts) l ls : k <> [] -> dget o k = Some ls -> stripped l -> ~ like_comment l ->
  read_line (Pst (put_d D n o) (put_s S n o) (Some n) k 0 q e) (9 :: l) = (Pst (put_d D n (dset o k (ls ++ [l]))) (put_s S n (dset o k (ls ++ [l]))) (Some n) k 0 q e, None).
Proof.
  intros Nk G Sl C. unfold read_line. rewrite trim_cons_white by reflexivity. rewrite (trim_id _ Sl). apply comment_false in C. rewrite C.
  assert (A : append_value (Pst (put_d D n o) (put_s S n o) (Some n) k 0 q e) l = Pst (put_d D n (dset o k (ls ++ [l]))) (put_s S n (dset o k (ls ++ [l]))) (Some n) k 0 q e).
  { unfold append_value. cbn [p_cur p_opt]. cbv zeta. rewrite sect_get_eq, get_put, G, sect_set_eq, put_put_d, put_put_s. reflexivity. }
  destruct l as [|c l].
  - cbn [p_opt]. destruct k as [|x k]; [congruence|]. now rewrite A.
  - assert (Ct : continues (Pst (put_d D n o) (put_s S n o) (Some n) k 0 q e) (9 :: c :: l) = true) by (unfold continues; cbn [p_cur p_opt p_indent]; destruct k; [congruence|reflexivity]).
    rewrite Ct. now rewrite A.
Qed.
Lemma read_conts D S n (k : pystr) q e R : forall ls (o : opts) ls0, k <> [] -> dget o k = Some ls0 -> Forall stripped ls -> Forall (fun l => ~ like_comment l) ls ->
  read_lines (Pst (put_d D n o) (put_s S n o) (Some n) k 0 q e) (map (cons 9) ls ++ R) =
  read_lines (Pst (put_d D n (dset o k (ls0 ++ ls))) (put_s S n (dset o k (ls0 ++ ls))) (Some n) k 0 q e) R.
Proof.
  induction ls as [|l ls IH]; intros o ls0 Nk G F1 F2; cbn [map app].
  - rewrite app_nil_r. assert (E : dset o k ls0 = o).
    { clear -G. induction o as [|[k' w] o IH]; cbn in *; [discriminate|]. destruct (eq_dec k k'); [congruence|]. now rewrite IH. }
    now rewrite E.
  - inversion F1; subst. inversion F2; subst. rewrite (read_cons _ _ _ _ (read_cont D S n k q e o l ls0 Nk G H1 H3)).
    rewrite (IH _ (ls0 ++ [l])); [|exact Nk|apply dget_dset_same|assumption|assumption]. now rewrite dset_twice, <- app_assoc.
Qed.
(** an option's first line *)
Lemma read_opt D S n (k0 : pystr) q e (o : opts) (k l : pystr) : key_ok k -> stripped l -> ~ like_header (k ++ lit " = " ++ l) -> ~ In (n, k) q ->
  read_line (Pst (put_d D n o) (put_s S n o) (Some n) k0 0 q e) (k ++ lit " = " ++ l) =
  (Pst (put_d D n (dset o k [l])) (put_s S n (dset o k [l])) (Some n) k 0 ((n, k) :: q) e, None).
Proof.
  intros K Sl H Q. destruct K as [Nk Sk Ck Chk].
  assert (exists w : pystr, w = match l with [] => [] | _ => 32 :: l end) as [w Ew] by eauto. set (value := k ++ 32 :: 61 :: w).
  assert (Ev : trim (k ++ lit " = " ++ l) = value).
  { apply stripped_iff in Sk as [A B]. apply stripped_iff in Sl as [_ B'].
    assert (X : hd_ok (k ++ lit " = " ++ l)) by (destruct k; [congruence|exact A]).
    unfold trim. rewrite (trim_l_id _ X). unfold value. destruct l as [|c l]; subst w.
    - change (k ++ lit " = " ++ []) with (k ++ [32; 61; 32]). change [32; 61; 32] with ([32; 61] ++ [32]). rewrite app_assoc, trim_r_app by repeat constructor.
      apply trim_r_id. rewrite rev_app_distr. reflexivity.
    - apply trim_r_id. rewrite !rev_app_distr. cbn [rev] in *. destruct (rev l ++ [c]) as [|z zs] eqn:Ez; [destruct (rev l); discriminate|exact B']. }
  unfold read_line. rewrite Ev.
  assert (Cv : comment value = false) by (apply comment_false in Ck; unfold value; destruct k; [congruence|exact Ck]). rewrite Cv.
  assert (I0 : indent_of (k ++ lit " = " ++ l) = 0%nat).
  { apply stripped_iff in Sk as [A _]. destruct k as [|c k]; [congruence|]. cbn in A |- *. now rewrite A. }
  assert (Cn : continues (Pst (put_d D n o) (put_s S n o) (Some n) k0 0 q e) (k ++ lit " = " ++ l) = false).
  { unfold continues. cbn [p_cur p_opt p_indent]. rewrite I0. destruct k0; reflexivity. }
  destruct value as [|v0 vr] eqn:Vv; [unfold value in Vv; destruct k; discriminate|]. rewrite <- Vv in *. clear v0 vr Vv.
  rewrite Cn, I0.
  assert (Hv : header value = None).
  { apply header_none. intro X. apply H. apply header_shape in X as (r & E & X). apply header_shape. destruct k as [|c k]; [congruence|]. unfold value in E. cbn [app] in E. injection E as -> <-.
    exists (k ++ lit " = " ++ l). split; [reflexivity|]. destruct k as [|c' k]; destruct l as [|y l]; subst w; cbn in X |- *; rewrite ?in_app_iff in *; cbn in *; tauto. }
  rewrite Hv. unfold set_indent. cbn [p_defs p_sects p_cur p_opt p_seen p_err p_indent]. unfold read_option.
  assert (Ol : option_line value = Some (k ++ [32], w)).
  { unfold value. change (32 :: 61 :: w) with ([32] ++ 61 :: w). rewrite app_assoc.
    apply option_line_eq; intro X; apply in_app_or in X as [X|[X|[]]]; try discriminate; apply Chk in X; tauto. }
  rewrite Ol. rewrite trim_r_app by repeat constructor. rewrite (trim_r_id k) by now apply stripped_iff in Sk. rewrite (lower_id k) by (intros c X; apply Chk in X; tauto).
  replace (match k with [] => set_err _ | _ => _ end) with (Pst (put_d D n o) (put_s S n o) (Some n) k0 0 q e) by (destruct k; [congruence|reflexivity]). cbn [p_defs p_sects p_cur p_opt p_seen p_err p_indent].
  assert (Sm : smem q (n, k) = false) by (destruct (smem q (n, k)) eqn:E; [apply smem_true in E; contradiction|reflexivity]). rewrite Sm.
  rewrite sect_set_eq, sect_get_eq, get_put, put_put_d, put_put_s. replace (trim w) with l; [reflexivity|].
  subst w. destruct l as [|y l]; [reflexivity|]. rewrite trim_cons_white by reflexivity. symmetry. now apply trim_id.
Qed.
Lemma value_join v l ls : value_ok v -> split_on 10 v = l :: ls -> trim_r (join_on 10 (l :: ls)) = v.
Proof.
  intros [_ L _ En] E. rewrite <- E, join_split. apply trim_r_id. destruct (rev v) as [|c r] eqn:R; [exact I|].
  assert (Ev : v = rev r ++ [c]) by (rewrite <- (rev_involutive v), R; reflexivity).
  destruct (Z.eq_dec c 10) as [->|N]; [now apply En in Ev|].
  assert (X : exists a m, split_on 10 v = a ++ [m ++ [c]]).
  { rewrite Ev. clear -N. induction (rev r) as [|x s (a & m & IH)].
    - exists [], []. cbn. destruct (Z.eq_dec c 10); [contradiction|reflexivity].
    - cbn [app split_on]. rewrite IH. destruct (Z.eq_dec x 10).
      + exists ([] :: a), m. reflexivity.
      + destruct a as [|p a]; cbn [app]; [exists [], (x :: m)|exists ((x :: p) :: a), m]; reflexivity. }
  destruct X as (a & m & X). assert (Sm : stripped (m ++ [c])) by (apply L; rewrite X; apply in_or_app; right; now left).
  cbn. apply white_false. now apply (proj2 Sm m).
Qed.
(** an item *)
Lemma read_item D S n (k0 : pystr) q (o : opts) (kv : pystr * pystr) R : item_ok kv -> ~ In (n, fst kv) q -> ~ In (fst kv) (dkeys o) ->
  exists ls, ls <> [] /\ trim_r (join_on 10 ls) = snd kv /\
  read_lines (Pst (put_d D n o) (put_s S n o) (Some n) k0 0 q false) (item_lines kv ++ R) =
  read_lines (Pst (put_d D n (o ++ [(fst kv, ls)])) (put_s S n (o ++ [(fst kv, ls)])) (Some n) (fst kv) 0 ((n, fst kv) :: q) false) R.
Proof.
  destruct kv as [k v]. cbn [fst snd]. intros (K & V & H) Q N. unfold item_lines. cbn [fst snd] in *. destruct (split_on 10 v) as [|l ls] eqn:E; [now apply split_on_nonempty in E|].
  exists (l :: ls). split; [discriminate|]. split; [now apply value_join|].
  assert (F : Forall stripped (l :: ls)) by (apply Forall_forall; intros x X; apply (v_lines _ V); now rewrite E).
  assert (Fc : Forall (fun x => ~ like_comment x) ls) by (apply Forall_forall; intros x X; apply (v_comments _ V); now rewrite E).
  inversion F; subst. unfold first_line in H. rewrite E in H. cbn [hd] in H.
  cbn [app]. rewrite (read_cons _ _ _ _ (read_opt D S n k0 q false o k l K H2 H Q)).
  rewrite (read_conts D S n k _ false R ls (dset o k [l]) [l]); [|apply K|apply dget_dset_same|assumption|exact Fc].
  now rewrite dset_twice, (dset_new o k) by exact N.
Qed.
Lemma joined_keys o : dkeys (joined o) = dkeys o.
Proof. unfold joined, dkeys. rewrite map_map. reflexivity. Qed.
(** the items of a section *)
Lemma read_items D S n R : forall d k0 q o, Forall item_ok d -> NoDup (map fst d) -> (forall k, In k (map fst d) -> ~ In k (dkeys o) /\ ~ In (n, k) q) ->
  exists o' k' q', joined o' = joined o ++ d /\ (k' = k0 /\ o' = o \/ exists os ls, o' = os ++ [(k', ls)] /\ ls <> [] /\ k' <> [] /\ ~ In k' (dkeys os)) /\ (forall x, In x q' <-> In x q \/ (fst x = n /\ In (snd x) (map fst d))) /\
  read_lines (Pst (put_d D n o) (put_s S n o) (Some n) k0 0 q false) (flat_map item_lines d ++ R) =
  read_lines (Pst (put_d D n o') (put_s S n o') (Some n) k' 0 q' false) R.
Proof.
  induction d as [|kv d IH]; intros k0 q o F ND Fr.
  - exists o, k0, q. rewrite app_nil_r. split; [reflexivity|]. split; [now left|]. split; [|reflexivity]. intro x. cbn. tauto.
  - inversion F as [|? ? F1 F2]; subst. inversion ND as [|? ? N1 N2]; subst. destruct (Fr (fst kv)) as [A B]; [now left|].
    cbn [flat_map]. rewrite <- app_assoc. destruct (read_item D S n k0 q o kv (flat_map item_lines d ++ R) F1 B A) as (ls & Nl & J & E).
    destruct (IH (fst kv) ((n, fst kv) :: q) (o ++ [(fst kv, ls)]) F2 N2) as (o' & k' & q' & J' & Sh & Q & E').
    { intros k Ik. destruct (Fr k) as [A' B']; [now right|]. split.
      - unfold dkeys. rewrite map_app. intro X. apply in_app_or in X as [X|[X|[]]]; [contradiction|]. cbn in X. subst. contradiction.
      - intros [X|X]; [|contradiction]. injection X as X. rewrite X in N1. contradiction. }
    exists o', k', q'. split; [|split; [|split]].
    + rewrite J'. unfold joined at 1. rewrite map_app. cbn [map fst snd]. rewrite J, <- app_assoc. destruct kv. reflexivity.
    + right. destruct Sh as [[-> ->]|Sh]; [|exact Sh]. exists o, ls. repeat split; [exact Nl|apply F1|exact A].
    + intros x. rewrite Q. cbn. destruct x as [a b]. cbn. split.
      * intros [[X|X]|[-> X]]; [injection X as -> ->; tauto|tauto|tauto].
      * intros [X|[-> [<-|X]]]; tauto.
    + now rewrite E, E'.
Qed.
(** a section *)
Lemma read_blank D S n (k : pystr) q (o os : opts) ls : o = os ++ [(k, ls)] -> ls <> [] -> k <> [] -> ~ In k (dkeys os) -> exists o', joined o' = joined o /\
  read_line (Pst (put_d D n o) (put_s S n o) (Some n) k 0 q false) [] = (Pst (put_d D n o') (put_s S n o') (Some n) k 0 q false, None).
Proof.
  intros -> Nl Nk N. exists (os ++ [(k, ls ++ [[]])]). split.
  - unfold joined. rewrite !map_app. cbn [map fst snd]. now rewrite trim_r_join_blank.
  - unfold read_line. cbn [trim trim_l trim_r rev comment p_opt app]. cbn [p_opt]. change (comment (trim [])) with false. cbv iota. change (trim []) with (@nil Z). cbv iota. replace (match k with [] => _ | _ :: _ => append_value _ [] end) with (append_value (Pst (put_d D n (os ++ [(k, ls)])) (put_s S n (os ++ [(k, ls)])) (Some n) k 0 q false) []) by (destruct k; [congruence|reflexivity]). f_equal. unfold append_value. cbn [p_cur p_opt]. cbv zeta. rewrite sect_get_eq, get_put.
    assert (L : forall b, dget (os ++ [(k, b)]) k = Some b /\ forall b', dset (os ++ [(k, b)]) k b' = os ++ [(k, b')]).
    { clear -N. intro b. induction os as [|[k' w] os IH]; cbn in *.
      - destruct (eq_dec k k); [now split|congruence].
      - destruct (eq_dec k k') as [->|]; [tauto|]. destruct IH as [A B]; [tauto|]. split; [exact A|]. intro b'. now rewrite B. }
    destruct (L ls) as [A B]. now rewrite A, B, sect_set_eq, put_put_d, put_put_s.
Qed.
Lemma read_sect D S c k0 q n d R : (n = default_section \/ name_ok n) -> options_ok d -> ~ In n (dkeys S) -> (n = default_section -> D = []) -> (forall x, In x q -> fst x <> n) ->
  exists o k' q', joined o = d /\ (forall x, In x q' -> In x q \/ fst x = n) /\
  read_lines (Pst D S c k0 0 q false) (sect_lines (n, d) ++ R) = read_lines (Pst (put_d D n o) (put_s S n o) (Some n) k' 0 q' false) R.
Proof.
  intros Nn [ND F] NS ND0 Fq.
  assert (Hd : read_line (Pst D S c k0 0 q false) (lit "[" ++ n ++ lit "]") = (Pst (put_d D n []) (put_s S n []) (Some n) [] 0 q false, None)).
  { assert (T : trim (lit "[" ++ n ++ lit "]") = lit "[" ++ n ++ lit "]").
    { apply trim_id, stripped_iff. split; [reflexivity|]. rewrite !rev_app_distr. reflexivity. }
    unfold read_line. rewrite T. change (comment (lit "[" ++ n ++ lit "]")) with false. cbv iota.
    change (lit "[" ++ n ++ lit "]") with (91 :: n ++ lit "]") at 1. cbv iota. change (indent_of (lit "[" ++ n ++ lit "]")) with 0%nat.
    replace (continues (Pst D S c k0 0 q false) (lit "[" ++ n ++ lit "]")) with false by (unfold continues; cbn; destruct c; [destruct k0|]; reflexivity).
    rewrite header_of by (destruct Nn as [->|X]; [discriminate|apply X]). unfold read_header, set_indent. cbn [p_defs p_sects p_cur p_opt p_seen p_err].
    apply dget_none in NS. rewrite (proj2 (dhas_false S n) NS). unfold put_d, put_s, set_cur. unfold eqb. destruct (eq_dec n default_section) as [E|E].
    - cbn. rewrite (ND0 E). reflexivity.
    - rewrite sect_set_eq. unfold put_d, put_s, eqb. destruct (eq_dec n default_section); [contradiction|]. reflexivity. }
  unfold sect_lines. cbn [fst snd app]. rewrite (read_cons _ _ _ _ Hd), <- app_assoc.
  destruct (read_items D S n ([[]] ++ R) d [] q [] F ND) as (o & k & q' & J & Sh & Q & E).
  { intros k _. split; [intros []|]. intro X. now apply Fq in X. }
  assert (Qq : forall x, In x q' -> In x q \/ fst x = n) by (intros x X; apply Q in X; tauto).
  destruct Sh as [[-> ->]|(os & ls & Eo & Nl & Nk & Nin)].
  - exists [], [], q'. split; [exact J|]. split; [exact Qq|]. etransitivity; [exact E|]. apply read_cons. reflexivity.
  - destruct (read_blank D S n k q' o os ls Eo Nl Nk Nin) as (o' & J' & E'). exists o', k, q'. split; [now rewrite J', J|]. split; [exact Qq|]. etransitivity; [exact E|]. now apply read_cons.
Qed.
Definition joined_s (S : dict pystr opts) : dict pystr (dict pystr pystr) := map (fun s => (fst s, joined (snd s))) S.
Lemma read_sects D R : forall ss S c k0 q, Forall (fun s => name_ok (fst s)) ss -> Forall (fun s => options_ok (snd s)) ss -> NoDup (map fst ss) ->
  (forall n, In n (map fst ss) -> ~ In n (dkeys S)) -> (forall x, In x q -> ~ In (fst x) (map fst ss)) ->
  exists S' c' k' q', joined_s S' = joined_s S ++ ss /\
  read_lines (Pst D S c k0 0 q false) (flat_map sect_lines ss ++ R) = read_lines (Pst D S' c' k' 0 q' false) R.
Proof.
  induction ss as [|[n d] ss IH]; intros S c k0 q N O ND Fr Fq.
  - exists S, c, k0, q. rewrite app_nil_r. split; reflexivity.
  - inversion N as [|? ? N1 N2]; subst. inversion O as [|? ? O1 O2]; subst. inversion ND as [|? ? D1 D2]; subst. cbn [fst snd] in *.
    cbn [flat_map]. rewrite <- app_assoc.
    assert (Nd : n <> default_section) by apply N1.
    destruct (read_sect D S c k0 q n d (flat_map sect_lines ss ++ R)) as (o & k' & q' & J & Q & E); [now right|exact O1|apply Fr; now left|intro; contradiction| |].
    { intros x X E. apply (Fq x X). left. now symmetry. }
    assert (Pd : put_d D n o = D) by (unfold put_d, eqb; destruct (eq_dec n default_section); [contradiction|reflexivity]).
    assert (Ps : put_s S n o = S ++ [(n, o)]) by (unfold put_s, eqb; destruct (eq_dec n default_section); [contradiction|]; apply dset_new, Fr; now left).
    rewrite Pd, Ps in E. destruct (IH (S ++ [(n, o)]) (Some n) k' q' N2 O2 D2) as (S' & c' & k'' & q'' & J' & E').
    { intros m Im. unfold dkeys. rewrite map_app. intro X. apply in_app_or in X as [X|[X|[]]]; [apply (Fr m); [now right|exact X]|]. cbn in X. subst. contradiction. }
    { intros x X Im. apply Q in X as [X|X]; [apply (Fq x X); now right|]. rewrite X in Im. contradiction. }
    exists S', c', k'', q''. split; [|now rewrite E, E'].
    rewrite J'. unfold joined_s. rewrite map_app, <- app_assoc. cbn [map fst snd app]. now rewrite J.
Qed.
Theorem read_write c : storable c -> read_text (write_text c) = (c, None).
Proof.
  intro C. pose proof (text_lines_clean c C) as Cl. destruct C as [Od [ND N] O].
  unfold read_text. rewrite write_text_lines.
  rewrite newlines_id.
  2:{ intro X. unfold unlines in X. apply in_flat_map in X as (l & Il & X). rewrite Forall_forall in Cl. apply in_app_or in X as [X|[X|[]]]; [|discriminate]. now apply (Cl l Il) in X. }
  rewrite file_lines_unlines by (eapply Forall_impl; [|exact Cl]; intros l X; apply X).
  unfold text_lines. destruct c as [dd ss]. cbn [i_defs i_sects] in *.
  assert (exists D c0 k0 q, joined D = dd /\ (forall x, In x q -> fst x = default_section) /\
    read_lines pst0 ((match dd with [] => [] | p :: l => sect_lines (default_section, p :: l) end) ++ flat_map sect_lines ss) = read_lines (Pst D [] c0 k0 0 q false) (flat_map sect_lines ss)) as (D & c0 & k0 & q & J & Q & E).
  { destruct dd as [|kv dd].
    - exists [], None, [], []. split; [reflexivity|]. split; [intros x []|reflexivity].
    - destruct (read_sect [] [] None [] [] default_section (kv :: dd) (flat_map sect_lines ss)) as (o & k' & q' & J & Q & E); [now left|exact Od|intros []|reflexivity|intros x []|].
      exists o, (Some default_section), k', q'. split; [exact J|]. split; [intros x X; now destruct (Q x X)|]. etransitivity; [exact E|]. reflexivity. }
  destruct (read_sects D [] ss [] c0 k0 q N O ND) as (S' & c' & k' & q' & J' & E').
  { intros n _ []. }
  { intros x X Im. rewrite (Q x X) in Im. apply in_map_iff in Im as (s & Es & Is). rewrite Forall_forall in N. now apply (n_not_default _ (N s Is)). }
  rewrite app_nil_r in E'. rewrite E' in E. cbn [read_lines p_err] in E.
  etransitivity; [exact (f_equal (fun x : pst * option ierr => let (st, e) := x in (result st, e)) E)|]. unfold result. cbn [p_defs p_sects]. change (map (fun s => (fst s, joined (snd s))) S') with (joined_s S'). now rewrite J, J'.
Qed.
