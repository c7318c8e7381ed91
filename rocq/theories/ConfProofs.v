(** * Configuration handles: values and places *)
From Coq Require Import String.
From Coq Require Import List ZArith Bool Lia.
From Verif Require Import PyBase PyLemmas PnmsModel IniModel IniSpec ConfModel ConfSpec.
Import ListNotations.
Open Scope Z_scope.

Ltac zp p := first [reflexivity | discriminate | congruence | destruct p as [p|p|]; zp p].
Ltac zpat c := let p := fresh "p" in destruct c as [|p|p]; [first [reflexivity|discriminate|congruence]|zp p|first [reflexivity|discriminate|congruence]].
(** ** Interpolation *)
Section Scan.
  Variable sub : pystr -> out pystr.
  Variable m : pystr -> option pystr.
  Fixpoint scan (n : nat) (rest : pystr) : out pystr :=
    match n, rest with
    | _, [] | O, _ => Fine []
    | S n', 37 :: rest1 =>
        match rest1 with
        | 37 :: r => cat [37] (scan n' r)
        | 40 :: _ =>
            match reference rest with
            | None => Fail EInterpolationSyntax
            | Some (k, r) =>
                match m (lower k) with
                | None => Fail EInterpolationMissing
                | Some v =>
                    if smem v 37
                    then match sub v with Fine a => cat a (scan n' r) | Fail e => Fail e end
                    else cat v (scan n' r)
                end
            end
        | _ => Fail EInterpolationSyntax
        end
    | S n', c :: r => cat [c] (scan n' r)
    end.
  Lemma scan_char n c r : c <> 37 -> scan (S n) (c :: r) = cat [c] (scan n r).
  Proof. intro N. cbn [scan]. zpat c. Qed.
  Lemma scan_pct n r : scan (S n) (37 :: 37 :: r) = cat [37] (scan n r).
  Proof. reflexivity. Qed.
  Lemma scan_ref n r : scan (S n) (37 :: 40 :: r) =
    match reference (37 :: 40 :: r) with
    | None => Fail EInterpolationSyntax
    | Some (k, r) =>
        match m (lower k) with
        | None => Fail EInterpolationMissing
        | Some v => if smem v 37 then match sub v with Fine a => cat a (scan n r) | Fail e => Fail e end else cat v (scan n r)
        end
    end.
  Proof. reflexivity. Qed.
  Lemma scan_bad n r : (forall s, r <> 37 :: s) -> (forall s, r <> 40 :: s) -> scan (S n) (37 :: r) = Fail EInterpolationSyntax.
  Proof.
    intros A B. destruct r as [|c r]; [reflexivity|]. destruct (Z.eq_dec c 37) as [->|N1]; [now destruct (A r)|]. destruct (Z.eq_dec c 40) as [->|N2]; [now destruct (B r)|].
    cbn [scan]. zpat c.
  Qed.
End Scan.
Lemma interpolate_scan d m v : interpolate (S d) m v = scan (interpolate d m) m (List.length v) v.
Proof. reflexivity. Qed.
Lemma until_paren_some s n t : until_paren s = Some (n, t) <-> s = n ++ 41 :: t /\ ~ In 41 n.
Proof.
  revert n t. induction s as [|c s IH]; intros n t; split.
  - discriminate.
  - intros [E _]. destruct n; discriminate.
  - intro E. destruct (Z.eq_dec c 41) as [->|N].
    + injection E as <- <-. split; [reflexivity|intros []].
    + assert (E' : match until_paren s with Some (n, t) => Some (c :: n, t) | None => None end = Some (n, t)) by (rewrite <- E; cbn [until_paren]; zpat c).
      destruct (until_paren s) as [[n' t']|] eqn:U; [|discriminate]. injection E' as <- <-. destruct (proj1 (IH n' t') eq_refl) as [-> H]. split; [reflexivity|]. intros [X|X]; [congruence|contradiction].
  - intros [E H]. destruct n as [|x n].
    + injection E as -> ->. reflexivity.
    + injection E as -> E. assert (N : x <> 41) by (intro X; apply H; now left). assert (U : until_paren s = Some (n, t)) by (apply IH; split; [exact E|intro X; apply H; now right]).
      assert (E' : until_paren (x :: s) = match until_paren s with Some (n, t) => Some (x :: n, t) | None => None end) by (cbn [until_paren]; zpat x).
      rewrite E', U. reflexivity.
Qed.
Lemma reference_some s k t : reference s = Some (k, t) <-> s = lit "%(" ++ k ++ lit ")s" ++ t /\ k <> [] /\ ~ In 41 k.
Proof.
  split.
  - intro E. unfold reference in E. destruct s as [|a [|b s]]; [discriminate| |]; [zpat a|].
    destruct (Z.eq_dec a 37) as [->|N]; [|exfalso; zpat a].
    destruct (Z.eq_dec b 40) as [->|N]; [|exfalso; zpat b].
    destruct (until_paren s) as [[n u]|] eqn:U; [|discriminate]. apply until_paren_some in U as [-> H]. destruct n as [|x n]; [discriminate|]. destruct u as [|y u]; [discriminate|].
    destruct (Z.eq_dec y 115) as [->|N]; [|exfalso; zpat y].
    injection E as <- <-. split; [reflexivity|]. split; [discriminate|exact H].
  - intros (-> & N & H). assert (U : until_paren (k ++ 41 :: 115 :: t) = Some (k, 115 :: t)) by (now apply until_paren_some).
    change (match until_paren (k ++ 41 :: 115 :: t) with Some ((_ :: _) as n, 115 :: t) => Some (n, t) | _ => None end = Some (k, t)). rewrite U. now destruct k.
Qed.
Lemma cat_fine a b s : cat a b = Fine s <-> exists s', b = Fine s' /\ s = a ++ s'.
Proof. destruct b; cbn; split; intro H; try discriminate; [injection H as <-; eauto|destruct H as (s' & E & ->); now injection E as ->|destruct H as (s' & E & _); discriminate]. Qed.
Lemma smem_false {A} `{EqDec A} (s : list A) x : smem s x = false <-> ~ In x s.
Proof. rewrite <- smem_true. destruct (smem s x); split; congruence. Qed.
Lemma scan_means d m : (forall v s, interpolate d m v = Fine s <-> exists d', d = S d' /\ means m d' v s) ->
  forall n v s, (List.length v <= n)%nat -> scan (interpolate d m) m n v = Fine s <-> means m d v s.
Proof.
  intro Sub. induction n as [|n IH]; intros v s L.
  - destruct v as [|c v]; [|cbn in L; lia]. split; [intro E; injection E as <-; constructor|intro M; inversion M; try reflexivity; destruct k; discriminate].
  - destruct v as [|c v]; [split; [intro E; injection E as <-; constructor|intro M; inversion M; reflexivity]|].
    cbn [List.length] in L. destruct (Z.eq_dec c 37) as [->|Nc].
    2:{ rewrite scan_char by exact Nc. rewrite cat_fine. split.
        - intros (s' & E & ->). apply (m_char m d c v s' Nc). apply IH; [lia|exact E].
        - intro M. inversion M; subst; try congruence. eexists. split; [apply IH; [lia|eassumption]|reflexivity]. }
    destruct v as [|b v].
    { rewrite scan_bad by discriminate. split; [discriminate|]. intro M. inversion M; subst; try congruence; try discriminate. }
    cbn [List.length] in L.
    destruct (Z.eq_dec b 37) as [->|N1].
    { rewrite scan_pct, cat_fine. split.
      - intros (s' & E & ->). apply (m_percent m d v s'). apply IH; [lia|exact E].
      - intro M. inversion M; subst; try congruence; try discriminate. eexists. split; [apply IH; [lia|eassumption]|reflexivity]. }
    destruct (Z.eq_dec b 40) as [->|N2].
    2:{ rewrite scan_bad by (intros s' E; congruence). split; [discriminate|]. intro M. inversion M; subst; try congruence. }
    rewrite scan_ref. destruct (reference (37 :: 40 :: v)) as [[k r]|] eqn:R.
    2:{ split; [discriminate|]. intro M. exfalso. inversion M; subst; try congruence.
        - assert (X : reference (lit "%(" ++ k ++ lit ")s" ++ v0) = Some (k, v0)) by (now apply reference_some). cbn in X, R. congruence.
        - assert (X : reference (lit "%(" ++ k ++ lit ")s" ++ v0) = Some (k, v0)) by (now apply reference_some). cbn in X, R. congruence. }
    pose proof R as R0. apply reference_some in R0 as (Ev & Nk & Hk).
    assert (Lr : (List.length r <= n)%nat). { apply (f_equal (@List.length Z)) in Ev. rewrite !app_length in Ev. cbn [List.length lit] in Ev. destruct k; [congruence|]. cbn [List.length] in Ev. lia. }
    assert (Inv : forall k0 v0, 37 :: 40 :: v = lit "%(" ++ k0 ++ lit ")s" ++ v0 -> k0 <> [] -> ~ In 41 k0 -> k0 = k /\ v0 = r).
    { intros k0 v0 E0 K1 K2. assert (X : reference (37 :: 40 :: v) = Some (k0, v0)) by (apply reference_some; now split). rewrite R in X. injection X as -> ->. now split. }
    destruct (m (lower k)) as [x|] eqn:Mx.
    2:{ split; [discriminate|]. intro M. exfalso. inversion M; subst; try congruence.
        - destruct (Inv k0 v0) as [-> ->]; [now symmetry|assumption|assumption|congruence].
        - destruct (Inv k0 v0) as [-> ->]; [now symmetry|assumption|assumption|congruence]. }
    rewrite Ev. destruct (smem x 37) eqn:Sx.
    + apply smem_true in Sx. split.
      * intro E. destruct (interpolate d m x) as [a|] eqn:Ia; [|discriminate]. apply cat_fine in E as (s' & E & ->). apply Sub in Ia as (d' & -> & Ma). apply IH in E; [|exact Lr]. now apply (m_deep m d' k x a r s').
      * rewrite <- Ev. intro M. inversion M; subst; try congruence.
        -- destruct (Inv k0 v0) as [-> ->]; [now symmetry|assumption|assumption|congruence].
        -- destruct (Inv k0 v0) as [-> ->]; [now symmetry|assumption|assumption|]. assert (x0 = x) by congruence. subst x0.
           assert (Ia : interpolate (S d0) m x = Fine y) by (apply Sub; eauto). rewrite Ia. apply cat_fine. eexists. split; [apply IH; [exact Lr|eassumption]|reflexivity].
    + apply smem_false in Sx. rewrite cat_fine. split.
      * intros (s' & E & ->). apply IH in E; [|exact Lr]. now apply (m_plain m d k x r s').
      * rewrite <- Ev. intro M. inversion M; subst; try congruence.
        -- destruct (Inv k0 v0) as [-> ->]; [now symmetry|assumption|assumption|]. assert (x0 = x) by congruence. subst x0. eexists. split; [apply IH; [exact Lr|eassumption]|reflexivity].
        -- destruct (Inv k0 v0) as [-> ->]; [now symmetry|assumption|assumption|congruence].
Qed.
Lemma interpolate_means d m : forall v s, interpolate d m v = Fine s <-> exists d', d = S d' /\ means m d' v s.
Proof.
  induction d as [|d IH]; intros v s; [split; [discriminate|intros (d' & E & _); discriminate]|].
  rewrite interpolate_scan, (scan_means d m IH) by lia. split; [eauto|]. intros (d' & E & M). injection E as ->. exact M.
Qed.

(** ** Escaped values *)
Lemma escaped_cons c s : escaped (c :: s) = (if c =? 37 then [37; 37] else [c]) ++ escaped s.
Proof. reflexivity. Qed.
Lemma means_escaped m d s : means m d (escaped s) s.
Proof.
  induction s as [|c s IH]; [constructor|]. rewrite escaped_cons. destruct (Z.eqb_spec c 37) as [->|N]; [now apply (m_percent m d)|now apply (m_char m d)].
Qed.
Lemma drop_escapes_char c s : c <> 37 -> drop_escapes (c :: s) = c :: drop_escapes s.
Proof. intro N. cbn [drop_escapes]. zpat c. Qed.
Lemma drop_escaped s : ~ In 37 (drop_escapes (escaped s)).
Proof.
  induction s as [|c s IH]; [intros []|]. rewrite escaped_cons. destruct (Z.eqb_spec c 37) as [->|N]; [exact IH|]. cbn [app]. rewrite drop_escapes_char by exact N. intros [X|X]; [congruence|contradiction].
Qed.
Lemma drop_references_incl n : forall s c, In c (drop_references n s) -> In c s.
Proof.
  induction n as [|n IH]; intros s c X; [exact X|]. cbn [drop_references] in X. destruct (reference s) as [[k t]|] eqn:R.
  - apply IH in X. apply reference_some in R as (-> & _ & _). apply in_or_app. right. apply in_or_app. right. apply in_or_app. now right.
  - destruct s as [|x s]; [exact X|]. destruct X as [X|X]; [now left|right; now apply IH].
Qed.
Lemma settable_escaped s : settable (escaped s) = true.
Proof. unfold settable. apply negb_true_iff, smem_false. intro X. apply drop_references_incl in X. now apply drop_escaped in X. Qed.

(** ** Places *)
Definition order_ok (s : search) : Prop := forall i, In i (s_order s) -> exists p, dget (s_paths s) i = Some (Some p).
Lemma run_snoc os o : forall w, run w (os ++ [o]) = fst (step (run w os) o).
Proof. induction os as [|x os IH]; intro w; [reflexivity|]. cbn [app run]. apply IH. Qed.
Lemma run_app os os' : forall w, run w (os ++ os') = run (run w os) os'.
Proof. induction os as [|x os IH]; intro w; [reflexivity|]. cbn [app run]. apply IH. Qed.
Lemma step_search w o : w_home (fst (step w o)) = w_home w /\
  (w_search (fst (step w o)) = w_search w \/ exists id p, o = OAddCustomPath id p /\ dhas (s_paths (w_search w)) id = false /\ w_search (fst (step w o)) = Search (dset (s_paths (w_search w)) id (Some p)) (id :: s_order (w_search w))).
Proof.
  assert (WP : forall i k, (forall c, w_home (fst (k c)) = w_home w /\ w_search (fst (k c)) = w_search w) -> w_home (fst (with_parser w i k)) = w_home w /\ w_search (fst (with_parser w i k)) = w_search w) by (intros i k H; unfold with_parser; destruct (parser w i); [apply H|now split]).
  assert (WH : forall i k, (forall h, w_home (fst (k h)) = w_home w /\ w_search (fst (k h)) = w_search w) -> w_home (fst (with_handle w i k)) = w_home w /\ w_search (fst (with_handle w i k)) = w_search w) by (intros i k H; unfold with_handle; destruct (nth_error _ i); [apply H|now split]).
  assert (UP : forall i r, w_home (fst (update w i r)) = w_home w /\ w_search (fst (update w i r)) = w_search w) by (intros i [c|e]; now split).
  assert (Q : (forall id p, o <> OAddCustomPath id p) -> w_home (fst (step w o)) = w_home w /\ w_search (fst (step w o)) = w_search w).
  { intro N. destruct o; cbn [step]; try (now split); try (now destruct (N id path)).
    - unfold open_file. destruct a; try (now split); destruct cr; try (now split); destruct (where_ w location) as [[l|]|e]; try (now split); cbv zeta;
        (match goal with |- context [if ?b then put_file ?a1 ?a2 ?a3 else ?a4] => destruct b | _ => idtac end);
        destruct (dget _ (path_of l identifier)) as [[t tm]|]; try (now split); destruct (load t s) as [c [e|]]; now split.
    - apply WH. intro hd. unfold reload. destruct (dget _ _) as [[t tm]|]; [|now split]. destruct (_ || _); [|now split]. cbv zeta. destruct (load t _) as [c [e|]]; now split.
    - apply WH. intro hd. unfold save. destruct (h_access hd); try (now split). destruct (parser w _); now split.
    - apply WH. intro hd. now split.
    - apply WH. intro hd. apply WP. intro c. now split.
    - apply WH. intro hd. apply WP. intro c. destruct (assign_section c n kvs) as [c' [e|]]; now split.
    - apply WH. intro hd. apply WP. intro c. now split.
    - apply WH. intro hd. apply WP. intro c. apply UP.
    - apply WP. intro c. now split.
    - apply WP. intro c. now split.
    - apply WP. intro c. apply UP.
    - apply WP. intro c. apply UP. }
  destruct o; try (destruct Q as [Q1 Q2]; [discriminate|split; [exact Q1|left; exact Q2]]).
  cbn [step]. unfold add_custom_path. destruct (dhas (s_paths (w_search w)) id) eqn:D; cbn [fst]; (split; [reflexivity|]); [now left|]. right. exists id, path. auto.
Qed.
