(** * Mock transports: nothing invented, order *)
From Coq Require Import List ZArith Bool Lia Permutation.
From Verif Require Import PyBase PyLemmas MockModel MockSpec MockProofs MockProofs2.
Import ListNotations.
Open Scope Z_scope.

Lemma waiting_snoc i w t s j : waiting i (set_jobs w (w_jobs w ++ [(t, (s, j))])) = waiting i w ++ match j with JWrite d => if Bool.eqb i s then [d] else [] | JClose => [] end.
Proof. unfold waiting. cbn [set_jobs w_jobs]. rewrite flat_map_app. cbn [flat_map snd]. rewrite app_nil_r. now destruct j. Qed.
Lemma waiting_set i w s t : waiting i (set_tr w s t) = waiting i w. Proof. unfold waiting. now rewrite jobs_set. Qed.
Lemma eqb_neg i : Bool.eqb i (negb i) = false. Proof. now destruct i. Qed.
Lemma eqb_neg' i : Bool.eqb (negb i) i = false. Proof. now destruct i. Qed.

(** ** Nothing invented *)
Definition dataP (w : world) (i : side) (pre : list payload) : Prop :=
  exists lost, Permutation (map Bytes (wrote i (w_log w))) (pre ++ delivered (w_kind w) i (w_log w) ++ map Bytes (waiting i w) ++ lost).
Definition InvP (_ : toks) (w : world) : Prop := w_loop w = AsyncLoop /\ forall i, dataP w i [].
Definition OwedP (_ : toks) (i : side) (x : payload) (w : world) : Prop := w_loop w = AsyncLoop /\ dataP w i [x] /\ dataP w (negb i) [].
Lemma dataP_same w w' i pre : wrote i (w_log w') = wrote i (w_log w) -> delivered (w_kind w') i (w_log w') = delivered (w_kind w) i (w_log w) -> waiting i w' = waiting i w -> dataP w i pre -> dataP w' i pre.
Proof. unfold dataP. intros -> -> ->. auto. Qed.
Lemma InvP_same T T' w w' : w_loop w' = w_loop w -> (forall i, wrote i (w_log w') = wrote i (w_log w)) -> (forall i, delivered (w_kind w') i (w_log w') = delivered (w_kind w) i (w_log w)) -> (forall i, waiting i w' = waiting i w) -> InvP T w -> InvP T' w'.
Proof. intros L A C D [P Q]. split; [congruence|]. intro i. apply (dataP_same w); auto. Qed.
Lemma delivered_nil k i l e : match e with EvData _ _ _ | EvStore _ _ => False | _ => True end -> delivered k i (l ++ [e]) = delivered k i l.
Proof. intro H. rewrite delivered_snoc. destruct k, e; cbn; try contradiction; apply app_nil_r. Qed.
Lemma wrote_nil i l e : match e with EvWrite j _ => j = negb i | _ => True end -> wrote i (l ++ [e]) = wrote i l.
Proof. intro H. rewrite wrote_snoc. destruct e; cbn; try apply app_nil_r. subst. rewrite eqb_neg. apply app_nil_r. Qed.
Theorem invP B n hs w w' : w_jobs w = [] -> InvP idle w -> steps B n w hs = Some w' -> InvP idle w'.
Proof.
  intros J P E. apply (steps_inv B (fun _ => True) false InvP OwedP) with (good := fun _ _ => True) (n := n) (hs := hs) (w := w); try exact P; try exact E; try (apply goods_all); try (intros; apply only_all); [..|rewrite J; intros ? ? []]; clear.
  - intros T w i d [L I0] _ _ _ C w1.
    assert (Wi : dataP w1 i [Bytes d]). { unfold w1, dataP. cbn [log w_log w_kind]. rewrite log_set, kind_set, wrote_snoc, delivered_nil, map_app by exact Logic.I. unfold waiting. cbn [log w_jobs]. rewrite jobs_set. fold (waiting i w). cbn [wrote flat_map app]. rewrite Bool.eqb_reflx. cbn [map app]. destruct (I0 i) as [lost Pm]. exists lost. cbn [app] in Pm. rewrite Pm. rewrite Permutation_app_comm. reflexivity. }
    assert (Wn : dataP w1 (negb i) []). { apply (dataP_same w); [| | |apply I0]; unfold w1; cbn [log w_log w_kind]; rewrite ?log_set, ?kind_set, ?wrote_nil, ?delivered_nil; auto. - now rewrite negb_involutive. - unfold waiting. cbn [log w_jobs]. now rewrite jobs_set. }
    assert (L1 : w_loop w1 = AsyncLoop) by (unfold w1; cbn [log w_loop]; now rewrite loop_set).
    destruct (delayed _) as [s|]; [|now split]. apply later_cases.
    + split; [exact L1|]. intro j. destruct (Bool.bool_dec j i) as [->|N]; [|apply other_side in N; subst j; exact Wn]. destruct Wi as [lost Pm]. exists (Bytes d :: lost). rewrite Pm. cbn [app]. rewrite !app_assoc. apply Permutation_middle.
    + split; [exact L1|]. intro j. unfold dataP. rewrite waiting_snoc. cbn [set_jobs w_log w_kind]. destruct (Bool.bool_dec j i) as [->|N].
      * rewrite Bool.eqb_reflx. destruct Wi as [lost Pm]. exists lost. rewrite Pm, map_app. cbn [app map]. rewrite <- !app_assoc. cbn [app]. rewrite !app_assoc. apply Permutation_middle.
      * apply other_side in N; subst j. rewrite eqb_neg', app_nil_r. exact Wn.
  - intros T w i I0 _ _ _ _ w1. assert (X : forall T', InvP T' w1).
    { intro T'. apply (InvP_same T T' w); [unfold w1; cbn [log w_loop]; apply loop_set| | | |exact I0]; intro j; unfold w1; cbn [log w_log w_kind]; rewrite ?log_set, ?kind_set, ?wrote_nil, ?delivered_nil; auto; try exact Logic.I. unfold waiting. cbn [log w_jobs]. now rewrite jobs_set. }
    destruct (delayed _) as [s|]; [|apply X]. split; [discriminate|]. apply later_cases; [apply X|]. apply (InvP_same T T w1); auto. intro j. rewrite waiting_snoc. apply app_nil_r.
  - intros T w i l d I0 _ _. apply (InvP_same T T w); [apply loop_set| | | |exact I0]; intro j; rewrite ?log_set, ?kind_set, ?waiting_set; reflexivity.
  - intros T w i p I0 _ _. apply (InvP_same T T w); [apply loop_set| | | |exact I0]; intro j; rewrite ?log_set, ?kind_set, ?waiting_set; reflexivity.
  - intros T w i x p (L & Wi & Wn) _ _ K _. split; [exact L|]. intro j. destruct (Bool.bool_dec j i) as [->|N].
    + destruct Wi as [lost Pm]. exists lost. cbn [log w_log w_kind app]. rewrite wrote_nil, delivered_snoc by exact Logic.I. rewrite Pm. rewrite K. cbn [delivered got flat_map app]. rewrite Bool.eqb_reflx, <- !app_assoc. cbn [app]. apply Permutation_middle.
    + apply other_side in N; subst j. apply (dataP_same w); [| | |exact Wn]; cbn [log w_log w_kind]; [now apply wrote_nil| |reflexivity]. rewrite delivered_snoc, K. cbn [delivered got flat_map]. rewrite negb_involutive, eqb_neg. apply app_nil_r.
  - intros T w i x (L & Wi & Wn) _ _ _ _. split; [exact L|]. intro j. destruct (Bool.bool_dec j i) as [->|N]; [|apply other_side in N; subst j; exact Wn]. destruct Wi as [lost Pm]. exists (x :: lost). rewrite Pm. cbn [app]. rewrite !app_assoc. apply Permutation_middle.
  - intros T w i d (L & Wi & Wn) _ K. split; [exact L|]. intro j. destruct (Bool.bool_dec j i) as [->|N].
    + destruct Wi as [lost Pm]. exists lost. cbn [log w_log w_kind app]. rewrite wrote_nil, delivered_snoc by exact Logic.I. rewrite Pm. rewrite K. cbn [delivered stored flat_map app]. rewrite Bool.eqb_reflx, <- !app_assoc. cbn [app map]. apply Permutation_middle.
    + apply other_side in N; subst j. apply (dataP_same w); [| | |exact Wn]; cbn [log w_log w_kind]; [now apply wrote_nil| |reflexivity]. rewrite delivered_snoc, K. cbn [delivered stored flat_map]. rewrite eqb_neg'. apply app_nil_r.
  - intros T w i z (L & Wi & Wn) _ _. split; [exact L|]. intro j. destruct (Bool.bool_dec j i) as [->|N]; [|apply other_side in N; subst j; exact Wn]. destruct Wi as [lost Pm]. exists (Int z :: lost). rewrite Pm. cbn [app]. rewrite !app_assoc. apply Permutation_middle.
  - intros T w i _ I0 _ _ _. exact I0.
  - intros T w i p _ I0 _ _ _. apply (InvP_same T _ w); [reflexivity| | | |exact I0]; intro j; cbn [log w_log w_kind]; [now apply wrote_nil|now apply delivered_nil|reflexivity].
  - intros T w i _ I0 _ _. apply (InvP_same T _ w); [apply loop_set| | | |exact I0]; intro j; rewrite ?log_set, ?kind_set, ?waiting_set; reflexivity.
  - intros T w i _ _ _ I0. exact I0.
  - intros w d I0. exact I0.
  - intros w k t i j [L I0] _ _ N w1. assert (R : forall s, Permutation (waiting s w) (match j with JWrite d => if Bool.eqb s i then [d] else [] | JClose => [] end ++ waiting s w1)) by (intro s; unfold waiting; rewrite (remove_perm _ k _ _ N); cbn [snd]; destruct j; reflexivity).
    assert (L1 : w_loop w1 = AsyncLoop) by exact L.
    assert (D : forall s pre, match j with JWrite d => if Bool.eqb s i then pre = [Bytes d] else pre = [] | JClose => pre = [] end -> dataP w1 s pre).
    { intros s pre X. destruct (I0 s) as [lost Pm]. exists lost. change (w_log w1) with (w_log w). change (w_kind w1) with (w_kind w). rewrite Pm. rewrite (Permutation_map Bytes (R s)). destruct j as [d|]; [|subst; reflexivity]. destruct (Bool.eqb s i); subst; [|reflexivity]. cbn [map app]. symmetry. apply Permutation_middle. }
    destruct j as [d|]; [rewrite L; split; [exact L1|split; apply D; [now rewrite Bool.eqb_reflx|now rewrite eqb_neg']]|]. intros _. split; [exact L1|]. intro s. now apply D.
Qed.
