(** * Mock transports: nothing arrives before the delay has passed *)
From Coq Require Import List ZArith Bool Lia.
From Verif Require Import PyBase PyLemmas MockModel MockSpec MockProofs MockProofs2 MockProofs3 MockProofs4 MockProofs5.
Import ListNotations.
Open Scope Z_scope.

Section Delay.
Variables (B : behaviour) (i0 : side) (s b : Z) (L0 : list payload).
Definition okT (a : api) : Prop := match a with ASetDelay i _ _ => i <> i0 | _ => True end.
Definition InvT (_ : toks) (w : world) : Prop :=
  delayed (tr w i0) = Some s /\ b <= w_now w /\ (forall t j, In (t, (i0, j)) (w_jobs w) -> b + s <= t) /\
  (delivered (w_kind w) i0 (w_log w) = L0 \/ b + s <= w_now w).
Definition OwedT (T : toks) (i : side) (_ : payload) (w : world) : Prop := InvT T w /\ (i = i0 -> b + s <= w_now w).
Lemma InvT_set T T' w i t : InvT T w -> delayed t = delayed (tr w i) -> InvT T' (set_tr w i t).
Proof.
  intros (D & N & J & L) E. split; [|now rewrite now_set, jobs_set, kind_set, log_set]. destruct (Bool.bool_dec i0 i) as [X|X]; [subst i; rewrite tr_set_same; congruence|apply other_side in X; rewrite X in *; now rewrite tr_set_neg].
Qed.
Lemma InvT_log T T' w e : InvT T w -> match e with EvData _ _ _ | EvStore _ _ => False | _ => True end -> InvT T' (log w e).
Proof. intros (D & N & J & L) E. split; [now rewrite tr_log|]. cbn [log w_now w_jobs w_kind w_log]. now rewrite delivered_nil. Qed.
Lemma InvT_later T w i d j : InvT T w -> delayed (tr w i) = Some d -> InvT T (fst (later w i d j)).
Proof.
  intros I0 E. apply later_cases; [exact I0|]. destruct I0 as (D & N & J & L). split; [now rewrite tr_jobs|]. split; [exact N|]. split; [|exact L]. cbn [set_jobs w_jobs]. intros t j' X. apply in_app_or in X as [X|[X|[]]]; [eauto|]. injection X as <- <- <-. assert (d = s) by congruence. subst. lia.
Qed.
Theorem invT n hs w w' : history_only okT B hs -> w_jobs w = [] -> InvT idle w -> steps B n w hs = Some w' -> InvT idle w'.
Proof.
  intros [HB HH] J0 P E. apply (steps_inv B okT false InvT OwedT) with (good := fun _ _ => True) (n := n) (hs := hs) (w := w); try exact P; try exact E; try (apply goods_all); try exact HB; try exact HH; [..|rewrite J0; intros ? ? []]; clear P E HB HH J0 hs w w'.
  - intros T w i d I0 _ _ _ C w1. assert (X : InvT T w1) by (apply (InvT_log T); [now apply (InvT_set T)|exact Logic.I]). destruct (delayed (tr w i)) as [x|] eqn:De.
    + apply InvT_later; [exact X|]. unfold w1. now rewrite tr_log, tr_set_same.
    + split; [exact X|]. intros ->. destruct I0 as (D & _). congruence.
  - intros T w i I0 _ _ C _ w1. assert (X : forall T', InvT T' w1) by (intro T'; apply (InvT_log T); [now apply (InvT_set T)|exact Logic.I]). destruct (delayed (tr w i)) as [x|] eqn:De; [|apply X].
    split; [discriminate|]. apply InvT_later; [apply X|]. unfold w1. now rewrite tr_log, tr_set_same.
  - intros T w i l d (D & N & J & L) _ O. cbn in O. split; [|now rewrite now_set, jobs_set, kind_set, log_set]. assert (i = negb i0) as -> by (now apply other_side). now rewrite tr_set_neg'.
  - intros T w i p I0 _ _. now apply (InvT_set T).
  - intros T w i x p ((D & N & J & L) & O) _ _ K _. split; [now rewrite tr_log|]. split; [exact N|]. split; [exact J|]. cbn [log w_kind w_log w_now]. destruct (Bool.bool_dec i i0) as [->|X]; [right; auto|]. destruct L as [L|L]; [|now right]. left. rewrite delivered_snoc, L, K. cbn [delivered got flat_map]. apply other_side in X; subst i. rewrite negb_involutive, eqb_neg'. apply app_nil_r.
  - intros T w i x [I0 _] _ _ _ _. exact I0.
  - intros T w i d ((D & N & J & L) & O) _ K. split; [now rewrite tr_log|]. split; [exact N|]. split; [exact J|]. cbn [log w_kind w_log w_now]. destruct (Bool.bool_dec i i0) as [->|X]; [right; auto|]. destruct L as [L|L]; [|now right]. left. rewrite delivered_snoc, L, K. cbn [delivered stored flat_map]. apply other_side in X; subst i. rewrite eqb_neg. apply app_nil_r.
  - intros T w i z [I0 _] _ _. exact I0.
  - intros T w i _ I0 _ _ _. exact I0.
  - intros T w i p _ I0 _ _ _. now apply (InvT_log T).
  - intros T w i _ I0 _ _. now apply (InvT_set T).
  - intros T w i _ _ _ I0. exact I0.
  - intros w d (D & N & J & L). split; [exact D|]. cbn [set_now w_now w_jobs w_kind w_log]. split; [lia|]. split; [exact J|]. destruct L as [L|L]; [now left|right; lia].
  - intros w k t i j (D & N & J & L) Nx _ N1 w1.
    assert (Sub : forall x, In x (remove_nth k (w_jobs w)) -> In x (w_jobs w)) by (clear; generalize (w_jobs w); induction k as [|k IH]; intros [|y l] x; cbn; auto; intros [->|X]; auto).
    assert (X : forall T, InvT T w1) by (intro T; split; [unfold w1; now rewrite tr_jobs|]; split; [exact N|]; split; [|exact L]; intros t' j' Y; apply (J t' j'); now apply Sub).
    assert (Y : i = i0 -> b + s <= w_now w1). { intros ->. unfold is_next in Nx. rewrite N1 in Nx. apply andb_true_iff in Nx as [Nx _]. apply Z.leb_le in Nx. apply nth_error_In in N1. specialize (J _ _ N1). change (w_now w1) with (w_now w). lia. }
    destruct j as [d|]; [|intros _; apply X]. destruct (w_loop w); [split; auto|]. destruct d as [|y [|z d]]; try apply X. split; auto.
Qed.
End Delay.
