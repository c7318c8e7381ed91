(** * Mock transports: who is told, and histories that need no order of the loop *)
From Coq Require Import List ZArith Bool Lia.
From Verif Require Import PyBase PyLemmas MockModel MockSpec MockProofs MockProofs2 MockProofs3 MockProofs4 MockProofs5.
Import ListNotations.
Open Scope Z_scope.

Definition okF (a : api) : Prop := match a with ASetProtocol _ _ => False | _ => True end.
Section Who.
Variable B : behaviour.
Variable P : side -> nat.
Definition his (e : event) : Prop := match e with EvData i p _ | EvLost i p => p = P i | _ => True end.
Record sideF (T : tok) (i : side) (t : transport) (l : list event) : Prop := {
  f_close : t_closed t = true <-> In (EvClose i) l;
  f_proto : t_protocol t = Some (P i) \/ t_protocol t = None /\ losses i l <> [];
  f_losing : T = Losing -> losses i l <> []
}.
Definition InvF (T : toks) (w : world) : Prop := (forall i, sideF (tget T i) i (tr w i) (w_log w)) /\ Forall his (w_log w).
Lemma sideF_snoc T i t l e : sideF T i t l -> e <> EvClose i -> sideF T i t (l ++ [e]).
Proof.
  intros [A C D] N. assert (L : losses i l <> [] -> losses i (l ++ [e]) <> []) by (intros H X; rewrite losses_snoc in X; now apply app_eq_nil in X). split.
  - rewrite A. split; [intro X; apply in_or_app; now left|]. intro X. apply in_app_or in X as [X|[X|[]]]; [exact X|now apply N in X].
  - destruct C as [C|[C1 C2]]; [now left|right; auto].
  - auto.
Qed.
Lemma InvF_jobs T w js : InvF T w -> InvF T (set_jobs w js). Proof. auto. Qed.
Lemma InvF_same T w i t e : InvF T w -> t_closed t = t_closed (tr w i) -> t_protocol t = t_protocol (tr w i) -> (forall j, e <> EvClose j) -> his e -> InvF T (log (set_tr w i t) e).
Proof.
  intros [A F] C D N H. split; cbn [log w_log]; rewrite log_set; [|now apply Forall_app; split; [|constructor]]. intro j. rewrite tr_log. apply sideF_snoc; [|apply N]. revert j. apply (tr_case w (fun j t => sideF (tget T j) j t (w_log w))); [|apply A]. destruct (A i) as [X Y Z0]. split; rewrite ?C, ?D; assumption.
Qed.
Lemma InvF_log T w e : InvF T w -> (forall j, e <> EvClose j) -> his e -> InvF T (log w e).
Proof. intros [A F] N H. split; cbn [log w_log]; [|now apply Forall_app; split; [|constructor]]. intro j. rewrite tr_log. now apply sideF_snoc. Qed.
Theorem invF n hs w w' : history_only okF B hs -> w_jobs w = [] -> InvF idle w -> steps B n w hs = Some w' -> InvF idle w'.
Proof.
  intros [HB HH] J P0 E. apply (steps_inv B okF false InvF (fun T _ _ w => InvF T w)) with (good := fun _ _ => True) (n := n) (hs := hs) (w := w); try exact P0; try exact E; try (apply goods_all); try exact HB; try exact HH; [..|rewrite J; intros ? ? []]; clear P0 E J HB HH hs w w'.
  - intros T w i d I0 _ _ _ C w1. assert (X : InvF T w1) by (apply InvF_same; auto; try discriminate; exact Logic.I). destruct (delayed _); [|exact X]. apply later_cases; [exact X|now apply InvF_jobs].
  - intros T w i [A F] _ _ C Ti w1.
    assert (X : forall T', (forall k, tget T' k = Losing -> tget T k = Losing) -> InvF T' w1).
    { intros T' X1. unfold w1. split; cbn [log w_log]; rewrite log_set; [|apply Forall_app; split; [exact F|now repeat constructor]]. intro j. rewrite tr_log. destruct (Bool.bool_dec j i) as [->|N].
      - rewrite tr_set_same. destruct (A i) as [a b c]. assert (L : losses i (w_log w ++ [EvClose i]) = losses i (w_log w)) by (now apply losses_same). split; rewrite ?L; auto. split; [intros _; apply in_or_app; right; now left|reflexivity].
      - apply other_side in N; subst j. rewrite tr_set_neg. apply sideF_snoc; [|destruct i; discriminate]. destruct (A (negb i)) as [a b c]. split; auto. }
    destruct (delayed _) as [s|].
    + split; [discriminate|]. apply later_cases; [apply X; auto|apply InvF_jobs; apply X; auto].
    + apply X. intros k Y. destruct (Bool.bool_dec k i) as [->|N]; [rewrite tget_same in Y; discriminate|]. apply other_side in N; subst k. now rewrite tget_neg in Y.
  - intros T w i l d [A F] _ _. split; rewrite log_set; [|exact F]. apply (tr_case w (fun j t => sideF (tget T j) j t (w_log w))); [|apply A]. destruct (A i) as [X Y Z0]. unfold set_delay. destruct (negb l && (0 <? d)); split; assumption.
  - intros T w i p _ _ [].
  - intros T w i x p I0 _ _ _ Pr. apply InvF_log; auto; [discriminate|]. cbn. destruct I0 as [A _]. destruct (A (negb i)) as [_ [Y|[Y _]] _]; congruence.
  - intros T w i x I0 _ _ _ _. exact I0.
  - intros T w i d I0 _ _. apply InvF_log; auto; [discriminate|exact Logic.I].
  - intros T w i z I0 _ _. exact I0.
  - intros T w i Ti [A F] _ _ _. split; [|exact F]. intro k. destruct (A k) as [a b c]. split; auto. destruct (Bool.bool_dec k i) as [->|N]; [rewrite tget_same; discriminate|]. apply other_side in N; subst k. now rewrite tget_neg.
  - intros T w i p Ti I0 _ _ Pr. assert (X : InvF T (log w (EvLost i p))). { apply InvF_log; auto; [discriminate|]. cbn. destruct I0 as [A _]. destruct (A i) as [_ [Y|[Y _]] _]; congruence. }
    destruct X as [A F]. split; [|exact F]. intro k. destruct (A k) as [a b c]. split; auto. destruct (Bool.bool_dec k i) as [->|N]; [|apply other_side in N; subst k; now rewrite tget_neg]. intros _. cbn [log w_log]. rewrite losses_snoc. cbn. rewrite Bool.eqb_reflx. intro Y. apply app_eq_nil in Y as [_ Y]. discriminate.
  - intros T w i Ti [A F] _ _. split; rewrite log_set; [|exact F]. intro k. destruct (Bool.bool_dec k i) as [->|N].
    + rewrite tr_set_same, tget_same. destruct (A i) as [a b c]. split; [exact a| |discriminate]. right. split; [reflexivity|auto].
    + apply other_side in N; subst k. rewrite tr_set_neg, tget_neg. apply A.
  - intros T w i Ti _ _ [A F]. split; [|exact F]. intro k. destruct (A k) as [a b c]. split; auto. destruct (Bool.bool_dec k i) as [->|N]; [rewrite tget_same; discriminate|]. apply other_side in N; subst k. now rewrite tget_neg.
  - intros w d I0. exact I0.
  - intros w k t i j [A F] _ _ _ w1. assert (X : forall T', (forall k, tget T' k <> Losing) -> InvF T' w1) by (intros T' X1; split; [|exact F]; intro k0; unfold w1; rewrite tr_jobs; destruct (A k0) as [a b c]; split; auto; intro Y; now apply X1 in Y).
    destruct j as [d|]; [|intros _; apply X; intros [|]; destruct i; discriminate]. assert (Y : InvF idle w1) by (apply X; intros [|]; discriminate). destruct (w_loop w); [exact Y|]. destruct d as [|x [|y d]]; exact Y.
Qed.
End Who.

(** without delays the loop has nothing to run *)
Lemma fifo_none B n D rcv hs : (forall i, D i = None) -> forall w, history_only (okC rcv) B hs -> w_jobs w = [] -> InvC D rcv idle w -> fifo B n w hs.
Proof.
  intro Dn. induction hs as [|h hs IH]; intros w [HB HH] J H; [exact Logic.I|].
  assert (Nn : forall k, is_next w k = false) by (intro k; unfold is_next; rewrite J; now destruct k).
  assert (F1 : match h with HFire k => is_next w k = true -> first_of w k | _ => True end) by (destruct h; auto; rewrite Nn; discriminate).
  cbn [fifo]. split; [exact F1|]. destruct (step B n w h) as [w1|] eqn:E; [|exact Logic.I].
  assert (I1 : InvC D rcv idle w1). { apply (invC B D rcv n [h] w w1); auto; [split; [exact HB|intros c [X|[]]; apply HH; now left]| |cbn [steps]; now rewrite E]. cbn [fifo]. split; [exact F1|]. now rewrite E. }
  apply IH; auto; [split; [exact HB|intros c X; apply HH; now right]|]. destruct I1 as [S1 _]. destruct (w_jobs w1) as [|[t [i j]] js] eqn:Jw; [reflexivity|]. exfalso. destruct (c_bound _ _ _ _ S1 t i j) as (d & X & _); [rewrite Jw; now left|]. rewrite Dn in X. discriminate.
Qed.
Lemma only_weaken (ok ok' : api -> Prop) c : (forall a, ok a -> ok' a) -> only ok c -> only ok' c.
Proof. intros H. induction 1; constructor; auto. Qed.
Lemma history_weaken (ok ok' : api -> Prop) B hs : (forall a, ok a -> ok' a) -> history_only ok B hs -> history_only ok' B hs.
Proof. intros H [A C]. split; intros; eapply only_weaken; eauto. Qed.
