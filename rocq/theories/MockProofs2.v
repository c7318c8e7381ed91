(** * Mock transports: counts, at most one connection_lost, nothing invented *)
From Coq Require Import List ZArith Bool Lia Permutation.
From Verif Require Import PyBase PyLemmas MockModel MockSpec MockProofs.
Import ListNotations.
Open Scope Z_scope.

Lemma wrote_snoc i l e : wrote i (l ++ [e]) = wrote i l ++ wrote i [e]. Proof. apply flat_map_app. Qed.
Lemma got_snoc i l e : got i (l ++ [e]) = got i l ++ got i [e]. Proof. apply flat_map_app. Qed.
Lemma stored_snoc i l e : stored i (l ++ [e]) = stored i l ++ stored i [e]. Proof. apply flat_map_app. Qed.
Lemma losses_snoc i l e : losses i (l ++ [e]) = losses i l ++ losses i [e]. Proof. apply flat_map_app. Qed.
Lemma delivered_snoc k i l e : delivered k i (l ++ [e]) = delivered k i l ++ delivered k i [e].
Proof. destruct k; cbn [delivered]; [apply got_snoc|]. now rewrite stored_snoc, map_app. Qed.
Definition closes (i : side) (w : world) : nat := List.length (filter (fun j => match snd j with (s, JClose) => Bool.eqb i s | _ => false end) (w_jobs w)).

Lemma later_cases w i d j (P : world -> Prop) : P w -> P (set_jobs w (w_jobs w ++ [(w_now w + d, (i, j))])) -> P (fst (later w i d j)).
Proof. unfold later. destruct (t_loop (tr w i)); auto. Qed.
Lemma tr_case w (P : side -> transport -> Prop) i t : P i t -> P (negb i) (tr w (negb i)) -> forall j, P j (tr (set_tr w i t) j).
Proof. intros A C j. destruct (Bool.bool_dec j i) as [->|N]; [now rewrite tr_set_same|]. apply other_side in N. subst j. now rewrite tr_set_neg. Qed.

Lemma remove_filter {A} (f : A -> bool) k : forall l x, nth_error l k = Some x -> List.length (filter f l) = ((if f x then 1 else 0) + List.length (filter f (remove_nth k l)))%nat.
Proof.
  induction k as [|k IH]; intros [|y l] x E; try discriminate; cbn in E; cbn [remove_nth filter].
  - injection E as ->. destruct (f x); reflexivity.
  - destruct (f y); cbn [List.length]; rewrite (IH l x E); lia.
Qed.
Lemma remove_perm {A C} (f : A -> list C) k : forall l x, nth_error l k = Some x -> Permutation (flat_map f l) (f x ++ flat_map f (remove_nth k l)).
Proof.
  induction k as [|k IH]; intros [|y l] x E; try discriminate; cbn in E; cbn [remove_nth flat_map].
  - now injection E as ->.
  - rewrite (IH l x E). rewrite !app_assoc. apply Permutation_app_tail. apply Permutation_app_comm.
Qed.
Lemma closes_snoc i w t s j : closes i (set_jobs w (w_jobs w ++ [(t, (s, j))])) = (closes i w + match j with JClose => if Bool.eqb i s then 1 else 0 | _ => 0 end)%nat.
Proof. unfold closes. cbn [set_jobs w_jobs]. rewrite filter_app, app_length. cbn [filter snd]. destruct j; [reflexivity|]. destruct (Bool.eqb i s); reflexivity. Qed.
Lemma only_all c : only (fun _ => True) c. Proof. induction c; constructor; auto. Qed.

(** ** Counts, and at most one connection_lost *)
Record sideA (T : tok) (t : transport) (wr lo cl : nat) : Prop := {
  a_count : t_count t = wr;
  a_lost : (lo + cl + match T with Closing => 1 | _ => 0 end <= if t_closed t then 1 else 0)%nat
}.
Definition InvA (T : toks) (w : world) : Prop := forall i, sideA (tget T i) (tr w i) (List.length (wrote i (w_log w))) (List.length (losses i (w_log w))) (closes i w).
Lemma InvA_sides T w T' w' i : InvA T w ->
  sideA (tget T' i) (tr w' i) (List.length (wrote i (w_log w'))) (List.length (losses i (w_log w'))) (closes i w') ->
  tget T' (negb i) = tget T (negb i) -> tr w' (negb i) = tr w (negb i) -> wrote (negb i) (w_log w') = wrote (negb i) (w_log w) -> losses (negb i) (w_log w') = losses (negb i) (w_log w) -> closes (negb i) w' = closes (negb i) w -> InvA T' w'.
Proof. intros H S0 A C D F G j. destruct (Bool.bool_dec j i) as [->|N]; [exact S0|]. apply other_side in N. subst j. rewrite A, C, D, F, G. apply H. Qed.
Ltac sideA_tac i := autorewrite with mock; cbn [log w_log]; rewrite ?log_set, ?wrote_snoc, ?losses_snoc, ?app_length; unfold closes; cbn [set_jobs log w_jobs wrote losses flat_map app List.length]; rewrite ?jobs_set, ?Bool.eqb_reflx; cbn [List.length app].
Theorem invA B n hs w w' : w_jobs w = [] -> InvA idle w -> steps B n w hs = Some w' -> InvA idle w'.
Proof.
  intros J P E. apply (steps_inv B (fun _ => True) false InvA (fun T _ _ w => InvA T w)) with (good := fun _ _ => True) (n := n) (hs := hs) (w := w); try exact P; try exact E; try (apply goods_all); try (intros; apply only_all); [..|rewrite J; intros ? ? []]; clear.
  - intros T w i d I0 _ _ _ C w1. assert (X : InvA T w1).
    { destruct (I0 i) as [a b]. apply (InvA_sides T w T w1 i I0); unfold w1.
      - sideA_tac i. split; cbn [count_write t_count t_closed]; [lia|]. unfold closes in b. lia.
      - reflexivity.
      - now autorewrite with mock.
      - cbn [log w_log]. rewrite log_set, wrote_snoc. cbn. destruct i; cbn; apply app_nil_r.
      - cbn [log w_log]. rewrite log_set, losses_snoc. apply app_nil_r.
      - unfold closes. cbn [log w_jobs]. now rewrite jobs_set. }
    destruct (delayed _); [|exact X]. apply later_cases; [exact X|]. intro j. rewrite tr_jobs, closes_snoc, Nat.add_0_r. apply X.
  - intros T w i I0 Ba _ C Ti w1. destruct (I0 i) as [a b]. unfold closed in C. rewrite C in b. rewrite Ti in b.
    assert (O1 : tr w1 (negb i) = tr w (negb i)) by (unfold w1; now autorewrite with mock). assert (O2 : wrote (negb i) (w_log w1) = wrote (negb i) (w_log w)) by (unfold w1; cbn [log w_log]; rewrite log_set, wrote_snoc; apply app_nil_r). assert (O3 : losses (negb i) (w_log w1) = losses (negb i) (w_log w)) by (unfold w1; cbn [log w_log]; rewrite log_set, losses_snoc; apply app_nil_r).
    assert (O4 : forall j, closes j w1 = closes j w) by (intro j; unfold w1, closes; cbn [log w_jobs]; now rewrite jobs_set).
    assert (S0 : tr w1 i = set_closed (tr w i) /\ wrote i (w_log w1) = wrote i (w_log w) /\ losses i (w_log w1) = losses i (w_log w)) by (unfold w1; autorewrite with mock; cbn [log w_log]; rewrite log_set, wrote_snoc, losses_snoc; cbn; now rewrite !app_nil_r). destruct S0 as (S1 & S2 & S3).
    destruct (delayed _) as [s|].
    + split; [discriminate|]. apply later_cases.
      * apply (InvA_sides T w T w1 i I0); auto. rewrite S1, S2, S3, O4, Ti. split; cbn [set_closed t_count t_closed]; [exact a|lia].
      * apply (InvA_sides T w T _ i I0); auto; rewrite ?tr_jobs, ?closes_snoc; cbn [set_jobs w_log]; auto.
        -- rewrite S1, S2, S3, O4, Ti, Bool.eqb_reflx. split; cbn [set_closed t_count t_closed]; [exact a|lia].
        -- rewrite O4. destruct i; cbn; lia.
    + apply (InvA_sides T w (tset T i Closing) w1 i I0); autorewrite with mock; auto. rewrite S1, S2, S3, O4. split; cbn [set_closed t_count t_closed]; [exact a|lia].
  - intros T w i l d I0 _ _. destruct (I0 i) as [a b]. apply (InvA_sides T w T _ i I0); autorewrite with mock; auto. unfold closes. rewrite jobs_set. unfold set_delay. destruct (negb l && (0 <? d)); split; assumption.
    unfold closes. now rewrite jobs_set.
  - intros T w i p I0 _ _. destruct (I0 i) as [a b]. apply (InvA_sides T w T _ i I0); autorewrite with mock; auto; unfold closes; rewrite jobs_set; [split; assumption|reflexivity].
  - intros T w i x p I0 _ _ _ _ j. rewrite tr_log. cbn [log w_log]. rewrite wrote_snoc, losses_snoc, !app_nil_r. apply I0.
  - intros T w i x I0 _ _ _ _. exact I0.
  - intros T w i d I0 _ _ j. rewrite tr_log. cbn [log w_log]. rewrite wrote_snoc, losses_snoc, !app_nil_r. apply I0.
  - intros T w i z I0 _ _. exact I0.
  - intros T w i Ti I0 _ _ _. destruct (I0 i) as [a b]. apply (InvA_sides T w _ w i I0); autorewrite with mock; auto. split; [exact a|]. rewrite Ti in b. lia.
  - intros T w i p Ti I0 _ _ _. destruct (I0 i) as [a b]. rewrite Ti in b. apply (InvA_sides T w _ _ i I0); autorewrite with mock; auto; cbn [log w_log]; rewrite ?wrote_snoc, ?losses_snoc.
    + rewrite !app_length. cbn [wrote losses flat_map app List.length]. rewrite Bool.eqb_reflx. cbn [List.length app]. change (closes i (log w _)) with (closes i w). split; lia.
    + apply app_nil_r.
    + cbn. destruct i; apply app_nil_r.
  - intros T w i Ti I0 _ _. destruct (I0 i) as [a b]. rewrite Ti in b. apply (InvA_sides T w _ _ i I0); autorewrite with mock; auto; unfold closes; rewrite jobs_set; [split; [exact a|exact b]|reflexivity].
  - intros T w i Ti _ _ I0. destruct (I0 i) as [a b]. apply (InvA_sides T w _ w i I0); autorewrite with mock; auto. split; [exact a|]. destruct (tget T i); lia.
  - intros w d I0 i. apply I0.
  - intros w k t i j I0 _ _ N w1.
    assert (R : forall s, closes s w = (match j with JClose => if Bool.eqb s i then 1 else 0 | _ => 0 end + closes s w1)%nat).
    { intro s. unfold closes. rewrite (remove_filter _ k _ _ N). cbn [snd]. destruct j; [reflexivity|]. destruct (Bool.eqb s i); reflexivity. }
    destruct j as [d|].
    + assert (X : InvA idle w1) by (intro s; assert (Rs : closes s w1 = closes s w) by (rewrite (R s); reflexivity); rewrite Rs; unfold w1; rewrite tr_jobs; apply I0). destruct (w_loop w); [exact X|]. destruct d as [|x [|y d]]; exact X.
    + destruct (I0 i) as [a b]. pose proof (R i) as Ri. rewrite Bool.eqb_reflx in Ri. intros _.
      assert (Tr : forall s, tr w1 s = tr w s) by (intro s; unfold w1; apply tr_jobs). assert (Lg : w_log w1 = w_log w) by reflexivity. clearbody w1.
      apply (InvA_sides idle w _ w1 i I0); rewrite ?tget_same, ?tget_neg, ?Tr, ?Lg; auto.
      * split; [exact a|]. destruct i; cbn [idle tget fst snd] in b; lia.
      * rewrite (R (negb i)). now destruct i.
Qed.
