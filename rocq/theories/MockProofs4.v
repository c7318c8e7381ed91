(** * Mock transports: order, with fixed delays *)
From Coq Require Import List ZArith Bool Lia.
From Verif Require Import PyBase PyLemmas MockModel MockSpec MockProofs MockProofs2 MockProofs3.
Import ListNotations.
Open Scope Z_scope.

Lemma nth_remove {A} k : forall (l : list A) a, nth_error (remove_nth k l) a = nth_error l (if Nat.ltb a k then a else S a).
Proof.
  induction k as [|k IH]; intros l a; [destruct l as [|x l]; [now destruct a|reflexivity]|]. destruct l as [|x l]; [cbn [remove_nth]; destruct (Nat.ltb a (S k)); now destruct a|]. destruct a as [|a]; [reflexivity|]. cbn [remove_nth nth_error]. rewrite IH.
  change (Nat.ltb (S a) (S k)) with (Nat.ltb a k). now destruct (Nat.ltb a k).
Qed.
(** the first job of side i is removed: its data are the first that wait *)
Lemma waiting_first i k : forall js t j, nth_error js k = Some (t, (i, j)) -> (forall m t' j', (m < k)%nat -> nth_error js m <> Some (t', (i, j'))) ->
  forall f, (forall t' s j', s <> i -> f (t', (s, j')) = []) -> flat_map f js = f (t, (i, j)) ++ flat_map (f : Z * (side * job) -> list (list Z)) (remove_nth k js).
Proof.
  induction k as [|k IH]; intros [|y js] t j N H f Hf; try discriminate; cbn in N; cbn [remove_nth flat_map]; [now injection N as ->|].
  destruct y as [ty [sy jy]]. assert (sy <> i) by (intros ->; apply (H 0%nat ty jy); [lia|reflexivity]). rewrite Hf by assumption. cbn [app]. apply (IH js t j); auto. intros m t' j' L. apply (H (S m) t' j'). lia.
Qed.

Section Order.
Variable B : behaviour.
Variable D : side -> option Z.              (* the delays *)
Variable rcv : option side.                 (* a side that never closes by itself *)
Definition okC (a : api) : Prop := plain a /\ forall j, rcv = Some j -> a <> AClose j.
Definition failed (w : world) (i : side) : Prop := w_kind w = ToProtocol /\ t_protocol (tr w (negb i)) = None.
Definition must (i : side) : Prop := D i = None \/ rcv = Some (negb i).
Definition dataC (w : world) (i : side) (pre : list payload) : Prop :=
  exists rest, map Bytes (wrote i (w_log w)) = delivered (w_kind w) i (w_log w) ++ rest /\ (must i \/ ~ failed w i -> rest = pre ++ map Bytes (waiting i w)).
Record shapeC (T : toks) (w : world) : Prop := {
  c_loop : w_loop w = AsyncLoop;
  c_delay : forall i, delayed (tr w i) = D i;
  c_loopd : forall i d, D i = Some d -> t_loop (tr w i) = true;
  c_sorted : forall a b t t' i j j', (a < b)%nat -> nth_error (w_jobs w) a = Some (t, (i, j)) -> nth_error (w_jobs w) b = Some (t', (i, j')) -> t <= t' /\ j <> JClose;
  c_bound : forall t i j, In (t, (i, j)) (w_jobs w) -> exists d, D i = Some d /\ t <= w_now w + d;
  c_jc : forall t i, In (t, (i, JClose)) (w_jobs w) -> closed w i = true;
  c_closing : forall i, tget T i <> Idle -> waiting i w = [];
  c_losing : forall i, tget T i = Losing -> w_kind w = ToProtocol -> closed w (negb i) = true;
  c_none : forall i, w_kind w = ToProtocol -> t_protocol (tr w i) = None -> closed w i = true /\ closed w (negb i) = true;
  c_graceful : forall j, rcv = Some j -> w_kind w = ToProtocol -> closed w j = true -> closed w (negb j) = true /\ waiting (negb j) w = []
}.
Definition InvC (T : toks) (w : world) : Prop := shapeC T w /\ forall i, dataC w i [].
Definition OwedC (T : toks) (i : side) (x : payload) (w : world) : Prop :=
  shapeC T w /\ (forall j, rcv = Some j -> w_kind w = ToProtocol -> i = negb j -> closed w j = false) /\ (must i -> ~ failed w i) /\ dataC w i [x] /\ dataC w (negb i) [].
Lemma dataC_same w w' i pre : wrote i (w_log w') = wrote i (w_log w) -> delivered (w_kind w') i (w_log w') = delivered (w_kind w) i (w_log w) -> waiting i w' = waiting i w -> (must i \/ ~ failed w' i -> must i \/ ~ failed w i) -> dataC w i pre -> dataC w' i pre.
Proof. unfold dataC. intros -> -> -> F (rest & E & R). exists rest. auto. Qed.
Lemma failed_same w w' i : w_kind w' = w_kind w -> t_protocol (tr w' (negb i)) = t_protocol (tr w (negb i)) -> (must i \/ ~ failed w' i -> must i \/ ~ failed w i).
Proof. unfold failed. intros -> ->. auto. Qed.
Lemma no_wait i w : (forall t j, ~ In (t, (i, j)) (w_jobs w)) -> waiting i w = [].
Proof.
  intro H. unfold waiting. induction (w_jobs w) as [|[t [s j]] js IH]; [reflexivity|]. cbn [flat_map snd]. rewrite IH by (intros t' j' X; apply (H t' j'); now right).
  destruct j; [|reflexivity]. destruct (Bool.eqb i s) eqn:E; [|reflexivity]. apply Bool.eqb_prop in E. subst. exfalso. eapply H. now left.
Qed.
Lemma undelayed_none T i w : shapeC T w -> D i = None -> waiting i w = [].
Proof. intros H E. apply no_wait. intros t j X. destruct (c_bound _ _ H _ _ _ X) as (d & X1 & _). congruence. Qed.
(** a job is scheduled *)
Lemma shape_later T w i s j : shapeC T w -> D i = Some s -> tget T i = Idle \/ j = JClose ->
  (forall t, ~ In (t, (i, JClose)) (w_jobs w)) -> (j = JClose -> closed w i = true) -> (j <> JClose -> forall k, rcv = Some k -> w_kind w = ToProtocol -> closed w k = true -> negb k <> i) ->
  shapeC T (set_jobs w (w_jobs w ++ [(w_now w + s, (i, j))])).
Proof.
  intros H Ds Ti NJ Cl Gr. destruct H. split.
  - assumption.
  - assumption.
  - assumption.
  - cbn [set_jobs w_jobs]. intros a b t t' k j1 j2 L Na Nb. destruct (Nat.lt_ge_cases b (List.length (w_jobs w))) as [Lb|Lb].
    + rewrite nth_error_app1 in Na, Nb by lia. eauto.
    + rewrite nth_error_app2 in Nb by lia. destruct (b - List.length (w_jobs w))%nat as [|x] eqn:X; [|destruct x; discriminate]. cbn in Nb. injection Nb as <- <- <-.
      rewrite nth_error_app1 in Na by lia. apply nth_error_In in Na. destruct (c_bound0 _ _ _ Na) as (d & X1 & X2). rewrite Ds in X1. injection X1 as <-. split; [exact X2|]. intros ->. now apply (NJ t).
  - cbn [set_jobs w_jobs w_now]. intros t k j1 X. apply in_app_or in X as [X|[X|[]]]; [eauto|]. injection X as <- <- <-. exists s. split; [exact Ds|lia].
  - cbn [set_jobs w_jobs]. intros t k X. unfold closed. rewrite tr_jobs. apply in_app_or in X as [X|[X|[]]]; [eapply c_jc0; eauto|]. injection X as _ <- ->. now apply Cl.
  - intros k X. rewrite waiting_snoc, c_closing0 by exact X. destruct j as [d|]; [|reflexivity]. destruct (Bool.eqb k i) eqn:Y; [|reflexivity]. apply Bool.eqb_prop in Y. subst k. destruct Ti; [contradiction|discriminate].
  - assumption.
  - assumption.
  - intros k X K Y. unfold closed in *. rewrite tr_jobs in *. destruct (c_graceful0 k X K Y) as [A1 A2]. split; [exact A1|]. rewrite waiting_snoc, A2. destruct j as [d|]; [|reflexivity]. destruct (Bool.eqb (negb k) i) eqn:Z0; [|reflexivity]. apply Bool.eqb_prop in Z0. exfalso. apply (Gr ltac:(discriminate) k X K Y Z0).
Qed.
Lemma delayed_eq t t' : t_delay t' = t_delay t -> delayed t' = delayed t. Proof. unfold delayed. now intros ->. Qed.
(** a change of one transport's flags, or the log *)
Lemma shape_change T T' w w' : shapeC T w -> w_loop w' = w_loop w -> w_kind w' = w_kind w -> w_now w' = w_now w -> w_jobs w' = w_jobs w ->
  (forall i, t_delay (tr w' i) = t_delay (tr w i) /\ t_loop (tr w' i) = t_loop (tr w i)) -> (forall i, closed w i = true -> closed w' i = true) ->
  (forall i, tget T' i <> Idle -> waiting i w = []) -> (forall i, tget T' i = Losing -> w_kind w = ToProtocol -> closed w' (negb i) = true) ->
  (forall i, w_kind w = ToProtocol -> t_protocol (tr w' i) = None -> closed w' i = true /\ closed w' (negb i) = true) ->
  (forall j, rcv = Some j -> w_kind w = ToProtocol -> closed w' j = true -> closed w' (negb j) = true /\ waiting (negb j) w = []) -> shapeC T' w'.
Proof.
  intros H L K N J De Cl C1 C2 C3 C4. destruct H. assert (W : forall i, waiting i w' = waiting i w) by (intro i; unfold waiting; now rewrite J). split; rewrite ?J, ?K, ?N; auto.
  - congruence.
  - intro i. rewrite <- c_delay0. apply delayed_eq. apply De.
  - intros i d X. destruct (De i) as [_ ->]. eauto.
  - intros t i X. apply Cl. eauto.
  - intros i X. rewrite W. auto.
  - intros j X Y Z0. rewrite W. auto.
Qed.

Theorem invC n hs w w' : history_only okC B hs -> fifo B n w hs -> w_jobs w = [] -> InvC idle w -> steps B n w hs = Some w' -> InvC idle w'.
Proof.
  intros [HB HH] F J P E. apply (steps_inv B okC false InvC OwedC) with (good := first_of) (n := n) (hs := hs) (w := w); try exact P; try exact E; try (now apply goods_fifo); try exact HB; try exact HH; [..|rewrite J; intros ? ? []]; clear P E F J HB HH hs w w'.
  - intros T w i d [S0 I0] Ba Fu O C w1.
    assert (NT : forall k, tget T k <> Idle -> k <> i) by (intros k X ->; apply Ba in X; congruence).
    assert (S1 : shapeC T w1).
    { apply (shape_change T T w); auto; unfold w1; cbn [log w_loop w_kind w_now w_jobs]; rewrite ?loop_set, ?kind_set, ?now_set, ?jobs_set; auto.
      - intro k. rewrite tr_log. revert k. now apply (tr_case w (fun k t => t_delay t = t_delay (tr w k) /\ t_loop t = t_loop (tr w k))).
      - intro k. unfold closed. rewrite tr_log. revert k. now apply (tr_case w (fun k t => t_closed (tr w k) = true -> t_closed t = true)).
      - apply (c_closing _ _ S0).
      - intros k X Y. unfold closed. rewrite tr_log. pose proof (c_losing _ _ S0 k X Y) as Z0. revert Z0. generalize (negb k). now apply (tr_case w (fun k t => t_closed (tr w k) = true -> t_closed t = true)).
      - intros k X Y. unfold closed in *. rewrite !tr_log in *.
        assert (Y' : t_protocol (tr w k) = None) by (revert Y; revert k; now apply (tr_case w (fun k t => t_protocol t = None -> t_protocol (tr w k) = None))).
        destruct (c_none _ _ S0 k X Y') as [A1 A2]. split; [revert A1; generalize k|revert A2; generalize (negb k)]; now apply (tr_case w (fun k t => t_closed (tr w k) = true -> t_closed t = true)).
      - intros k X Y Z0. unfold closed in *. rewrite !tr_log in *. assert (Z' : t_closed (tr w k) = true) by (revert Z0; generalize k; now apply (tr_case w (fun k t => t_closed t = true -> t_closed (tr w k) = true))).
        destruct (c_graceful _ _ S0 k X Y Z') as [A1 A2]. split; [|exact A2]. revert A1. generalize (negb k). now apply (tr_case w (fun k t => t_closed (tr w k) = true -> t_closed t = true)). }
    assert (C1 : closed w1 i = false) by (unfold w1, closed; autorewrite with mock; exact C).
    assert (Fd : forall k, failed w1 k -> failed w k).
    { intro k. unfold failed, w1. cbn [log w_kind]. rewrite kind_set, tr_log. intros [X Y]. split; [exact X|]. revert Y. generalize (negb k). now apply (tr_case w (fun k t => t_protocol t = None -> t_protocol (tr w k) = None)). }
    assert (Fd' : forall k, failed w k -> failed w1 k).
    { intro k. unfold failed, w1. cbn [log w_kind]. rewrite kind_set, tr_log. intros [X Y]. split; [exact X|]. revert Y. generalize (negb k). now apply (tr_case w (fun k t => t_protocol (tr w k) = None -> t_protocol t = None)). }
    assert (Nf : ~ failed w1 i) by (intros [X Y]; destruct (c_none _ _ S1 _ X Y) as [_ A]; rewrite negb_involutive in A; congruence).
    assert (W1 : forall k, waiting k w1 = waiting k w) by (intro k; unfold w1, waiting; cbn [log w_jobs]; now rewrite jobs_set).
    assert (Wn : dataC w1 (negb i) []). { apply (dataC_same w); [| |apply W1| |apply I0]; unfold w1; cbn [log w_log w_kind]; rewrite ?log_set, ?kind_set, ?wrote_nil, ?delivered_nil; auto; [now rewrite negb_involutive|]. intros [X|X]; [now left|right; intro Y; apply X; now apply Fd']. }
    assert (Wi : exists rest, map Bytes (wrote i (w_log w1)) = delivered (w_kind w1) i (w_log w1) ++ rest /\ rest = map Bytes (waiting i w) ++ [Bytes d]).
    { destruct (I0 i) as (rest & X & Y). exists (rest ++ [Bytes d]). split.
      - unfold w1. cbn [log w_log w_kind]. rewrite log_set, kind_set, wrote_snoc, delivered_nil, map_app, X by exact Logic.I. cbn. rewrite Bool.eqb_reflx. now rewrite app_assoc.
      - f_equal. apply Y. right. intro Z0. apply Nf. now apply Fd'. }
    destruct Wi as (rest & X & ->). rewrite (c_delay _ _ S0). destruct (D i) as [s|] eqn:Di.
    + unfold later. rewrite (c_loopd _ _ S1 i s Di). cbn [fst]. split.
      * apply shape_later; auto.
        -- left. destruct (tget T i) eqn:Y; [reflexivity| |]; exfalso; apply (NT i); congruence.
        -- intros t Y. apply (c_jc _ _ S1) in Y. congruence.
        -- discriminate.
        -- intros _ k Y K Z0 E0. destruct (c_graceful _ _ S1 k Y K Z0) as [A _]. rewrite E0 in A. congruence.
      * intro k. destruct (Bool.bool_dec k i) as [->|N].
        -- exists (map Bytes (waiting i w) ++ [Bytes d]). split; [exact X|]. intros _. rewrite waiting_snoc, W1, Bool.eqb_reflx, map_app. reflexivity.
        -- apply other_side in N; subst k. apply (dataC_same w1); auto. rewrite waiting_snoc, eqb_neg'. apply app_nil_r.
    + split; [exact S1|]. split; [|split; [intros _; exact Nf|split; [|exact Wn]]].
      * intros j Y K ->. destruct (closed w1 j) eqn:Z0; [|reflexivity]. destruct (c_graceful _ _ S1 j Y K Z0) as [A _]. congruence.
      * exists (map Bytes (waiting i w) ++ [Bytes d]). split; [exact X|]. intros _. rewrite W1, (undelayed_none T i w S0 Di). reflexivity.
  - intros T w i [S0 I0] Ba P' C Ti w1.
    assert (C1 : forall k, closed w k = true -> closed w1 k = true) by (intro k; unfold closed, w1; rewrite tr_log; revert k; now apply (tr_case w (fun k t => t_closed (tr w k) = true -> t_closed t = true))).
    assert (Ci : closed w1 i = true) by (unfold w1, closed; now autorewrite with mock). assert (Cn : closed w1 (negb i) = closed w (negb i)) by (unfold w1, closed; now autorewrite with mock).
    assert (Pr : forall k, t_protocol (tr w1 k) = t_protocol (tr w k)) by (intro k; unfold w1; rewrite tr_log; revert k; now apply (tr_case w (fun k t => t_protocol t = t_protocol (tr w k)))).
    assert (K1 : w_kind w1 = w_kind w) by (unfold w1; cbn [log w_kind]; apply kind_set).
    assert (S1 : forall T', (forall k, tget T' k <> Idle -> tget T k <> Idle \/ waiting k w = []) -> (forall k, tget T' k = Losing -> tget T k = Losing) -> shapeC T' w1).
    { intros T' X1 X2. apply (shape_change T T' w); auto; try (unfold w1; cbn [log w_loop w_now w_jobs]; rewrite ?loop_set, ?now_set, ?jobs_set; reflexivity).
      - intro k. unfold w1. rewrite tr_log. revert k. now apply (tr_case w (fun k t => t_delay t = t_delay (tr w k) /\ t_loop t = t_loop (tr w k))).
      - intros k X. destruct (X1 k X) as [Y|Y]; [|exact Y]. now apply (c_closing _ _ S0).
      - intros k X Y. apply C1. apply (c_losing _ _ S0); auto.
      - intros k X Y. rewrite Pr in Y. destruct (c_none _ _ S0 k X Y). auto.
      - intros k X K Y. destruct (Bool.bool_dec k i) as [->|N].
        + destruct P' as [[[_ O] _]|[Tn _]]; [exfalso; now apply (O i)|]. assert (tget T (negb i) <> Idle) by congruence. split; [apply C1; now apply Ba|now apply (c_closing _ _ S0)].
        + apply other_side in N; subst k. rewrite Cn in Y. destruct (c_graceful _ _ S0 _ X K Y) as [A1 A2]. rewrite negb_involutive in *. congruence. }
    assert (W1 : forall k, waiting k w1 = waiting k w) by (intro k; unfold w1, waiting; cbn [log w_jobs]; now rewrite jobs_set).
    assert (D1 : forall k, dataC w1 k []).
    { intro k. apply (dataC_same w); [| |apply W1|apply failed_same; [exact K1|apply Pr]|apply I0]; unfold w1; cbn [log w_log w_kind]; rewrite ?log_set, ?kind_set, ?wrote_nil, ?delivered_nil; auto; exact Logic.I. }
    rewrite (c_delay _ _ S0). destruct (D i) as [s|] eqn:Di.
    + split; [discriminate|]. assert (S2 : shapeC T w1) by (apply S1; auto). unfold later. rewrite (c_loopd _ _ S2 i s Di). cbn [fst]. split.
      * apply shape_later; auto; try (intro X; now contradict X). intros t Y. assert (w_jobs w1 = w_jobs w) as Z0 by (unfold w1; cbn [log w_jobs]; apply jobs_set). rewrite Z0 in Y. apply (c_jc _ _ S0) in Y. congruence.
      * intro k. apply (dataC_same w1); auto. rewrite waiting_snoc. apply app_nil_r.
    + split; [|exact D1]. apply S1.
      * intros k X. destruct (Bool.bool_dec k i) as [->|N]; [right; now apply (undelayed_none T)|]. apply other_side in N; subst k. left. now rewrite tget_neg in X.
      * intros k X. destruct (Bool.bool_dec k i) as [->|N]; [rewrite tget_same in X; discriminate|]. apply other_side in N; subst k. now rewrite tget_neg in X.
  - intros T w i l d _ _ [[] _].
  - intros T w i p _ _ [[] _].
  - intros T w i x p (S0 & Cr & Nm & Wi & Wn) Ba Fu K Pr. split.
    { apply (shape_change T T w); auto; try (intro k; now rewrite tr_log); [apply (c_closing _ _ S0)|apply (c_losing _ _ S0)|apply (c_none _ _ S0)|apply (c_graceful _ _ S0)]. }
    intro k. destruct (Bool.bool_dec k i) as [->|N].
    + destruct Wi as (rest & X & Y). assert (Nf : ~ failed w i) by (intros [_ Z0]; congruence). assert (rest = [x] ++ map Bytes (waiting i w)) as -> by (apply Y; now right).
      exists (map Bytes (waiting i w)). split; [|intros _; reflexivity]. cbn [log w_log w_kind]. rewrite wrote_nil, delivered_snoc, X, K by exact Logic.I. cbn. rewrite Bool.eqb_reflx. now rewrite <- app_assoc.
    + apply other_side in N; subst k. apply (dataC_same w); [| |reflexivity|apply failed_same; [reflexivity|now rewrite tr_log]|exact Wn]; cbn [log w_log w_kind]; [now apply wrote_nil|]. rewrite delivered_snoc, K. cbn [delivered got flat_map]. rewrite negb_involutive, eqb_neg. apply app_nil_r.
  - intros T w i x (S0 & Cr & Nm & Wi & Wn) Ba Fu K Pr. split; [exact S0|]. intro k. destruct (Bool.bool_dec k i) as [->|N]; [|apply other_side in N; subst k; exact Wn].
    destruct Wi as (rest & X & Y). exists rest. split; [exact X|]. assert (Fa : failed w i) by (now split). intros [M|M]; [now apply Nm in M|contradiction].
  - intros T w i d (S0 & Cr & Nm & Wi & Wn) Ba K. split.
    { apply (shape_change T T w); auto; try (intro k; now rewrite tr_log); [apply (c_closing _ _ S0)|apply (c_losing _ _ S0)|apply (c_none _ _ S0)|apply (c_graceful _ _ S0)]. }
    intro k. destruct (Bool.bool_dec k i) as [->|N].
    + destruct Wi as (rest & X & Y). assert (Nf : ~ failed w i) by (intros [Z0 _]; congruence). assert (rest = [Bytes d] ++ map Bytes (waiting i w)) as -> by (apply Y; now right).
      exists (map Bytes (waiting i w)). split; [|intros _; reflexivity]. cbn [log w_log w_kind]. rewrite wrote_nil, delivered_snoc, X, K by exact Logic.I. cbn. rewrite Bool.eqb_reflx. now rewrite <- app_assoc.
    + apply other_side in N; subst k. apply (dataC_same w); [| |reflexivity|apply failed_same; [reflexivity|now rewrite tr_log]|exact Wn]; cbn [log w_log w_kind]; [now apply wrote_nil|]. rewrite delivered_snoc, K. cbn [delivered stored flat_map]. rewrite eqb_neg'. apply app_nil_r.
  - intros T w i z (S0 & Cr & Nm & Wi & Wn) Ba K. exfalso. destruct Wi as (rest & X & Y). assert (Nf : ~ failed w i) by (intros [Z0 _]; congruence). assert (rest = [Int z] ++ map Bytes (waiting i w)) as -> by (apply Y; now right).
    assert (Z0 : In (Int z) (map Bytes (wrote i (w_log w)))) by (rewrite X; apply in_or_app; right; now left). apply in_map_iff in Z0 as (y & Z0 & _). discriminate.
  - intros T w i Ti [S0 I0] Ba Fu Pr. split; [|exact I0]. apply (shape_change T _ w); auto; [| |apply (c_none _ _ S0)|apply (c_graceful _ _ S0)]; intros k X; (destruct (Bool.bool_dec k i) as [->|N]; [rewrite tget_same in X; try discriminate; now contradict X|]); apply other_side in N; subst k; rewrite tget_neg in X; [now apply (c_closing _ _ S0)|now apply (c_losing _ _ S0)].
  - intros T w i p Ti [S0 I0] Ba Fu Pr. split.
    + apply (shape_change T _ w); auto; try (intro k; now rewrite tr_log); [| |apply (c_none _ _ S0)|apply (c_graceful _ _ S0)]; intros k X; (destruct (Bool.bool_dec k i) as [->|N]; [|apply other_side in N; subst k; rewrite tget_neg in X; [now apply (c_closing _ _ S0)||now apply (c_losing _ _ S0)]]); [apply (c_closing _ _ S0); congruence|intro Y; now apply Fu].
    + intro k. apply (dataC_same w); [| |reflexivity|apply failed_same; [reflexivity|now rewrite tr_log]|apply I0]; cbn [log w_log w_kind]; [now apply wrote_nil|now apply delivered_nil].
  - intros T w i Ti [S0 I0] Ba Fu. set (w1 := set_tr _ _ _).
    assert (C1 : forall k, closed w1 k = closed w k) by (intro k; unfold closed, w1; revert k; now apply (tr_case w (fun k t => t_closed t = t_closed (tr w k)))).
    assert (Bi : closed w i = true) by (apply Ba; congruence). assert (Pn : t_protocol (tr w1 (negb i)) = t_protocol (tr w (negb i))) by (unfold w1; now rewrite tr_set_neg).
    split.
    + apply (shape_change T _ w); auto; try (unfold w1; rewrite ?loop_set, ?kind_set, ?now_set, ?jobs_set; reflexivity).
      * intro k. unfold w1. revert k. now apply (tr_case w (fun k t => t_delay t = t_delay (tr w k) /\ t_loop t = t_loop (tr w k))).
      * intro k. now rewrite C1.
      * intros k X. destruct (Bool.bool_dec k i) as [->|N]; [rewrite tget_same in X; now contradict X|]. apply other_side in N; subst k. rewrite tget_neg in X. now apply (c_closing _ _ S0).
      * intros k X Y. rewrite C1. destruct (Bool.bool_dec k i) as [->|N]; [rewrite tget_same in X; discriminate|]. apply other_side in N; subst k. rewrite tget_neg in X. now apply (c_losing _ _ S0).
      * intros k X Y. rewrite !C1. destruct (Bool.bool_dec k i) as [->|N]; [split; [exact Bi|now apply (c_losing _ _ S0)]|]. apply other_side in N; subst k. rewrite Pn in Y. now apply (c_none _ _ S0).
      * intros k X K Y. rewrite C1 in *. now apply (c_graceful _ _ S0).
    + intro k. apply (dataC_same w); [| |apply waiting_set| |apply I0]; unfold w1; rewrite ?log_set, ?kind_set; auto. intros [X|X]; [now left|]. right. intros [Y Z0]. apply X. split; [now rewrite kind_set|]. revert Z0. generalize (negb k). now apply (tr_case w (fun k t => t_protocol (tr w k) = None -> t_protocol t = None)).
  - intros T w i Ti Ba Fu [S0 I0]. split; [|exact I0]. apply (shape_change T _ w); auto; [| |apply (c_none _ _ S0)|apply (c_graceful _ _ S0)]; intros k X; (destruct (Bool.bool_dec k i) as [->|N]; [rewrite tget_same in X; try discriminate; now contradict X|]); apply other_side in N; subst k; rewrite tget_neg in X; [now apply (c_closing _ _ S0)|now apply (c_losing _ _ S0)].
  - intros w d [S0 I0]. split; [|exact I0]. destruct S0. split; auto. cbn [set_now w_jobs w_now]. intros t i j X. destruct (c_bound0 _ _ _ X) as (s & X1 & X2). exists s. split; [exact X1|lia].
  - intros w k t i j [S0 I0] Nx Fi N w1.
    assert (In1 : forall x, In x (w_jobs w1) -> In x (w_jobs w)) by (unfold w1; cbn [set_jobs w_jobs]; clear; generalize (w_jobs w); induction k as [|k IH]; intros [|y l] x; cbn; auto; intros [->|X]; auto).
    assert (Fst : forall m t' j', (m < k)%nat -> nth_error (w_jobs w) m <> Some (t', (i, j'))).
    { intros m t' j' L X. destruct (c_sorted _ _ S0 m k t' t i j' j L X N) as [Le _]. unfold is_next in Nx. rewrite N in Nx. apply andb_true_iff in Nx as [_ Nx]. rewrite forallb_forall in Nx. pose proof (Nx _ (nth_error_In _ _ X)) as Y. apply Z.leb_le in Y. cbn [fst] in Y. apply (Fi m _ _ L X N). cbn [fst]. lia. }
    assert (Wo : waiting (negb i) w = waiting (negb i) w1).
    { unfold waiting, w1. cbn [set_jobs w_jobs]. clear - N. revert N. generalize (w_jobs w). induction k as [|k IH]; intros [|y l] N; try discriminate; cbn in N; cbn [remove_nth flat_map]; [|now rewrite (IH l N)]. injection N as ->. cbn [snd]. rewrite eqb_neg'. destruct j; reflexivity. }
    assert (Wi : waiting i w = match j with JWrite d => [d] | JClose => [] end ++ waiting i w1).
    { unfold waiting. rewrite (waiting_first i k _ t j N Fst) by (intros t' s j' X; cbn [snd]; destruct j'; [|reflexivity]; destruct (Bool.eqb i s) eqn:Y; [apply Bool.eqb_prop in Y; congruence|reflexivity]). cbn [snd]. rewrite Bool.eqb_reflx. destruct j; reflexivity. }
    assert (Gr : forall k0, rcv = Some k0 -> w_kind w = ToProtocol -> closed w k0 = true -> closed w (negb k0) = true /\ waiting (negb k0) w1 = []).
    { intros k0 X K Y. destruct (c_graceful _ _ S0 k0 X K Y) as [A1 A2]. split; [exact A1|]. destruct (Bool.bool_dec (negb k0) i) as [E0|N0]; [|apply other_side in N0; rewrite N0 in *; congruence]. rewrite E0 in *. rewrite Wi in A2. now apply app_eq_nil in A2. }
    assert (S1 : forall T', (forall k0, tget T' k0 <> Idle -> waiting k0 w1 = []) -> (forall k0, tget T' k0 <> Losing) -> shapeC T' w1).
    { intros T' X1 X2. destruct S0. split; auto.
      - unfold w1. cbn [set_jobs w_jobs]. intros a b ta tb s ja jb L Na Nb. rewrite nth_remove in Na, Nb. refine (c_sorted0 _ _ _ _ _ _ _ _ Na Nb). destruct (Nat.ltb_spec a k), (Nat.ltb_spec b k); lia.
      - intros t0 s j0 X. apply In1 in X. exact (c_bound0 _ _ _ X).
      - intros t0 s X. apply In1 in X. exact (c_jc0 _ _ X).
      - intros k0 X _. exfalso. now apply (X2 k0). }
    destruct j as [d|].
    + rewrite (c_loop _ _ S0). assert (Wn : waiting i w <> []) by (rewrite Wi; discriminate). split; [apply S1; intros [|]; cbn; congruence|]. split; [|split; [|split]].
      * intros j X K ->. destruct (closed w1 j) eqn:Y; [|reflexivity]. exfalso. apply Wn. now apply (c_graceful _ _ S0 j X K).
      * intros [M|M] [K Y].
        -- destruct (c_bound _ _ S0 _ _ _ (nth_error_In _ _ N)) as (s & Z0 & _). congruence.
        -- apply Wn. change (t_protocol (tr w (negb i)) = None) in Y. destruct (c_none _ _ S0 _ K Y) as [Z0 _]. destruct (c_graceful _ _ S0 _ M K Z0) as [_ A]. now rewrite negb_involutive in A.
      * destruct (I0 i) as (rest & X & Y). exists rest. split; [exact X|]. intro Z0. rewrite (Y Z0), Wi. reflexivity.
      * apply (dataC_same w); auto.
    + intros _. split.
      * apply S1.
        -- intros k0 X. destruct (Bool.bool_dec k0 i) as [->|N0]; [|apply other_side in N0; subst k0; rewrite tget_neg in X; now destruct i].
           apply no_wait. intros t0 j0 X0. apply In_nth_error in X0 as [m X0]. unfold w1 in X0. cbn [set_jobs w_jobs] in X0. rewrite nth_remove in X0. destruct (Nat.ltb_spec m k) as [L|L]; [exact (Fst m _ _ L X0)|]. destruct (c_sorted _ _ S0 k (S m) _ _ _ _ _ ltac:(lia) N X0) as [_ Z0]. congruence.
        -- intros k0 X. destruct (Bool.bool_dec k0 i) as [->|N0]; [rewrite tget_same in X; discriminate|apply other_side in N0; subst k0; rewrite tget_neg in X; now destruct i].
      * intro k0. apply (dataC_same w); auto. destruct (Bool.bool_dec k0 i) as [->|N0]; [now rewrite Wi|apply other_side in N0; now subst k0].
Qed.
End Order.
