(** * C26 (Timer) and C27 (TestLoopEx) *)
From Coq Require Import List ZArith Bool Lia Permutation.
From Verif Require Import PyBase TimerModel TimerSpec TimerProofs.
Import ListNotations.
Open Scope Z_scope.

(** ** C27 *)

(** Every history of the test loop behaves as the specification: each advance
    runs the due entries, always the one with the smallest due time, among
    equal ones the one scheduled first, until none is due. *)
Theorem C27_runs_in_order : forall os, exists now pending,
  spec_run 0 [] os (snd (lrun os loop_new)) now pending /\ l_clock (fst (lrun os loop_new)) = now.
Proof.
  intros os. destruct (lrun_spec os 0 []) as (logs & now & l & S & E). cbn [pysort] in E.
  unfold loop_new. rewrite E. exists now, l. split; [exact S|reflexivity].
Qed.
(** What that means for one advance: nothing that is not due runs, nothing due
    stays, *)
Theorem C27_due_only : forall now l log l', due_run now l log l' ->
  Forall (fun e => fst e <= now) log /\ (forall x, In x l' -> now < fst x).
Proof. intros now l log l' H. split; [exact (due_run_due _ _ _ _ H)|exact (due_run_none _ _ _ _ H)]. Qed.
(** the due times of what runs never decrease (no negative delays), *)
Theorem C27_times_nondecreasing : forall now l log l', due_run now l log l' ->
  (forall x, In x l -> nonneg_task (snd x)) -> nondecreasing (map fst log).
Proof. intros now l log l' H N. apply (due_run_order _ _ _ _ H N). Qed.
(** and if the callbacks schedule nothing themselves, exactly the due entries
    run, each once, and exactly the others stay. *)
Theorem C27_exactly_once : forall now l log l', due_run now l log l' ->
  (forall x, In x l -> exists i, snd x = Task i []) ->
  l' = filter (fun x => now <? fst x) l /\
  Permutation log (map (fun x => (fst x, match snd x with Task i _ => i end)) (filter (fun x => fst x <=? now) l)).
Proof. exact due_run_flat. Qed.
(** The specification is deterministic, so it says exactly what happens. *)
Lemma earliest_unique l x r y q : earliest l x r -> earliest l y q -> x = y /\ r = q.
Proof.
  intros (p1 & s1 & E1 & -> & A1 & B1) (p2 & s2 & E2 & -> & A2 & B2). rewrite E1 in E2. clear E1.
  revert p2 E2 A2 A1. induction p1 as [|u p1 IH]; intros [|v p2] E A2 A1; cbn [app] in E.
  - injection E as -> ->. auto.
  - injection E as -> ->. specialize (A2 v (or_introl eq_refl)). assert (fst v <= fst y) by (apply B1, in_or_app; right; left; reflexivity). lia.
  - injection E as -> <-. specialize (A1 y (or_introl eq_refl)). assert (fst y <= fst x) by (apply B2, in_or_app; right; left; reflexivity). lia.
  - injection E as -> E. destruct (IH p2 E) as [-> Er]; [intros z Hz; apply A2; right; exact Hz|intros z Hz; apply A1; right; exact Hz|].
    cbn [app]. rewrite Er. auto.
Qed.
Theorem C27_spec_deterministic : forall now l log l', due_run now l log l' ->
  forall log2 l2, due_run now l log2 l2 -> log = log2 /\ l' = l2.
Proof.
  induction 1 as [l N|l due id sp rest log l' E L R IH]; intros log2 l2 H2.
  - destruct H2 as [l N2|l due id sp rest log l' E L R]; [auto|].
    destruct E as (pre & post & -> & _). specialize (N (due, Task id sp)). cbn [fst] in N.
    assert (now < due) by (apply N, in_or_app; right; left; reflexivity). lia.
  - inversion H2 as [l0 N2|l0 due2 id2 sp2 rest2 log3 l3 E2 L2 R2]; subst.
    + destruct E as (pre & post & -> & _). specialize (N2 (due, Task id sp)). cbn [fst] in N2.
      assert (now < due) by (apply N2, in_or_app; right; left; reflexivity). lia.
    + destruct (earliest_unique _ _ _ _ _ E E2) as [X ->]. injection X as -> -> ->.
      destruct (IH _ _ R2) as [-> ->]. auto.
Qed.
(** Due times are counted from the clock after the jump: a callback that
    reschedules itself every 10 runs once in an advance by 100, not ten times. *)
Theorem C27_periodic_runs_once : exists t l,
  snd (lrun [LLater 10 (Task 0 [(10, Task 1 [(10, t)])]); LAdvance 100] loop_new) = l /\ length (concat l) = 1%nat.
Proof. exists (Task 2 []). eexists. split; [reflexivity|]. reflexivity. Qed.
Example C27_ex : snd (lrun [LLater 20 (Task 1 []); LLater 10 (Task 2 [(0, Task 5 []); (-50, Task 6 [])]); LLater 10 (Task 3 []); LLater 30 (Task 4 []); LAdvance 5; LAdvance 15] loop_new)
  = [[]; []; []; []; []; [(10, 2%nat); (-30, 6%nat); (10, 3%nat); (20, 1%nat); (20, 5%nat)]].
Proof. reflexivity. Qed.

(** ** C26 *)

(** At most one call of the callback per start, plus one per explicit expire;
    without cancel and expire every start has fired exactly once or is still
    pending. *)
Theorem C26_fires_at_most_once_per_start : forall delay now os s, texec os (timer_new delay now) = Some s ->
  (length (t_fired s) <= count is_start os + count is_expire os)%nat /\
  (count is_cancel os = 0%nat -> count is_expire os = 0%nat ->
   length (t_fired s) + length (live s) = count is_start os)%nat.
Proof.
  intros delay now os s H. assert (I : tinv (timer_new delay now)) by (split; [constructor|intros h []]).
  destruct (timer_count os _ _ I H) as [A B]. cbn [timer_new t_fired live t_handles filter length] in *. split; [lia|]. intros C D. specialize (B C D). lia.
Qed.

(** Started once at time [ts] with the delay then in force, the callback is not
    called before [ts + delay], whatever extend (by durations), cancel and
    loop steps follow. *)
Theorem C26_not_before_delay : forall delay now os1 s1 os2 s2,
  texec os1 (timer_new delay now) = Some s1 -> count is_start os1 = 0%nat -> count is_expire os2 = 0%nat -> count is_start os2 = 0%nat ->
  Forall (fun o => match o with OExtend d => 0 <= d | _ => True end) os2 ->
  texec (OStart :: os2) s1 = Some s2 ->
  exists more, t_fired s2 = t_fired s1 ++ more /\ Forall (fun t => t_now s1 + t_delay s1 <= t) more.
Proof.
  intros delay now os1 s1 os2 s2 H1 C1 C2 C3 X H2.
  assert (I0 : tinv (timer_new delay now)) by (split; [constructor|intros h []]).
  pose proof (tinv_exec _ _ _ I0 H1) as I1.
  assert (L1 : live s1 = []).
  { assert (N : Forall (fun o => is_start o = false) os1).
    { clear -C1. unfold count in C1. induction os1 as [|o os IH]; constructor; cbn [filter] in C1; destruct (is_start o) eqn:E; auto; discriminate. }
    clear -H1 N I0. assert (L0 : live (timer_new delay now) = []) by reflexivity.
    revert H1 L0 I0. generalize (timer_new delay now) as s. induction N as [|o os No N IH]; intros s H L I; cbn [texec] in H; [injection H as <-; exact L|].
    destruct (tstep o s) as [s'|] eqn:E; [|discriminate]. apply (IH s' H); [|eapply tinv_step; eauto].
    destruct o as [d|i| |d| |]; try discriminate.
    - destruct (step_other _ _ _ I E) as (_ & _ & _ & -> & _). exact L.
    - destruct (step_run _ _ _ I E) as (w & pre & post & L' & _). rewrite L in L'. destruct pre; discriminate.
    - destruct (step_other _ _ _ I E) as (_ & _ & -> & _). exact L.
    - destruct (step_other _ _ _ I E) as (_ & _ & _ & Ll & _). rewrite L in Ll. destruct (live s'); [reflexivity|cbn in Ll; lia].
    - destruct (step_other _ _ _ I E) as (_ & _ & _ & Ll & _). rewrite L in Ll. destruct (live s'); [reflexivity|cbn in Ll; lia]. }
  cbn [texec tstep] in H2.
  apply (started_not_early _ os2 (t_start s1) s2); auto.
  - apply tinv_start. exact I1.
  - clear -C2 C3. unfold count in *. induction os2 as [|o os IH]; constructor; cbn [filter] in *.
    + split; [destruct (is_start o); [discriminate|reflexivity]|destruct (is_expire o); [discriminate|reflexivity]].
    + apply IH; [destruct (is_expire o); [discriminate|assumption]|destruct (is_start o); [discriminate|assumption]].
  - cbn. lia.
  - unfold not_before. intros h Hh. rewrite live_alt in Hh. cbn [t_start t_handles] in Hh. rewrite livel_app in Hh. fold (livel (t_handles s1)) in Hh.
    rewrite <- live_alt, L1 in Hh. cbn [app livel filter snd negb] in Hh. destruct Hh as [<-|[]]. cbn [fst snd]. lia.
Qed.

(** After extend(e) the callback is not called for at least [e] from the call
    of extend, whenever it was made and whether or not the timer is running. *)
Theorem C26_not_before_extension : forall delay now os1 s1 e os2 s2,
  starts_unarmed os1 (timer_new delay now) -> texec os1 (timer_new delay now) = Some s1 -> e <> 0 ->
  count is_extend os2 = 0%nat -> count is_expire os2 = 0%nat -> count is_start os2 = 0%nat ->
  texec (OExtend e :: os2) s1 = Some s2 ->
  exists more, t_fired s2 = t_fired s1 ++ more /\ Forall (fun t => t_now s1 + e <= t) more.
Proof.
  intros delay now os1 s1 e os2 s2 G H1 He C1 C2 C3 H2.
  assert (I0 : tinv (timer_new delay now)) by (split; [constructor|intros h []]).
  pose proof (tinv_exec _ _ _ I0 H1) as I1.
  assert (A : armed_by s1). { apply (armed_exec os1 (timer_new delay now)); auto. split; cbn; [lia|tauto]. }
  cbn [texec tstep] in H2. apply (extended_not_early e os2 (t_extend e s1) s2); auto.
  - clear -C2 C3. unfold count in *. induction os2 as [|o os IH]; constructor; cbn [filter] in *.
    + split; [destruct (is_start o); [discriminate|reflexivity]|destruct (is_expire o); [discriminate|reflexivity]].
    + apply IH; [destruct (is_expire o); [discriminate|assumption]|destruct (is_start o); [discriminate|assumption]].
  - apply A.
Qed.

(** After cancel the callback is not called until the timer is started (or
    expired) again. *)
Theorem C26_not_after_cancel : forall delay now os1 s1 os2 s2,
  starts_unarmed os1 (timer_new delay now) -> texec os1 (timer_new delay now) = Some s1 ->
  count is_expire os2 = 0%nat -> count is_start os2 = 0%nat ->
  texec (OCancel :: os2) s1 = Some s2 -> t_fired s2 = t_fired s1.
Proof.
  intros delay now os1 s1 os2 s2 G H1 C2 C3 H2.
  assert (I0 : tinv (timer_new delay now)) by (split; [constructor|intros h []]).
  pose proof (tinv_exec _ _ _ I0 H1) as I1.
  assert (A : armed_by s1). { apply (armed_exec os1 (timer_new delay now)); auto. split; cbn; [lia|tauto]. }
  cbn [texec] in H2. destruct (tstep OCancel s1) as [s|] eqn:E; [|discriminate].
  pose proof (cancelled_none _ _ I1 A E) as L.
  destruct (step_other _ _ _ I1 E) as (_ & _ & F & _).
  destruct (unarmed_silent os2 s s2) as [F2 _]; auto.
  - eapply tinv_step; eauto.
  - clear -C2 C3. unfold count in *. induction os2 as [|o os IH]; constructor; cbn [filter] in *.
    + split; [destruct (is_start o); [discriminate|reflexivity]|destruct (is_expire o); [discriminate|reflexivity]].
    + apply IH; [destruct (is_expire o); [discriminate|assumption]|destruct (is_start o); [discriminate|assumption]].
  - rewrite F2, F. reflexivity.
Qed.

(** When the running handle comes up: with an extension pending the timer waits
    for the extension, counted from that moment; otherwise it fires then. *)
Theorem C26_when_due : forall delay now os s i s', texec os (timer_new delay now) = Some s ->
  tstep (ORun i) s = Some s' ->
  (t_delay s = 0 /\ t_fired s' = t_fired s ++ [t_now s]) \/
  (t_delay s <> 0 /\ t_fired s' = t_fired s /\ In (t_now s + t_delay s) (map (fun h => snd (fst h)) (live s'))).
Proof.
  intros delay now os s i s' H E. assert (I0 : tinv (timer_new delay now)) by (split; [constructor|intros h []]).
  pose proof (tinv_exec _ _ _ I0 H) as I1. destruct (step_run _ _ _ I1 E) as (w & pre & post & L & Hw & En & D1 & C).
  destruct C as [(D & _ & F)|(D & Ls & F)]; [left; auto|right]. split; [exact D|]. split; [exact F|]. rewrite Ls, !map_app, !in_app_iff.
  right. right. left. reflexivity.
Qed.

(** ** Where the code departs from the expectation *)
(** Starting a running timer a second time fires at once and then again. *)
Theorem C26_double_start_refuted : exists s, texec [OStart; OTick 1; OStart; ORun 1; OTick 9; ORun 0] (timer_new 10 0) = Some s /\
  t_fired s = [1; 10].
Proof. eexists. split; reflexivity. Qed.
(** A fired timer that is started again has no delay. *)
Theorem C26_restart_refuted : exists s, texec [OStart; OTick 10; ORun 0; OStart; ORun 1] (timer_new 10 0) = Some s /\ t_fired s = [10; 10].
Proof. eexists. split; reflexivity. Qed.
(** cancel (and expire) before the first start raise AttributeError. *)
Theorem C26_cancel_before_start : forall delay now, t_cancel (timer_new delay now) = Raise AttributeError /\ t_expire (timer_new delay now) = Raise AttributeError.
Proof. intros. split; reflexivity. Qed.
(** Two extensions do not add up: the last one counts. *)
Theorem C26_extensions_do_not_add : exists s,
  texec [OStart; OExtend 5; OExtend 1; OTick 10; ORun 0; OTick 1; ORun 1] (timer_new 10 0) = Some s /\ t_fired s = [11].
Proof. eexists. split; reflexivity. Qed.

Example C26_ex : exists s, texec [OStart; OTick 5; OExtend 7; OTick 6; ORun 0; OTick 6; OTick 1; ORun 1] (timer_new 10 0) = Some s /\ t_fired s = [18].
Proof. eexists. split; reflexivity. Qed.
Example C26_ex_unarmed : starts_unarmed [OStart; OTick 5] (timer_new 10 0).
Proof. cbn. repeat split; intros; try discriminate. Qed.
Example C26_ex_cancel : exists s, texec [OStart; OTick 5; OCancel; OTick 20] (timer_new 10 0) = Some s /\ t_fired s = [] /\ tstep (ORun 0) s = None.
Proof. eexists. repeat split; reflexivity. Qed.

Print Assumptions C27_runs_in_order.
Print Assumptions C27_times_nondecreasing.
Print Assumptions C27_exactly_once.
Print Assumptions C26_fires_at_most_once_per_start.
Print Assumptions C26_not_before_delay.
Print Assumptions C26_not_before_extension.
Print Assumptions C26_not_after_cancel.
