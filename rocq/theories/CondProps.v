(** * C54: waiting on a SimpleCondition *)
From Coq Require Import List Bool Lia Arith.
From Verif Require Import PyBase PyLemmas CondModel CondSpec CondProofs.
Import ListNotations.
Open Scope nat_scope.

(** C54. Whatever the calls and the order in which tasks run: awaitCondition
    returns at most once, and only when its predicate is true. *)
Theorem C54_returns_when_true : forall (E : Type) (e0 : E) (es : list (cevent E)) (s : cs E) (g : list (clog E)),
  cond_run es (cond_new e0) = Some (s, g) ->
  (forall t e, In (LReturn t e) g -> exists p a b, In (CAwait t p) es /\ p e = true /\ es = a ++ b /\ e = env_after e0 a) /\
  (forall t, length (filter (fun x => match x with LReturn u _ => Nat.eqb u t | _ => false end) g) <= 1).
Proof.
  intros E e0 es s g H. split.
  - intros t e X. destruct (run_returns es [] (cond_new e0) s g (inv_new e0) ltac:(intros ? ? ? D; discriminate D) H) as [_ G].
    destruct (G t e X) as (p & A & B & a & b & Eq & Ee). exists p, a, b. repeat split; assumption.
  - intros t. apply (run_once es (cond_new e0) s g t (inv_new e0) H).
Qed.
Print Assumptions C54_returns_when_true.

(** C54. Each notification that takes effect wakes exactly the task that has
    waited longest (nobody only if nobody waits); every notify() takes effect
    once, at the latest when no task is left to run. *)
Theorem C54_notify_wakes_the_longest_waiting : forall (E : Type) (e0 : E) (es : list (cevent E)) (s : cs E) (g : list (clog E)),
  cond_run es (cond_new e0) = Some (s, g) ->
  (exists q, queue [] g q) /\ wakes g <= notifies es /\ (idle s -> wakes g = notifies es).
Proof.
  intros E e0 es s g H. destruct (run_all es (cond_new e0) s g (inv_new e0) H) as (I & Q & _ & N).
  split; [eexists; exact Q|]. cbn in N. split; [lia|]. intros Id. rewrite (idle_starts _ I Id) in N. lia.
Qed.
Print Assumptions C54_notify_wakes_the_longest_waiting.

(** C54. Nobody ever waits for the condition's lock. *)
Theorem C54_lock_is_free : forall (E : Type) (e0 : E) (es : list (cevent E)) (s : cs E) (g : list (clog E)),
  cond_run es (cond_new e0) = Some (s, g) -> c_locked s = false /\ c_lockq s = [].
Proof. intros E e0 es s g H. exact (i_lock _ (proj1 (run_all es (cond_new e0) s g (inv_new e0) H))). Qed.
Print Assumptions C54_lock_is_free.

(** C54. A task whose predicate is true from some moment on and that is not
    cancelled has returned when no task is left to run, if notify() is called
    from that moment on more often than tasks were waiting before it. *)
Theorem C54_enough_notifications : forall (E : Type) (e0 : E) (h1 h2 : list (cevent E)) (s1 s2 : cs E) (g1 g2 : list (clog E)) (t : nat) (p : E -> bool),
  cond_run h1 (cond_new e0) = Some (s1, g1) -> cond_run h2 s1 = Some (s2, g2) ->
  In (CAwait t p) h1 -> ~ In (CCancel t) (h1 ++ h2) ->
  stays_true p (env_after e0 h1) h2 ->
  (forall before after, queue [] g1 (before ++ t :: after) -> length before < notifies h2) ->
  idle s2 -> returned t (g1 ++ g2).
Proof.
  intros E e0 h1 h2 s1 s2 g1 g2 t p R1 R2 C NC T L Id.
  destruct (run_all h1 (cond_new e0) s1 g1 (inv_new e0) R1) as (I1 & Q1 & En & N1).
  destruct (run_called h1 (cond_new e0) s1 g1 t p (inv_new e0) ltac:(intros X; apply NC, in_or_app; now left) (or_introl C) R1) as [D|[e X]].
  2: { exists e. apply in_or_app. now left. }
  assert (P : In (t, true) (c_waitq s1) \/ exists b a, pend (c_waitq s1) = b ++ t :: a /\ length b < starts (c_pc s1) + notifies h2).
  { assert (K : In t (map fst (c_waitq s1))) by (apply (i_pc _ I1); eauto).
    apply in_map_iff in K as ([w b] & W & K). cbn in W. subst w. destruct b; [now left|]. right.
    apply pend_in in K. destruct (in_split _ _ K) as (b & a & Eq). exists b, a. split; [exact Eq|].
    cbn in Q1. rewrite Eq in Q1. specialize (L b a Q1). unfold task in *. lia. }
  destruct (run_live h2 s1 s2 g2 t p I1 ltac:(intros X; apply NC, in_or_app; now right) D P) with (2 := R2) (3 := Id) as [e X].
  - cbn in En. intros x y Eq. rewrite En. exact (T x y Eq).
  - exists e. apply in_or_app. now right.
Qed.
Print Assumptions C54_enough_notifications.

(** C54, exactness: with fewer notifications than that the task does not return,
    whatever its predicate says (no timeouts; notifications still on their way
    are counted). *)
Theorem C54_too_few_notifications_hang : forall (E : Type) (e0 : E) (h1 h2 : list (cevent E)) (s1 s2 : cs E) (g1 g2 : list (clog E)) (t : nat) (before after : list nat),
  cond_run h1 (cond_new e0) = Some (s1, g1) -> cond_run h2 s1 = Some (s2, g2) ->
  queue [] g1 (before ++ t :: after) -> (forall u, ~ In (CCancel u) h2) ->
  notifies (h1 ++ h2) - wakes g1 <= length before ->
  ~ returned t g2.
Proof.
  intros E e0 h1 h2 s1 s2 g1 g2 t b a R1 R2 Q NC L [e X].
  destruct (run_all h1 (cond_new e0) s1 g1 (inv_new e0) R1) as (I1 & Q1 & _ & N1).
  destruct (run_all h2 s1 s2 g2 I1 R2) as (I2 & Q2 & _ & N2).
  assert (Eq : pend (c_waitq s1) = b ++ t :: a) by (symmetry; eapply queue_fun; [constructor|exact Q|exact Q1]).
  rewrite notifies_app in L. cbn in N1.
  refine (proj1 (queue_stuck _ _ _ b t a Q2 Eq _ _) e X).
  - intros u Y. exact (NC u (run_cancels h2 s1 s2 g2 u I1 R2 Y)).
  - unfold task in *. lia.
Qed.
Print Assumptions C54_too_few_notifications_hang.

(** ** Refuted: "a task waiting for something of its own returns when that has
    happened and notify() was called for it".  Two tasks wait for a bit of
    their own each; the bits are set in the other order, each followed by a
    notify(); the first task waits for ever. *)
Definition bit1 : bool * bool -> bool := fst.
Definition bit2 : bool * bool -> bool := snd.
Definition out_of_order : list (cevent (bool * bool)) :=
  [CAwait 1 bit1; CAwait 2 bit2; CEnv (false, true); CNotify 3; CRun 3; CRun 1; CEnv (true, true); CNotify 4; CRun 4; CRun 2].
Theorem C54_every_change_notified_refuted : exists (s : cs (bool * bool)) (g : list (clog (bool * bool))),
  cond_run out_of_order (cond_new (false, false)) = Some (s, g) /\ idle s /\ notifies out_of_order = 2 /\
  bit1 (env_after (false, false) out_of_order) = true /\ bit2 (env_after (false, false) out_of_order) = true /\
  returned 2 g /\ ~ returned 1 g.
Proof.
  destruct (cond_run out_of_order (cond_new (false, false))) as [[s g]|] eqn:R; [|vm_compute in R; discriminate R].
  exists s, g. vm_compute in R. injection R as <- <-. split; [reflexivity|]. split; [|split; [|split; [|split; [|split]]]]; try reflexivity.
  - intros t. destruct t as [|[|[|[|[|t]]]]]; reflexivity.
  - exists (true, true). cbn. tauto.
  - intros [e X]. cbn in X. repeat (destruct X as [X|X]; [discriminate X|]). exact X.
Qed.
Print Assumptions C54_every_change_notified_refuted.

(** ** Refuted: "a notification goes to a task that can use it".  A task that is
    timed out after it was woken takes the notification with it. *)
Definition timed_out : list (cevent bool) :=
  [CAwait 1 (fun b => b); CAwait 2 (fun b => b); CEnv true; CNotify 3; CRun 3; CCancel 1; CRun 1].
Theorem C54_notification_not_lost_refuted : exists (s : cs bool) (g : list (clog bool)),
  cond_run timed_out (cond_new false) = Some (s, g) /\ idle s /\ env_after false timed_out = true /\
  notifies timed_out = 1 /\ In (LRaised 1) g /\ (forall t, ~ returned t g).
Proof.
  destruct (cond_run timed_out (cond_new false)) as [[s g]|] eqn:R; [|vm_compute in R; discriminate R].
  exists s, g. vm_compute in R. injection R as <- <-. split; [reflexivity|]. split; [|split; [|split; [|split]]]; try reflexivity.
  - intros t. destruct t as [|[|[|[|t]]]]; reflexivity.
  - cbn. tauto.
  - intros t [e X]. cbn in X. repeat (destruct X as [X|X]; [discriminate X|]). exact X.
Qed.
Print Assumptions C54_notification_not_lost_refuted.

(** ** The hypotheses are met: one task waits, its predicate becomes true, one
    notify(); and two tasks, notified twice, run in any order. *)
Example cond_single :
  let h1 : list (cevent bool) := [CAwait 1 (fun b => b); CEnv true] in let h2 := [CNotify 2; CRun 2; CRun 1] in
  exists s1 g1 s2 g2, cond_run h1 (cond_new false) = Some (s1, g1) /\ cond_run h2 s1 = Some (s2, g2) /\ idle s2 /\
    g1 = [LWait 1] /\ g2 = [LWake (Some 1); LReturn 1 true] /\ queue [] g1 [1] /\ stays_true (fun b => b) (env_after false h1) h2.
Proof.
  cbv zeta.
  destruct (cond_run [CAwait 1 (fun b => b); CEnv true] (cond_new false)) as [[s1 g1]|] eqn:R1; [|vm_compute in R1; discriminate R1].
  vm_compute in R1. injection R1 as <- <-.
  do 4 eexists. split; [reflexivity|]. split; [vm_compute; reflexivity|]. split; [|split; [reflexivity|split; [reflexivity|split]]].
  - intros t. destruct t as [|[|[|t]]]; reflexivity.
  - apply qu_wait; [intros []|apply qu_nil].
  - intros a b Eq. destruct a as [|x [|y [|z [|w a]]]]; cbn in Eq; try discriminate Eq; try (injection Eq; intros; subst); reflexivity.
Qed.
Example cond_two :
  exists s, cond_run [CAwait 1 (fun n => 3 <=? n); CAwait 2 (fun n => 2 <=? n); CNotify 10; CNotify 11; CEnv 3; CRun 11; CRun 10; CRun 2; CRun 1] (cond_new 0)
   = Some (s, [LWait 1; LWait 2; LWake (Some 1); LWake (Some 2); LReturn 2 3; LReturn 1 3]).
Proof. eexists. vm_compute. reflexivity. Qed.
