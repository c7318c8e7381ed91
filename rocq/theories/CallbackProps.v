(** * C37: data connections and their notifications *)
From Coq Require Import List ZArith Bool Lia.
From Verif Require Import PyBase PyLemmas ClientModel CallbackModel CallbackSpec CallbackProofs.
Import ListNotations.
Open Scope Z_scope.

Ltac use_run R W := destruct (run_ok _ W) as [I LB]; rewrite R in I, LB; cbn [fst snd] in I, LB.

(** Whatever the order in which connections, notifications, data and losses of
    any number of ports arrive: on a port that is not reused too early, the
    stacks built are exactly the first connection with the first notification,
    the second with the second and so on, in either order of arrival. *)
Theorem C37_paired_in_order : forall es s g, well_behaved es -> cb_run es cbs_new = (s, g) ->
  forall port, paired_use port es -> builds port g = combine (conns port es) (notes port es).
Proof.
  intros es s g W R port U.
  assert (P : pair_inv port es s g).
  { revert s g R W U. induction es as [|e r IH] using rev_ind; intros s g R W U.
    - injection R as <- <-. constructor; auto.
    - rewrite cb_run_snoc in R. destruct (cb_run r cbs_new) as [s1 g1] eqn:R1. destruct (cb_step e s1) as [s2 g2] eqn:R2. injection R as <- <-.
      pose proof (proj1 (wb_snoc _ _ W)) as W1. use_run R1 W1.
      apply pair_step with (s := s1); auto. apply IH; auto. now apply paired_prefix in U. }
  destruct P as [C N Q]. rewrite C, N. symmetry. now apply combine_split.
Qed.
(** However ports are reused: a stack is built only on a connection and for a
    notification of the same port that have both arrived; no connection is used
    twice and, applications being made anew for each notification, no
    notification is. *)
Theorem C37_at_most_once : forall es s g, well_behaved es -> cb_run es cbs_new = (s, g) ->
  (forall port p n, In (p, n) (builds port g) -> In p (conns port es) /\ In n (notes port es)) /\
  NoDup (map (fun b => snd (fst b)) (all_builds g)) /\
  (NoDup (map app_of (all_notes es)) -> NoDup (map (fun b => app_of (snd b)) (all_builds g))).
Proof.
  intros es s g W R. use_run R W. split; [|split].
  - intros port p n B. apply (j_sound _ _ _ I). clear -B. induction g as [|x r IH]; [contradiction|]. change (x :: r) with ([x] ++ r) in *.
    rewrite builds_app in B. rewrite all_builds_app. apply in_or_app. apply in_app_or in B. destruct B as [B|B]; [left|right; auto].
    destruct x as [q p' n'| | |]; cbn in *; try contradiction. rewrite app_nil_r in B. destruct (Z.eq_dec q port) as [->|]; [|contradiction]. destruct B as [B|[]]. injection B as -> ->. now left.
  - apply I.
  - intros ND. assert (A : app_inv es s g); [|apply A].
    clear I LB. revert s g R W ND. induction es as [|e r IH] using rev_ind; intros s g R W ND.
    + injection R as <- <-. constructor; cbn; try constructor; try discriminate; contradiction.
    + rewrite cb_run_snoc in R. destruct (cb_run r cbs_new) as [s1 g1] eqn:R1. destruct (cb_step e s1) as [s2 g2] eqn:R2. injection R as <- <-.
      pose proof (proj1 (wb_snoc _ _ W)) as W1. use_run R1 W1.
      pose proof (app_step r e s1 g1 I LB W ND) as A. rewrite R2 in A. cbn [fst snd] in A. apply A. apply IH; auto.
      rewrite all_notes_app, map_app in ND. exact (NoDup_app_l _ _ ND).
Qed.
(** All data of a connection, before and after its stack was built, reaches the
    application of that stack, in order and once; none goes anywhere before. *)
Theorem C37_data_in_order : forall es s g, well_behaved es -> cb_run es cbs_new = (s, g) ->
  forall p, delivered p g = match app_on p g with Some app => map (pair app) (received p es) | None => [] end.
Proof.
  intros es s g W R p. use_run R W. pose proof (j_proto _ _ _ I p) as J. destruct (dget (b_protos s) p) as [st|].
  - destruct J as (_ & _ & A & D & _). rewrite A. exact D.
  - destruct J as (_ & A & D). rewrite A. exact D.
Qed.
(** getConnections lists the connections built for an id, in the order built,
    without those whose loss was reported. *)
Theorem C37_connections : forall es s g, well_behaved es -> cb_run es cbs_new = (s, g) ->
  forall id, get_connections s id = filter (fun p => negb (is_lost p g)) (built_for id g).
Proof. intros es s g W R id. use_run R W. apply (j_spawn _ _ _ I). Qed.
(** A lost connection is reported once: to its application if the stack was
    built by then, and as an exception otherwise. *)
Theorem C37_loss_reported_once : forall es s g, well_behaved es -> cb_run es cbs_new = (s, g) ->
  forall before p after, es = before ++ QLost p :: after ->
  losses p g = [app_on p (snd (cb_run before cbs_new))].
Proof.
  intros es s g W R before p after ->.
  assert (Wb : well_behaved before). { intros b x a ->. apply (W b x (a ++ QLost p :: after)). now rewrite <- app_assoc. }
  destruct (W before (QLost p) after eq_refl) as [Hm Hl].
  assert (Ha : ~ In (QLost p) after).
  { intros X. apply in_split in X. destruct X as (l1 & l2 & ->). destruct (W (before ++ QLost p :: l1) (QLost p) l2) as [_ N]; [now rewrite <- app_assoc|].
    apply N. apply in_or_app. right. now left. }
  rewrite cb_run_app in R. pose proof (losses_run p before cbs_new Hl) as L1. destruct (run_ok _ Wb) as [I LB]. destruct (cb_run before cbs_new) as [s1 g1]. cbn [fst snd cb_run] in *.
  pose proof (j_proto _ _ _ I p) as J. destruct (cb_step (QLost p) s1) as [s2 g2] eqn:E. pose proof (losses_run p after s2 Ha) as L3. destruct (cb_run after s2) as [s3 g3]. injection R as <- <-.
  cbn [snd] in L3. rewrite !losses_app, L1, L3, app_nil_r. cbn [app cb_step] in *. destruct (dget (b_protos s1) p) as [st|] eqn:Ps; [|tauto].
  destruct J as (_ & _ & A & _). rewrite A. destruct (p_app st); injection E as <- <-; cbn; destruct (Nat.eq_dec p p); try congruence; reflexivity.
Qed.
(** ** What does not hold *)
(** A connection lost before its notification stays pending: the notification
    that comes later builds a stack on the dead connection, whose application
    is never told of the loss, and it is listed as open. *)
Theorem C37_refuted_lost_early : exists es s g, well_behaved es /\ cb_run es cbs_new = (s, g) /\
  es = [QMade 1%nat 5001; QLost 1%nat; QNote 5001 (7, KConnect, 100%nat)] /\
  g = [BError 1%nat; BBuild 5001 1%nat (7, KConnect, 100%nat)] /\ get_connections s 7 = [1%nat].
Proof.
  eexists [QMade 1%nat 5001; QLost 1%nat; QNote 5001 (7, KConnect, 100%nat)], _, _. split; [|split; [vm_compute; reflexivity|split; [reflexivity|split; [reflexivity|vm_compute; reflexivity]]]].
  intros b x a E. do 3 (destruct b as [|? b]; [injection E as <- <-; cbn; repeat split; auto; try lia; intros; intuition discriminate|injection E as <- E]).
  destruct b; discriminate.
Qed.
(** A notification that arrives for a reused port before the loss of the old
    connection of that port is seen is thrown away with it: the new connection
    is never built. *)
Theorem C37_refuted_port_reuse : exists es s g, well_behaved es /\ cb_run es cbs_new = (s, g) /\
  es = [QMade 1%nat 5001; QNote 5001 (7, KListen, 100%nat); QNote 5001 (7, KListen, 101%nat); QLost 1%nat; QMade 2%nat 5001] /\
  builds 5001 g = [(1%nat, (7, KListen, 100%nat))] /\ get_connections s 7 = [].
Proof.
  eexists [QMade 1%nat 5001; QNote 5001 (7, KListen, 100%nat); QNote 5001 (7, KListen, 101%nat); QLost 1%nat; QMade 2%nat 5001], _, _. split; [|split; [vm_compute; reflexivity|split; [reflexivity|split; [reflexivity|vm_compute; reflexivity]]]].
  intros b x a E. do 5 (destruct b as [|? b]; [injection E as <- <-; cbn; repeat split; auto; try lia; intros; intuition discriminate|injection E as <- E]).
  destruct b; discriminate.
Qed.
(** Connection ids are counted by each control connection, but the service does
    not keep apart the VNICs they come from: two connects through two VNICs
    share the id 1 and its list of connections. *)
Theorem C37_refuted_two_vnics : exists es s g, well_behaved es /\ cb_run es cbs_new = (s, g) /\
  all_notes es = [(1, KConnect, 100%nat); (1, KConnect, 200%nat)] /\ get_connections s 1 = [1%nat; 2%nat].
Proof.
  eexists [QMade 1%nat 5001; QNote 5001 (1, KConnect, 100%nat); QMade 2%nat 6001; QNote 6001 (1, KConnect, 200%nat)], _, _.
  split; [|split; [vm_compute; reflexivity|split; [reflexivity|vm_compute; reflexivity]]].
  intros b x a E. do 4 (destruct b as [|? b]; [injection E as <- <-; cbn; repeat split; auto; try lia; intros; intuition discriminate|injection E as <- E]).
  destruct b; discriminate.
Qed.
(** ** A concrete history: two ports, both orders of arrival, early data *)
Example C37_ex : exists s g,
  let es := [QMade 1%nat 5001; QData 1%nat [1]; QNote 6001 (2, KListen, 200%nat); QData 1%nat [2]; QNote 5001 (1, KConnect, 100%nat); QMade 2%nat 6001; QData 1%nat [3]; QData 2%nat [9]; QLost 2%nat] in
  well_behaved es /\ paired_use 5001 es /\ paired_use 6001 es /\ cb_run es cbs_new = (s, g) /\
  delivered 1%nat g = [(100%nat, [1]); (100%nat, [2]); (100%nat, [3])] /\ builds 6001 g = [(2%nat, (2, KListen, 200%nat))] /\
  get_connections s 1 = [1%nat] /\ get_connections s 2 = [] /\ losses 2%nat g = [Some 200%nat].
Proof.
  eexists _, _. cbv zeta. split; [|split; [|split; [|split; [vm_compute; reflexivity|]]]].
  - intros b x a E. do 9 (destruct b as [|? b]; [injection E as <- <-; cbn; repeat split; auto; try lia; intros; intuition discriminate|injection E as <- E]).
    destruct b; discriminate.
  - intros b a E. do 9 (destruct b as [|? b]; [cbn in E; subst a; cbn; repeat split; try lia; intros p r X; try discriminate; injection X as <- <-; cbn; intuition discriminate|injection E as <- E]).
    destruct b; [|discriminate]. cbn in E. subst a. cbn. repeat split; try lia.
  - intros b a E. do 9 (destruct b as [|? b]; [cbn in E; subst a; cbn; repeat split; try lia; intros p r X; try discriminate; injection X as <- <-; cbn; intuition (discriminate || lia)|injection E as <- E]).
    destruct b; [|discriminate]. cbn in E. subst a. cbn. repeat split; try lia.
  - vm_compute. auto 10.
Qed.
Print Assumptions C37_paired_in_order.
Print Assumptions C37_at_most_once.
Print Assumptions C37_data_in_order.
Print Assumptions C37_connections.
Print Assumptions C37_loss_reported_once.
