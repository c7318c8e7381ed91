(** * C55: create_connection and create_server *)
From Coq Require Import List ZArith Bool Lia Arith.
From Verif Require Import PyBase PyLemmas ClientModel CallbackModel ConnModel ConnSpec ConnProofs ConnLive.
Import ListNotations.
Open Scope nat_scope.

(** Whatever the VNICs, the callback connections and the scheduler do: if there
    is one VNIC, create_connection returns an application that its own factory
    made for its own request, over the data connection its stack was built on,
    after that application's connection_made, and the same application to
    nobody else. *)
Theorem C55_returns_own_protocol es s g g1 g2 k p a :
  y_run es sys_new = Some (s, g) -> g = g1 ++ YLReturn k p a :: g2 -> length (tcps g) <= 1 ->
  (exists c id, In (YLReq k c id KConnect) g1 /\ In (YLApp a k c id) g1) /\
  In (YLBuilt a p) g1 /\ In (YLMade a) g1 /\ forall k' p', ~ In (YLReturn k' p' a) (g1 ++ g2).
Proof.
  intros H E L. destruct (run_inv _ _ _ H) as [Y _]. destruct (run_ret _ _ _ _ _ _ _ _ H E) as ((c & id & P & (c' & k' & Q)) & B & M & _).
  assert (In1 : forall x, In x g1 -> In x g) by (intros x X; rewrite E; apply in_or_app; now left). split.
  - exists c, id. split; [exact P|]. destruct (z_req _ _ Y _ _ _ _ (In1 _ P)) as [F (x & X & _)]. destruct (z_app _ _ Y _ _ _ _ (In1 _ Q)) as [F' _].
    destruct (z_fac _ _ Y _ _ _ F') as [kd R]. destruct (z_req _ _ Y _ _ _ _ R) as [_ (x' & X' & _)].
    pose proof (proj1 (z_ctrl _ _ Y _ _ X)) as N. pose proof (proj1 (z_ctrl _ _ Y _ _ X')) as N'. rewrite (z_n _ _ Y) in N, N'. assert (c' = c) by (unfold ctrl in *; lia). subst c'.
    assert (k' = k) by congruence. subst k'. exact Q.
  - split; [exact B|]. split; [exact M|]. intros j q I. apply in_app_or in I as [I|I].
    + destruct (run_ret _ _ _ _ _ _ _ _ H E) as (_ & _ & _ & N). exact (N j q I).
    + apply in_split in I as (r1 & r2 & ->). assert (E2 : g = (g1 ++ YLReturn k p a :: r1) ++ YLReturn j q a :: r2) by (rewrite E, <- app_assoc; reflexivity).
      destruct (run_ret _ _ _ _ _ _ _ _ H E2) as (_ & _ & _ & N). apply (N k p). apply in_or_app. right. now left.
Qed.
Print Assumptions C55_returns_own_protocol.

(** With any number of VNICs: the application was made for some request with the
    same number, and is returned to one call only. *)
Theorem C55_returned_once es s g g1 g2 k p a :
  y_run es sys_new = Some (s, g) -> g = g1 ++ YLReturn k p a :: g2 ->
  (exists c id c' k', In (YLReq k c id KConnect) g1 /\ In (YLApp a k' c' id) g1) /\
  In (YLBuilt a p) g1 /\ In (YLMade a) g1 /\ forall k' p', ~ In (YLReturn k' p' a) (g1 ++ g2).
Proof.
  intros H E. destruct (run_ret _ _ _ _ _ _ _ _ H E) as ((c & id & P & (c' & k' & Q)) & B & M & _). split; [exists c, id, c', k'; now split|].
  split; [exact B|]. split; [exact M|]. intros j q I. apply in_app_or in I as [I|I].
  - destruct (run_ret _ _ _ _ _ _ _ _ H E) as (_ & _ & _ & N). exact (N j q I).
  - apply in_split in I as (r1 & r2 & ->). assert (E2 : g = (g1 ++ YLReturn k p a :: r1) ++ YLReturn j q a :: r2) by (rewrite E, <- app_assoc; reflexivity).
    destruct (run_ret _ _ _ _ _ _ _ _ H E2) as (_ & _ & _ & N). apply (N k p). apply in_or_app. right. now left.
Qed.
Print Assumptions C55_returned_once.

(** A call ends at most once. *)
Theorem C55_ends_once es s g k : y_run es sys_new = Some (s, g) -> length (filter (ends k) g) <= 1.
Proof. intros H. pose proof (run_count _ _ _ k H) as E. unfold endsn in E. rewrite E. destruct (final _); cbn; lia. Qed.
Print Assumptions C55_ends_once.

(** create_server returns the number of its own listen request. *)
Theorem C55_server_own_request es s g k c id : y_run es sys_new = Some (s, g) -> In (YLServer k c id) g ->
  In (YLReq k c id KListen) g /\ forall k' kd, In (YLReq k' c id kd) g -> k' = k.
Proof.
  intros H I. pose proof (run_server _ _ _ _ _ _ H I) as R. split; [exact R|]. destruct (run_inv _ _ _ H) as [Y _]. intros k' kd X.
  pose proof (proj1 (z_req _ _ Y _ _ _ _ R)). pose proof (proj1 (z_req _ _ Y _ _ _ _ X)). congruence.
Qed.
Print Assumptions C55_server_own_request.

(** A program that only makes connections begins at most one TCP connection to each VNIC. *)
Theorem C55_one_control_connection es s g : y_run es sys_new = Some (s, g) -> (forall k l, ~ In (VListen k l) es) -> NoDup (tcps g).
Proof.
  intros H N. apply (run_tcps es s g); [|exact H]. intros e I. destruct e; try reflexivity. elim (N _ _ I).
Qed.
Print Assumptions C55_one_control_connection.
(** create_server does not mark the VNIC as connecting. *)
Theorem C55_two_servers_refuted : exists es s g, y_run es sys_new = Some (s, g) /\ tcps g = [0; 0] /\
  In (YLServer 0 0 1%Z) g /\ In (YLServer 1 1 1%Z) g.
Proof.
  exists [VListen 0 0; VListen 1 0; VTcp 0 true; VTcp 1 true; VPkt 0 (CResp 1 false 101); VPkt 1 (CResp 1 false 102); VResume 0; VResume 1].
  eexists. eexists. split; [vm_compute; reflexivity|]. vm_compute. split; [reflexivity|]. intuition.
Qed.
Print Assumptions C55_two_servers_refuted.

(** If the first call to a VNIC was create_connection and could not reach it, no
    later call to it ever ends: it neither returns nor raises, whatever happens
    next. *)
Theorem C55_unreachable_hangs es1 k l es2 s g :
  (forall e, In e es1 -> calls_to l e = None) -> y_run (es1 ++ VConnect k l :: es2) sys_new = Some (s, g) ->
  In (YLRaise k YTcp) g -> forall e j, In e es2 -> calls_to l e = Some j -> ~ ended j g.
Proof. apply unreachable. Qed.
Print Assumptions C55_unreachable_hangs.

(** If connections are asked for one at a time, and nothing can run on, a call
    that has not ended waits for the network: for TCP, for another call's TCP
    connection, for the VNIC's answer, for a data connection with its number, or
    for the connection_made of the application on one. *)
Theorem C55_waits_for_network es s g k l :
  y_run es sys_new = Some (s, g) -> one_at_a_time es -> quiet s -> In (VConnect k l) es -> ~ ended k g ->
  y_step (VTcp k true) s <> None \/ y_step (VPoll k) s <> None \/
  exists c id, In (YLReq k c id KConnect) g /\
    (unanswered c id s \/ get_connections (y_cbs s) id = [] \/
     exists a c' k' g1 p g2, In (YLApp a k' c' id) g /\ g = g1 ++ YLBuilt a p :: g2 /\ ~ In (YLMade a) g2).
Proof. intros H O. now apply waiting. Qed.
Print Assumptions C55_waits_for_network.

(** A connection, from call to return *)
Definition happy : list yevent :=
  [VConnect 0 0; VTcp 0 true; VPkt 0 (CResp 1 false 0); VPkt 0 (CSpawn 1 2001 555); VResume 0;
   VCb (QMade 0 2001); VNotify; VMade 0; VResume 0].
Example C55_ex_happy : exists s g, y_run happy sys_new = Some (s, g) /\ In (YLReturn 0 0 0) g /\ length (tcps g) <= 1 /\ quiet s.
Proof.
  eexists. eexists. split; [vm_compute; reflexivity|]. split; [vm_compute; intuition|]. split; [vm_compute; auto|]. split; [reflexivity|].
  intros [|k]; reflexivity.
Qed.
(** the same, up to where the data connection is missing: the hypotheses of C55_waits_for_network *)
Example C55_ex_waits : exists s g, y_run (firstn 5 happy) sys_new = Some (s, g) /\ one_at_a_time (firstn 5 happy) /\ quiet s /\ In (VConnect 0 0) (firstn 5 happy) /\ ~ ended 0 g /\
  get_connections (y_cbs s) 1 = [].
Proof.
  eexists. eexists. split; [vm_compute; reflexivity|]. split.
  { intros a k l b s g E _ k' l' I. destruct a as [|x a]; [destruct I|]. cbn in E. injection E as <- E.
    exfalso. assert (X : In (VConnect k l) [VTcp 0 true; VPkt 0 (CResp 1 false 0); VPkt 0 (CSpawn 1 2001 555); VResume 0]) by (rewrite E; apply in_or_app; right; now left).
    cbn in X. intuition discriminate. }
  split; [split; [reflexivity|intros [|k]; reflexivity]|]. split; [now left|]. split; [|reflexivity].
  intros (x & X & E). cbn in X. repeat (destruct X as [<-|X]; [discriminate|]). destruct X.
Qed.
Example C55_ex_unreachable : exists s g, y_run ([] ++ VConnect 0 7 :: [VConnect 1 7; VTcp 0 false; VPoll 1; VListen 2 7; VPoll 1; VPoll 2]) sys_new = Some (s, g) /\ In (YLRaise 0 YTcp) g.
Proof. eexists. eexists. split; [vm_compute; reflexivity|]. vm_compute. intuition. Qed.

(** Two VNICs number their requests alike, and the callback service has one table
    for both.  A server accepts a connection on one; create_connection on the
    other returns the server's application. *)
Theorem C55_two_vnics_refuted : exists es s g g1 g2, y_run es sys_new = Some (s, g) /\ g = g1 ++ YLReturn 1 0 0 :: g2 /\
  tcps g = [0; 1] /\ In (YLApp 0 0 0 1%Z) g1 /\ forall c id, ~ In (YLApp 0 1 c id) g.
Proof.
  exists [VListen 0 0; VTcp 0 true; VPkt 0 (CResp 1 false 101); VResume 0;
          VPkt 0 (CSpawn 1 2001 101); VCb (QMade 0 2001); VMade 0;
          VConnect 1 1; VTcp 1 true; VPkt 1 (CSpawn 1 2002 555); VResume 1].
  eexists. eexists. eexists [YLTcp 0 0; YLReq 0 0 1%Z KListen; YLServer 0 0 1%Z; YLApp 0 0 0 1%Z; YLBuilt 0 0; YLMade 0; YLTcp 1 1; YLReq 1 1 1%Z KConnect; YLApp 1 1 1 1%Z]. eexists [].
  split; [vm_compute; reflexivity|]. split; [reflexivity|]. split; [reflexivity|]. split; [cbn; intuition|]. intros c id X. cbn in X. intuition discriminate.
Qed.
Print Assumptions C55_two_vnics_refuted.
(** The same, with both data connections there: create_connection raises. *)
Theorem C55_two_vnics_raise_refuted : exists es s g, y_run es sys_new = Some (s, g) /\ In (YLRaise 1 YNotOne) g /\ In (YLBuilt 1 1) g /\ In (YLMade 1) g.
Proof.
  exists [VListen 0 0; VTcp 0 true; VPkt 0 (CResp 1 false 101); VResume 0;
          VPkt 0 (CSpawn 1 2001 101); VCb (QMade 0 2001); VMade 0;
          VConnect 1 1; VTcp 1 true; VPkt 1 (CSpawn 1 2002 555); VCb (QMade 1 2002); VMade 1; VResume 1].
  eexists. eexists. split; [vm_compute; reflexivity|]. vm_compute. intuition.
Qed.
Print Assumptions C55_two_vnics_raise_refuted.
(** Two connections asked for at the same time, on one VNIC, whose data
    connections come in the other order: nothing can run, the first call's
    application is connected, and the call waits for ever (it has no timeout
    there). *)
Theorem C55_concurrent_hangs_refuted : exists es s g, y_run es sys_new = Some (s, g) /\ quiet s /\ tcps g = [0] /\
  In (YLReq 0 0 1%Z KConnect) g /\ get_connections (y_cbs s) 1 = [1] /\ In (YLBuilt 0 1) g /\ In (YLMade 0) g /\ ~ ended 0 g /\ y_step (VTimeout 0) s = None.
Proof.
  exists [VConnect 0 0; VTcp 0 true; VConnect 1 0; VPkt 0 (CSpawn 1 2001 555); VPkt 0 (CSpawn 2 2002 556); VResume 0; VResume 1;
          VCb (QMade 0 2002); VNotify; VMade 1; VResume 0; VCb (QMade 1 2001); VNotify; VMade 0; VResume 1].
  eexists. eexists. split; [vm_compute; reflexivity|]. split; [split; [reflexivity|intros [|[|k]]; reflexivity]|]. split; [reflexivity|].
  split; [cbn; intuition|]. split; [reflexivity|]. split; [cbn; intuition|]. split; [cbn; intuition|]. split; [|reflexivity].
  intros (x & X & E). cbn in X. repeat (destruct X as [<-|X]; [discriminate|]). destruct X.
Qed.
Print Assumptions C55_concurrent_hangs_refuted.
(** A data connection that is made and lost before its call looks: the call waits
    for ever too. *)
Theorem C55_lost_early_hangs_refuted : exists es s g, y_run es sys_new = Some (s, g) /\ quiet s /\ one_at_a_time es /\
  In (YLBuilt 0 0) g /\ In (YLMade 0) g /\ ~ ended 0 g /\ y_step (VTimeout 0) s = None.
Proof.
  set (r := [VTcp 0 true; VPkt 0 (CSpawn 1 2001 555); VCb (QMade 0 2001); VMade 0; VCb (QLost 0); VNotify; VResume 0]). exists (VConnect 0 0 :: r).
  eexists. eexists. split; [vm_compute; reflexivity|]. split; [split; [reflexivity|intros [|k]; reflexivity]|]. split.
  { intros a k l b s g E _ k' l' I. destruct a as [|x a]; [destruct I|]. cbn in E. injection E as <- E.
    exfalso. assert (X : In (VConnect k l) r) by (rewrite E; apply in_or_app; right; now left). cbn in X. intuition discriminate. }
  split; [cbn; intuition|]. split; [cbn; intuition|]. split; [|reflexivity].
  intros (x & X & E). cbn in X. repeat (destruct X as [<-|X]; [discriminate|]). destruct X.
Qed.
Print Assumptions C55_lost_early_hangs_refuted.
