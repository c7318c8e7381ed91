(** * C36: the control client *)
From Coq Require Import List ZArith Bool Lia Sorted.
From Verif Require Import PyBase PyLemmas ClientModel ClientSpec ClientProofs.
Import ListNotations.
Open Scope Z_scope.

(** Every request of a client gets a new, larger id. *)
Theorem C36_fresh_ids : forall es s g, client_run es client_new = (s, g) ->
  forall before k id after, g = before ++ LReq k id :: after -> 0 < id /\ forall i, In i (requests before) -> i < id.
Proof.
  intros es s g R before k id after ->.
  destruct (client_run_ok es _ _ inv_new) as (s' & g' & R' & G & _). rewrite R in R'. injection R' as <- <-.
  apply good_app in G. destruct G as [_ [[P L] _]]. split; [exact P|]. intros i I. apply L. now apply request_track.
Qed.
(** In every history of requests, timeouts and packets in any order and number:
    the future of a request is completed exactly as the first answer after it
    says, once, and never if its caller gave up first; no other packet
    completes it. *)
Theorem C36_answered_once : forall es s g, client_run es client_new = (s, g) ->
  forall before k id after, g = before ++ LReq k id :: after ->
  completions id g = match outcome_of k id after with Some o => [o] | None => [] end /\
  dget (c_fut s) id = Some (if cancelled k id after then FCancelled
                            else match outcome_of k id after with Some o => FDone o | None => FPending end).
Proof.
  intros es s g R before k id after ->.
  destruct (client_run_ok es _ _ inv_new) as (s' & g' & R' & G & I & _). rewrite R in R'. injection R' as <- <-. cbn [app] in I.
  apply good_app in G. destruct G as [G1 [[P L] G2]]. cbn [app] in *.
  assert (Tb : track id before = None). { destruct (track id before) eqn:E; [|reflexivity]. specialize (L id ltac:(congruence)). lia. }
  assert (T1 : track id (before ++ [LReq k id]) = Some (k, true, FPending)). { rewrite track_snoc. cbn. destruct (Z.eq_dec id id); congruence. }
  destruct (post_ok id k after _ _ _ G2 T1 ltac:(discriminate)) as [C (b & F & _)]. split.
  - rewrite completions_app, (untracked_no_completion id before [] G1 Tb). cbn [app]. rewrite completions_cons. exact C.
  - rewrite (i_fut _ _ I). rewrite <- app_assoc in F. cbn [app] in F. rewrite F. reflexivity.
Qed.
(** Nothing is ever completed for an id that was not requested. *)
Theorem C36_only_requests : forall es s g, client_run es client_new = (s, g) ->
  forall id, ~ In id (requests g) -> completions id g = [] /\ dget (c_fut s) id = None.
Proof.
  intros es s g R id N. destruct (client_run_ok es _ _ inv_new) as (s' & g' & R' & G & I & _). rewrite R in R'. injection R' as <- <-. cbn [app] in I.
  assert (T : track id g = None). { destruct (track id g) eqn:E; [|reflexivity]. exfalso. apply N. apply request_track. congruence. }
  split; [exact (untracked_no_completion id g [] G T)|]. now rewrite (i_fut _ _ I), T.
Qed.
(** Each spawn notification for an id that was requested is passed on once, with
    its port, as a connection of the client side if it is the first for a
    connect that has not failed and of the server side otherwise; nothing else
    is passed on. *)
Theorem C36_spawn_passed_on : forall es s g, client_run es client_new = (s, g) ->
  forall before p call done exc after, g = before ++ LPkt p call done exc :: after ->
  call = match p with
         | CSpawn id tcp _ =>
             match request_of id before with
             | Some _ => Some (id, if unanswered_connect id before false then KConnect else KListen, tcp)
             | None => None
             end
         | _ => None
         end.
Proof.
  intros es s g R before p call d x after ->.
  destruct (client_run_ok es _ _ inv_new) as (s' & g' & R' & G & _). rewrite R in R'. injection R' as <- <-.
  apply good_app in G. destruct G as [G1 [(-> & _ & _) _]]. cbn [app].
  destruct p as [id fl port|id tcp sport|]; cbn [xcall]; try reflexivity. rewrite (unanswered_track id before G1).
  pose proof (request_of_in id before) as Q. rewrite <- request_track in Q.
  destruct (track id before) as [[[k b] f]|], (request_of id before) as [k2|]; try reflexivity.
  - destruct k, b; reflexivity.
  - exfalso. destruct Q as [_ Q]. exact (Q ltac:(discriminate) eq_refl).
  - exfalso. destruct Q as [Q _]. exact (Q ltac:(discriminate) eq_refl).
Qed.
(** Packets are handled in the order they arrive, each once; one stays behind
    only after an exception, and there are only two causes of exceptions: a
    spawn for an id never requested, and an answer to a request whose caller
    gave up. *)
Theorem C36_in_order : forall es s g, client_run es client_new = (s, g) ->
  handled g ++ c_queue s = arrived es /\
  (c_queue s <> [] -> exists p call done e, In (LPkt p call done (Some e)) g).
Proof.
  intros es s g R. destruct (client_run_ok es _ _ inv_new) as (s' & g' & R' & _ & _ & H & Q). rewrite R in R'. injection R' as <- <-.
  split; [exact H|]. exact (Q eq_refl).
Qed.
Theorem C36_exceptions : forall es s g, client_run es client_new = (s, g) ->
  forall before p call done e after, g = before ++ LPkt p call done (Some e) :: after ->
  (exists id tcp sport, p = CSpawn id tcp sport /\ ~ In id (requests before) /\ e = KeyError) \/
  (exists k id o, In (LReq k id) before /\ In (LCancel id) before /\ answers k id p = Some o /\ e = InvalidStateError).
Proof.
  intros es s g R before p call d e after ->.
  destruct (client_run_ok es _ _ inv_new) as (s' & g' & R' & G & _). rewrite R in R'. injection R' as <- <-.
  apply good_app in G. destruct G as [G1 [(_ & _ & X) _]]. cbn [app] in X. unfold xexc in X.
  destruct (track (pkt_id p) before) as [[[k b] f]|] eqn:T.
  - right. destruct b; [|discriminate]. destruct f; try discriminate. destruct (answers k (pkt_id p) p) as [o|] eqn:A; [|discriminate]. injection X as ->.
    exists k, (pkt_id p), o. revert T A. generalize (pkt_id p) as id. intros id T A.
    assert (W : forall h, track id h = Some (k, true, FCancelled) -> In (LReq k id) h /\ In (LCancel id) h).
    { clear. assert (W0 : forall h b f, track id h = Some (k, b, f) -> In (LReq k id) h).
      { induction h as [|x r IH] using rev_ind; intros b f T; [discriminate|]. rewrite track_snoc in T. apply in_or_app.
        destruct x as [k' i|i|i|p c d e]; cbn [tstep] in T.
        - destruct (Z.eq_dec i id) as [->|]; [injection T as -> _ _; right; now left|left; eauto].
        - left; eauto.
        - left. destruct (Z.eq_dec i id); [|eauto]. destruct (track id r) as [[[k2 b2] f2]|] eqn:E; [|discriminate]. destruct f2; injection T as -> _ _; eauto.
        - left. destruct (track id r) as [[[k2 b2] f2]|] eqn:E; [|discriminate]. destruct b2; [|injection T as -> _ _; eauto].
          destruct (answers k2 id p); injection T as -> _ _; eauto. }
      induction h as [|x r IH] using rev_ind; intros T; [discriminate|]. split; [exact (W0 _ _ _ T)|]. rewrite track_snoc in T. apply in_or_app.
      destruct x as [k' i|i|i|p c d e]; cbn [tstep] in T.
      - left. destruct (Z.eq_dec i id); [discriminate|]. now apply IH.
      - left. now apply IH.
      - destruct (Z.eq_dec i id) as [->|]; [right; now left|left; now apply IH].
      - left. destruct (track id r) as [[[k2 b2] f2]|] eqn:E; [|discriminate]. destruct b2; [|injection T as -> E2 ->; congruence].
        destruct (answers k2 id p); [discriminate|]. injection T as -> ->. now apply IH. }
    destruct (W _ T). repeat split; auto.
  - left. destruct p as [|id tcp sport|]; try discriminate. injection X as ->. exists id, tcp, sport. split; [reflexivity|]. split; [|reflexivity].
    intros I. apply request_track in I. cbn [pkt_id] in T. congruence.
Qed.
(** ** What does not hold *)
(** The late answer to a request that timed out does more than get lost: it
    makes data_received raise, and the answer to another request behind it in
    the same read is not handled. *)
Theorem C36_refuted_late_answer : exists es s g, client_run es client_new = (s, g) /\
  arrived es = [CSpawn 1 5001 80; CResp 2 false 7000] /\ In (LReq KListen 2) g /\
  dget (c_fut s) 2 = Some FPending /\ c_queue s = [CResp 2 false 7000].
Proof.
  exists [EMade; EOpen KConnect; ETimeout 1; EOpen KListen; EData [CSpawn 1 5001 80; CResp 2 false 7000]].
  eexists _, _. split; [vm_compute; reflexivity|]. vm_compute. auto 10.
Qed.
(** A connect that timed out is nevertheless connected by the late spawn, its
    application included. *)
Theorem C36_refuted_given_up_still_connected : exists es s g, client_run es client_new = (s, g) /\
  In (LCancel 1) g /\ In (LPkt (CSpawn 1 5001 80) (Some (1, KConnect, 5001)) None (Some InvalidStateError)) g.
Proof.
  exists [EMade; EOpen KConnect; ETimeout 1; EData [CSpawn 1 5001 80]].
  eexists _, _. split; [vm_compute; reflexivity|]. vm_compute. auto 10.
Qed.
(** A second spawn for the same connect id is built as a server-side
    connection of that request. *)
Theorem C36_refuted_second_spawn : exists es s g, client_run es client_new = (s, g) /\
  g = [LReq KConnect 1; LPkt (CSpawn 1 5001 80) (Some (1, KConnect, 5001)) (Some (1, OResult 1 80)) None;
       LPkt (CSpawn 1 5002 81) (Some (1, KListen, 5002)) None None].
Proof. exists [EMade; EOpen KConnect; EData [CSpawn 1 5001 80; CSpawn 1 5002 81]]. eexists _, _. split; vm_compute; reflexivity. Qed.
(** ** A concrete history: three requests, answers out of order, in pieces *)
Example C36_ex : exists s g, client_run
    [EMade; EOpen KConnect; EOpen KListen; EOpen KConnect; EData [CResp 3 false 0; COther; CResp 2 false 90]; EData [CResp 1 true 0; CSpawn 3 5001 44; CSpawn 2 5002 90]; EClose 2] client_new = (s, g) /\
  completions 1 g = [OFailure] /\ completions 2 g = [OResult 2 90] /\ completions 3 g = [OResult 3 44] /\
  exists before after, g = before ++ LReq KListen 2 :: after /\ outcome_of KListen 2 after = Some (OResult 2 90).
Proof.
  eexists _, _. split; [vm_compute; reflexivity|]. split; [reflexivity|]. split; [reflexivity|]. split; [reflexivity|].
  exists [LReq KConnect 1]. eexists. split; [cbn [app]; reflexivity|reflexivity].
Qed.
Print Assumptions C36_fresh_ids.
Print Assumptions C36_answered_once.
Print Assumptions C36_only_requests.
Print Assumptions C36_spawn_passed_on.
Print Assumptions C36_in_order.
Print Assumptions C36_exceptions.
