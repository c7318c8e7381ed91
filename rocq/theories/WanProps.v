(** * C39: WAN routes are shortest paths *)
From Coq Require Import List ZArith Bool Arith Lia.
From Verif Require Import PyBase PyLemmas WanModel WanSpec WanProofs.
Import ListNotations.

(** the WAN and the graph of direct connections after a history of calls, some
    of which may have raised *)
Notation wan os := (wan_run os routes_new).
Notation links os := (g_edges (g_run os g_new)).

(** After a successful setDirectConnections (and any registrations after it)
    getRoute between different locations is a shortest path over the direct
    connections, and empty exactly if there is none. *)
Theorem C39_shortest : forall (P : Type) (EP : EqDec P) (h : list (wop P)) r ds ps a b,
  snd (wan_set r ds (wan h)) = Ok tt ->
  let os := h ++ [WSet r ds] ++ map WReg ps in
  a <> b ->
  (reachable (links os) a b -> shortest (links os) a (wan_route (wan os) a b) b) /\
  (~ reachable (links os) a b -> wan_route (wan os) a b = []).
Proof.
  intros P EP h r ds ps a b Hok os Hab.
  assert (Hg : good (links os) (wan os)).
  { unfold os. rewrite run_app, g_run_app. cbn.
    pose proof (run_inv h _ _ (inv_new (P:=P))) as Hi.
    destruct (step_inv (WSet r ds) _ _ Hi) as (Hi' & Ho & Hgd & _). cbn [wan_step] in *.
    rewrite Hok in Ho.
    apply regs_good; [exact Hi' | apply Hgd; destruct (set_ok _ _); congruence]. }
  destruct Hg as [Hs Hg]. unfold wan_route. split.
  - intros Hr. destruct (Hg a b Hab Hr) as (q & Hq & Hsh). now rewrite Hq.
  - intros Hr. destruct (get2 (wan os) a b) as [q|] eqn:Hq; auto.
    elim Hr. exists q. now apply (snd_walk _ _ Hs).
Qed.

(** Following nextHop from a reaches b after as many hops as the shortest
    path has. *)
Theorem C39_next_hop : forall (P : Type) (EP : EqDec P) (h : list (wop P)) r ds ps a b p,
  snd (wan_set r ds (wan h)) = Ok tt ->
  let os := h ++ [WSet r ds] ++ map WReg ps in
  a <> b -> shortest (links os) a p b ->
  follow (wan_next_hop (wan os)) (length p) a b = Some b /\
  (forall w, wan_next_hop (wan os) a b = Some w -> In (a, w) (links os)).
Proof.
  intros P EP h r ds ps a b p Hok os Hab Hsh.
  assert (Hg : good (links os) (wan os)).
  { unfold os. rewrite run_app, g_run_app. cbn.
    pose proof (run_inv h _ _ (inv_new (P:=P))) as Hi.
    destruct (step_inv (WSet r ds) _ _ Hi) as (Hi' & Ho & Hgd & _). cbn [wan_step] in *.
    rewrite Hok in Ho.
    apply regs_good; [exact Hi' | apply Hgd; destruct (set_ok _ _); congruence]. }
  split; [eapply follow_good; eauto|].
  intros w Hw. unfold wan_next_hop in Hw. destruct (get2 (wan os) a b) as [q|] eqn:Hq; [|discriminate].
  destruct Hg as [Hs _]. apply (snd_walk _ _ Hs) in Hq. destruct q as [|y q]; [discriminate|].
  injection Hw as ->. inversion Hq; subst; auto.
Qed.

(** At any time, even after a call that raised, a non-empty route is a path of
    current direct connections ending at its destination, and a direct
    connection is its own route. *)
Theorem C39_always_valid : forall (P : Type) (EP : EqDec P) (os : list (wop P)) a b,
  (wan_route (wan os) a b <> [] -> walk (links os) a (wan_route (wan os) a b) b) /\
  (In (a, b) (links os) -> wan_route (wan os) a b = [b]).
Proof.
  intros P EP os a b. pose proof (run_inv os _ _ (inv_new (P:=P))) as [_ _ _ [s1 s2 _]].
  unfold wan_route. split.
  - destruct (get2 _ a b) as [q|] eqn:Hq; [|congruence]. intros _. now apply s1.
  - intros Hi. now rewrite (s2 _ _ Hi).
Qed.

(** Direct connections are symmetric, and a call succeeds exactly if every
    location it names is registered (a registration: exactly if it is new). *)
Theorem C39_calls : forall (P : Type) (EP : EqDec P) (os : list (wop P)),
  (forall a b, In (a, b) (links os) -> In (b, a) (links os)) /\
  wan_prefixes (wan os) = g_nodes (g_run os (g_new (P:=P))) /\
  (forall r ds, snd (wan_set r ds (wan os)) = Ok tt <->
     (forall x, In x (r :: ds) -> In x (wan_prefixes (wan os)))) /\
  (forall p, snd (wan_register p (wan os)) = Ok tt <-> ~ In p (wan_prefixes (wan os))).
Proof.
  intros P EP os. pose proof (run_inv os _ _ (inv_new (P:=P))) as Hi.
  split; [|split; [|split]].
  - clear Hi. revert os.
    assert (Hsym : forall os (g : graph P), (forall a b, In (a, b) (g_edges g) -> In (b, a) (g_edges g)) ->
      forall a b, In (a, b) (g_edges (g_run os g)) -> In (b, a) (g_edges (g_run os g))).
    { induction os as [|o os IH]; cbn; auto. intros g Hg. apply IH.
      destruct o as [p|r ds]; cbn.
      - destruct (in_dec eq_dec p (g_nodes g)); auto.
      - destruct (in_dec eq_dec r (g_nodes g)); auto. cbn. intros a b Hab.
        apply in_app_or in Hab as [Hab|Hab]; apply in_or_app.
        + left. apply filter_In in Hab as [h1 h2]. apply filter_In. cbn in *.
          rewrite andb_comm. auto.
        + right. apply in_flat_map in Hab as (d & Hd & Hab). apply in_flat_map. exists d. split; auto.
          destruct Hab as [[= <- <-]|[[= <- <-]|[]]]; cbn; auto. }
    intros os. apply Hsym. intros a b [].
  - apply Hi.
  - intros r ds. destruct (step_inv (WSet r ds) _ _ Hi) as (_ & Ho & _). cbn [wan_step] in Ho. rewrite Ho.
    unfold wan_prefixes. rewrite (i_keys _ _ Hi). cbn [set_ok].
    split.
    + intros Hx. destruct (_ && _) eqn:E; [|discriminate]. apply andb_true_iff in E as [E1 E2].
      intros x [<-|Hin]; [now apply smem_true|]. rewrite forallb_forall in E2. now apply smem_true, E2.
    + intros Hx. replace (_ && _) with true; auto. symmetry. apply andb_true_iff. split.
      * apply smem_true, Hx. now left.
      * apply forallb_forall. intros x Hin. apply smem_true, Hx. now right.
  - intros p. destruct (step_inv (WReg p) _ _ Hi) as (_ & Ho & _). cbn [wan_step] in Ho. rewrite Ho.
    unfold wan_prefixes. rewrite (i_keys _ _ Hi). cbn [set_ok].
    rewrite <- smem_true. destruct (smem _ p); cbn; split; congruence.
Qed.


(** A ring 1-2-3-4-5-1, then 1 is reconnected to 3 only. *)
Definition c39_ring : list (wop Z) :=
  map WReg [1; 2; 3; 4; 5]%Z ++ [WSet 1 [2]; WSet 3 [2; 4]; WSet 5 [4; 1]]%Z.
Example C39_example_ring :
  snd (wan_set 5%Z [4; 1]%Z (wan_run (map WReg [1; 2; 3; 4; 5]%Z ++ [WSet 1 [2]; WSet 3 [2; 4]]%Z) routes_new)) = Ok tt /\
  wan_route (wan_run c39_ring routes_new) 1%Z 4%Z = [5; 4]%Z /\
  wan_route (wan_run c39_ring routes_new) 1%Z 3%Z = [2; 3]%Z /\
  wan_route (wan_run (c39_ring ++ [WSet 1 [3]])%Z routes_new) 1%Z 5%Z = [3; 4; 5]%Z /\
  wan_next_hop (wan_run (c39_ring ++ [WSet 1 [3]])%Z routes_new) 5%Z 1%Z = Some 4%Z.
Proof. vm_compute. repeat split. Qed.

(** The conclusion of C39_shortest needs the call to succeed: a call that names
    an unknown location after a known one changes the direct connections but
    does not update the routes (2 can reach 3 over 1, but has no route). *)
Example C39_failed_call_leaves_routes_behind :
  let os := (map WReg [1; 2; 3] ++ [WSet 2 [1]; WSet 1 [2; 3; 9]])%Z in
  In (2, 1)%Z (g_edges (g_run os g_new)) /\ In (1, 3)%Z (g_edges (g_run os g_new)) /\
  wan_route (wan_run os routes_new) 2%Z 3%Z = [].
Proof. vm_compute. repeat split; auto 10. Qed.

Print Assumptions C39_shortest.
Print Assumptions C39_next_hop.
Print Assumptions C39_always_valid.
Print Assumptions C39_calls.
