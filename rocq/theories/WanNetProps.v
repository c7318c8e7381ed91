(** * C52: which devices of a wide area network get a packet *)
From Coq Require Import String.
From Coq Require Import List ZArith Bool Lia.
From Verif Require Import PyBase PyLemmas AddrModel AddrSpec AddrProofs SwitchModel WanModel WanNetModel WanNetSpec WanNetProofs WanNetProofs2 WanNetProofs3 WanNetProofs4 WanNetProofs5.
Import ListNotations.
Open Scope nat_scope.

(** the network after a history *)
Definition after (lost : nat -> bool) (h : list nop) : wnet := net_run lost h net_new.

(** A packet for an address that is not a gateway's is copied once to each device
    of the sender's LAN that listens to it (or to the next hop's gateway address),
    [c] times to each listening device of the next hop's LAN, [c] being at most
    the number of open links there - equal to it if nothing is lost -, and to
    nobody else *)
Theorem C52_delivery : forall lost h n t p dest a fuel, Forall sensible h ->
  pl_seat (planned h) n = Some t -> t_at t = Some p -> from_string ClsBlock dest = Ok a -> prefix_shaped a -> ~ is_gate a -> 2 <= fuel ->
  exists k ds c, net_send lost fuel n dest (after lost h) = Some (k, ds) /\ crosses lost (planned h) p a c /\
    forall m, (near (planned h) p a m -> times m ds = 1) /\ (far (planned h) p a m -> times m ds = c) /\
              (~ near (planned h) p a m -> ~ far (planned h) p a m -> times m ds = 0).
Proof.
  intros lost h n t p dest a fuel S St T F P G L. destruct fuel as [|[|f]]; try lia.
  apply (send_spec lost (after lost h) (planned h) (NI_planned lost h S) n t p dest a f); auto.
Qed.

(** If no call of setDirectConnections raised, what is sent to the next hop's LAN
    gets there, if it is not lost *)
Theorem C52_next_hop_reached : forall h n t p dest a x m fuel k ds, Forall sensible h -> all_ok h ->
  pl_seat (planned h) n = Some t -> t_at t = Some p -> from_string ClsBlock dest = Ok a -> prefix_shaped a -> ~ is_gate a -> 2 <= fuel ->
  hop (planned h) p a = Some x -> at_lan (planned h) m x a ->
  net_send (fun _ => false) fuel n dest (after (fun _ => false) h) = Some (k, ds) -> 1 <= times m ds.
Proof.
  intros h n t p dest a x m fuel k ds S A St T F P G L Hx M E.
  destruct (C52_delivery (fun _ => false) h n t p dest a fuel S St T F P G L) as (k' & ds' & c & E' & C & Ct). rewrite E in E'. injection E' as <- <-.
  destruct (Ct m) as (_ & X & _). rewrite X by (exists x; auto). unfold crosses in C. rewrite Hx in C. destruct C as [_ C]. rewrite C by reflexivity.
  apply (linked_copies (fun _ => false) _ _ p x (NI_planned (fun _ => false) h S)). eapply next_linked; [apply LK_all; exact A|exact Hx].
Qed.

(** But packets are not forwarded: a device on a LAN that is not the next hop -
    though there is a route - gets nothing *)
Theorem C52_multihop_refuted :
  (forall lost h n t p dest a q m fuel k ds, Forall sensible h ->
    pl_seat (planned h) n = Some t -> t_at t = Some p -> from_string ClsBlock dest = Ok a -> prefix_shaped a -> ~ is_gate a -> 2 <= fuel ->
    q <> p -> hop (planned h) p a <> Some q -> (exists t', pl_seat (planned h) m = Some t' /\ t_at t' = Some q) ->
    net_send lost fuel n dest (after lost h) = Some (k, ds) -> times m ds = 0) /\
  (exists h p q dest a, Forall sensible h /\ all_ok h /\ from_string ClsBlock dest = Ok a /\ at_lan (planned h) 1 q a /\
    wan_route (pl_routes (planned h)) p q = [2; 3]%Z /\ (forall t, pl_seat (planned h) 0 = Some t -> t_at t = Some p) /\
    net_send (fun _ => false) 5 0 dest (after (fun _ => false) h) = Some (5, [])).
Proof.
  split.
  - intros lost h n t p dest a q m fuel k ds S St T F P G L Nq Hq (t' & M1 & M2) E.
    destruct (C52_delivery lost h n t p dest a fuel S St T F P G L) as (k' & ds' & c & E' & C & Ct). rewrite E in E'. injection E' as <- <-. apply (Ct m).
    + intros [(t1 & A1 & A2 & _)|(x & _ & (t1 & A1 & A2 & _))]; congruence.
    + intros (x & X & (t1 & A1 & A2 & _)). congruence.
  - exists [NReg 1; NReg 2; NReg 3; NSet 2 [1; 3]; NConnect 0; NConnect 1; NAnnounce 0 (lit "1.0.0.5"); NAnnounce 1 (lit "3.0.0.7"); NLocate 0 1; NLocate 1 3]%Z, 1%Z, 3%Z, (lit "3.0.0.7"), (Addr (Num 3) (Num 0) (Num 0) (Num 7)).
    split; [repeat (apply Forall_cons || apply Forall_nil); cbn; try lia; intros [|[|[]]]; discriminate|].
    split; [|].
    { intros h1 r ds h2 E. repeat (destruct h1 as [|? h1]; [try discriminate E; injection E as <- <- <-; vm_compute; reflexivity|injection E as <- E]). destruct h1; discriminate E. }
    split; [vm_compute; reflexivity|]. split.
    { exists (Seat (Some (lit "3.0.0.7")) (Some 3%Z)). split; [vm_compute; reflexivity|]. split; [reflexivity|]. exists (Addr (Num 3) (Num 0) (Num 0) (Num 7)). repeat split; cbn; try lia; try discriminate; try (now right). }
    split; [vm_compute; reflexivity|]. split; [intros t X; vm_compute in X; injection X as <-; reflexivity|]. vm_compute. reflexivity.
Qed.

(** ... and one packet may arrive many times: each time the connections of the
    sender's LAN are set again, one more copy crosses; two LANs that name each
    other as direct connections - as a configuration of both would - exchange two
    copies one way *)
Definition twice_set (k : nat) : list nop :=
  ([NReg 1; NReg 2; NConnect 0; NConnect 1; NAnnounce 0 (lit "1.0.0.5"); NAnnounce 1 (lit "2.0.0.7"); NLocate 0 1; NLocate 1 2] ++ repeat (NSet 1 [2]) k)%Z.
Lemma twice_planned k : pl_copies (planned (twice_set (S k))) 1 2 = S k /\
  pl_routes (planned (twice_set (S k))) = [(1, [(2, [2])]); (2, [(1, [1])])]%Z /\ (forall n, pl_seat (planned (twice_set (S k))) n = pl_seat (planned (twice_set 1)) n).
Proof.
  unfold twice_set, planned. induction k as [|k IH]; [vm_compute; auto|].
  replace (repeat (NSet 1%Z [2%Z]) (S (S k))) with (repeat (NSet 1%Z [2%Z]) (S k) ++ [NSet 1%Z [2%Z]]) by (symmetry; apply repeat_cons).
  rewrite app_assoc, fold_left_app. cbn [fold_left]. destruct IH as (A & B & C). set (pl := fold_left _ _ plan_new) in *.
  unfold plan_step. rewrite B. replace (dhas [(1%Z, [(2%Z, [2%Z])]); (2%Z, [(1%Z, [1%Z])])] 1%Z) with true by reflexivity.
  replace (wan_set 1%Z [2%Z] [(1%Z, [(2%Z, [2%Z])]); (2%Z, [(1%Z, [1%Z])])]) with ([(1%Z, [(2%Z, [2%Z])]); (2%Z, [(1%Z, [1%Z])])], Ok tt) by (vm_compute; reflexivity).
  cbn [pl_copies pl_routes pl_seat]. split; [|split; [reflexivity|exact C]]. rewrite A. change (1 =? 1)%Z with true. cbn iota.
  replace (b2n _) with 1 by reflexivity. lia.
Qed.
Theorem C52_once_refuted :
  (forall k, 1 <= k -> Forall sensible (twice_set k) /\ all_ok (twice_set k) /\
    exists d ds, net_send (fun _ => false) 2 0 (lit "2.0.0.7") (after (fun _ => false) (twice_set k)) = Some (d, ds) /\ times 1 ds = k) /\
  (let h := [NReg 1; NReg 2; NSet 1 [2]; NSet 2 [1]; NConnect 0; NConnect 1; NAnnounce 0 (lit "1.0.0.5"); NAnnounce 1 (lit "2.0.0.7"); NLocate 0 1; NLocate 1 2]%Z in
    net_send (fun _ => false) 2 0 (lit "2.0.0.7") (after (fun _ => false) h) = Some (5, [1]) /\
    net_send (fun _ => false) 2 1 (lit "1.0.0.5") (after (fun _ => false) h) = Some (6, [0; 0])).
Proof.
  split; [|vm_compute; split; reflexivity].
  intros k K. assert (S : Forall sensible (twice_set k)).
  { unfold twice_set. apply Forall_app. split; [repeat (apply Forall_cons || apply Forall_nil); cbn; lia|]. apply Forall_forall. intros o O. apply repeat_spec in O. subst. cbn. intros [|[]]; discriminate. }
  split; [exact S|]. split.
  { intros h1 r ds h2 E.
    assert (Rt : n_routes (net_run (fun _ => false) h1 net_new) = pl_routes (planned h1)) by apply routes_run.
    unfold net_set. rewrite Rt. unfold twice_set in E.
    do 8 (destruct h1 as [|? h1]; [discriminate E|injection E as <- E]). clear Rt S.
    assert (X : exists j, h1 = repeat (NSet 1%Z [2%Z]) j /\ r = 1%Z /\ ds = [2%Z]).
    { clear K. revert h1 E. induction k as [|k IH]; intros h1 E; [destruct h1; discriminate|]. destruct h1 as [|o h1]; cbn in E; injection E; intros.
      - exists 0. subst. auto. - subst o. destruct (IH h1) as (j & -> & X); [assumption|]. exists (Datatypes.S j). auto. }
    destruct X as (j & -> & -> & ->). destruct j as [|j]; [vm_compute; reflexivity|].
    destruct (twice_planned j) as (_ & B & _). match goal with |- context [pl_routes (planned ?x)] => change (pl_routes (planned x)) with (pl_routes (planned (twice_set (Datatypes.S j)))) end. rewrite B. vm_compute. reflexivity. }
  destruct k as [|k]; [lia|]. destruct (twice_planned k) as (A & B & C).
  destruct (C52_delivery (fun _ => false) (twice_set (Datatypes.S k)) 0 (Seat (Some (lit "1.0.0.5")) (Some 1%Z)) 1%Z (lit "2.0.0.7") (Addr (Num 2) (Num 0) (Num 0) (Num 7)) 2 S) as (d & ds & c & E & Cr & Ct).
  { rewrite C. vm_compute. reflexivity. } { reflexivity. } { vm_compute. reflexivity. } { repeat split; cbn; discriminate. } { intros [q Q]. unfold gate in Q. congruence. } { lia. }
  exists d, ds. split; [exact E|]. destruct (Ct 1) as (_ & X & _).
  assert (Hp : hop (planned (twice_set (Datatypes.S k))) 1 (Addr (Num 2) (Num 0) (Num 0) (Num 7)) = Some 2%Z) by (unfold hop; rewrite B; vm_compute; reflexivity).
  rewrite X.
  - unfold crosses in Cr. rewrite Hp in Cr. destruct Cr as [_ Cr]. now rewrite Cr.
  - exists 2%Z. split; [exact Hp|]. exists (Seat (Some (lit "2.0.0.7")) (Some 2%Z)). rewrite C. split; [vm_compute; reflexivity|]. split; [reflexivity|].
    exists (Addr (Num 2) (Num 0) (Num 0) (Num 7)). repeat split; cbn; try lia; try discriminate; try (now right).
Qed.

(** The LAN 0 is never routed to: a next hop of 0 counts as none *)
Theorem C52_lan_0_refuted :
  (forall lost h n t p dest a m fuel k ds, Forall sensible h ->
    pl_seat (planned h) n = Some t -> t_at t = Some p -> from_string ClsBlock dest = Ok a -> prefix_shaped a -> ~ is_gate a -> 2 <= fuel ->
    p <> 0%Z -> (exists t', pl_seat (planned h) m = Some t' /\ t_at t' = Some 0%Z) ->
    net_send lost fuel n dest (after lost h) = Some (k, ds) -> times m ds = 0) /\
  (let h := [NReg 0; NReg 1; NSet 1 [0]; NConnect 0; NConnect 1; NAnnounce 0 (lit "1.0.0.5"); NAnnounce 1 (lit "0.0.0.7"); NLocate 0 1; NLocate 1 0]%Z in
    wan_route (pl_routes (planned h)) 1%Z 0%Z = [0%Z] /\
    net_send (fun _ => false) 2 0 (lit "0.0.0.7") (after (fun _ => false) h) = Some (2, []) /\
    net_send (fun _ => false) 2 1 (lit "1.0.0.5") (after (fun _ => false) h) = Some (3, [0])).
Proof.
  split; [|vm_compute; repeat split; reflexivity].
  intros lost h n t p dest a m fuel k ds S St T F P G L Np M E.
  apply (proj1 C52_multihop_refuted lost h n t p dest a 0%Z m fuel k ds S St T F P G L); auto.
  unfold hop. destruct (a_zone a) as [|q]; [discriminate|]. destruct (q =? p)%Z; [discriminate|]. destruct (wan_next_hop (pl_routes (planned h)) p q) as [y|]; [|discriminate].
  destruct (Z.eqb_spec y 0); [discriminate|congruence].
Qed.

(** A device without a location, or whose location no LAN has, sends nothing; so
    does one that is not connected, and every packet for an address that cannot
    be read goes nowhere *)
Theorem C52_nowhere : forall lost h n dest fuel, Forall sensible h -> 1 <= fuel ->
  (match pl_seat (planned h) n with None => True | Some t => t_at t = None end) \/ (forall a, from_string ClsBlock dest <> Ok a) ->
  exists k, net_send lost fuel n dest (after lost h) = Some (k, []).
Proof.
  intros lost h n dest fuel S L X. destruct fuel as [|f]; [lia|]. pose proof (NI_planned lost h S) as H. exists (n_draws (after lost h)). destruct X as [X|X]; [|now apply (send_bad lost (after lost h))].
  destruct (pl_seat (planned h) n) as [t|] eqn:St; [now apply (send_nowhere lost (after lost h) (planned h) H n t)|].
  pose proof (ni_conn _ _ _ H n) as C. rewrite St in C. unfold net_send, after. destruct (dget _ n); [contradiction|reflexivity].
Qed.
(** Announcing an address takes the device off its LAN: it neither sends nor
    receives until its location is set again *)
Theorem C52_announce_moves_off : forall lost h n a, Forall sensible h -> is_valid_string ClsBlock a = true ->
  let h' := h ++ [NAnnounce n a] in
  (forall fuel dest, 1 <= fuel -> exists k, net_send lost fuel n dest (after lost h') = Some (k, [])) /\
  (forall m t p dest b fuel k ds, pl_seat (planned h') m = Some t -> t_at t = Some p -> from_string ClsBlock dest = Ok b -> prefix_shaped b -> ~ is_gate b -> 2 <= fuel ->
     net_send lost fuel m dest (after lost h') = Some (k, ds) -> times n ds = 0).
Proof.
  intros lost h n a S V h'. assert (S' : Forall sensible h') by (apply Forall_app; split; [exact S|constructor; [exact I|constructor]]).
  assert (St : match pl_seat (planned h') n with None => True | Some t => t_at t = None end).
  { unfold h', planned. rewrite fold_left_app. cbn [fold_left plan_step]. fold (planned h). destruct (pl_seat (planned h) n) eqn:E; [|now rewrite E]. rewrite V. cbn. destruct (Nat.eq_dec n n); [reflexivity|congruence]. }
  split; [intros fuel dest L; apply C52_nowhere; auto|].
  intros m t p dest b fuel k ds M T F P G L E. destruct (C52_delivery lost h' m t p dest b fuel S' M T F P G L) as (k' & ds' & c & E' & C & Ct). rewrite E in E'. injection E' as <- <-. apply (Ct n).
  - intros [(t1 & A1 & A2 & _)|(x & _ & (t1 & A1 & A2 & _))]; rewrite A1 in St; congruence.
  - intros (x & X & (t1 & A1 & A2 & _)). rewrite A1 in St; congruence.
Qed.

(** Every packet comes to rest after at most three switches, as long as no LAN is
    connected to itself *)
Theorem C52_ends : forall lost h n dest fuel, Forall sensible h -> 3 <= fuel -> net_send lost fuel n dest (after lost h) <> None.
Proof.
  intros lost h n dest fuel S L. destruct fuel as [|[|[|f]]]; try lia. apply (send_ends lost (after lost h) (planned h)). now apply NI_planned.
Qed.
(** With a self connection - which setDirectConnections accepts - a packet to the
    gateway address of that LAN goes round for ever *)
Theorem C52_ends_refuted : let h := [NReg 1; NSet 1 [1]; NConnect 0; NAnnounce 0 (lit "1.0.0.5"); NLocate 0 1]%Z in
  all_ok h /\ forall fuel, net_send (fun _ => false) fuel 0 (lit "1.0.0.0") (after (fun _ => false) h) = None.
Proof.
  intros h. split.
  { unfold h. intros h1 r ds h2 E. repeat (destruct h1 as [|? h1]; [try discriminate E; injection E as <- <- <-; vm_compute; reflexivity|injection E as <- E]). destruct h1; discriminate E. }
  assert (Fix : forall l, l = End 0 true \/ l = End 0 false -> target (after (fun _ => false) h) (lit "1.0.0.0") l = [End 0 true; End 0 false]) by (intros l [->| ->]; vm_compute; reflexivity).
  assert (Cl : n_closed (after (fun _ => false) h) = []) by (vm_compute; reflexivity).
  assert (W : forall fuel k, writes (fun _ => false) fuel (after (fun _ => false) h) (lit "1.0.0.0") k [End 0 true; End 0 false] = None).
  { induction fuel as [|f IH]; intros k; [reflexivity|]. rewrite writes_cons, Cl, Fix by auto. cbn [smem]. rewrite IH. reflexivity. }
  intros fuel. unfold net_send. replace (dget (n_conn (after (fun _ => false) h)) 0) with (Some (Router (Some (lit "1.0.0.5")) (Some 1%Z) true)) by (vm_compute; reflexivity).
  replace (router_outbound _ _ _) with (Ok [End 0 true; End 0 false]) by (vm_compute; reflexivity). apply W.
Qed.
Print Assumptions C52_delivery.
Print Assumptions C52_next_hop_reached.
Print Assumptions C52_multihop_refuted.
Print Assumptions C52_once_refuted.
Print Assumptions C52_lan_0_refuted.
Print Assumptions C52_nowhere.
Print Assumptions C52_announce_moves_off.
Print Assumptions C52_ends.
Print Assumptions C52_ends_refuted.

(** ** Examples *)
Definition town : list nop :=
  [NReg 1; NReg 2; NReg 3; NSet 2 [1; 3]; NConnect 0; NConnect 1; NConnect 2; NConnect 3;
   NAnnounce 0 (lit "1.0.0.5"); NAnnounce 1 (lit "2.0.0.7"); NAnnounce 2 (lit "2.0.*.*"); NAnnounce 3 (lit "*.*.*.*"); NLocate 0 1; NLocate 1 2; NLocate 2 2; NLocate 3 1]%Z.
Example town_ok : Forall sensible town /\ all_ok town /\ pl_copies (planned town) 1 2 = 1 /\
  hop (planned town) 1 (Addr (Num 2) (Num 0) (Num 0) (Num 7)) = Some 2%Z /\
  net_send (fun _ => false) 2 0 (lit "2.0.0.7") (after (fun _ => false) town) = Some (5, [3; 1; 2]) /\
  net_send (fun i => Nat.eqb i 4) 2 0 (lit "2.0.0.7") (after (fun i => Nat.eqb i 4) town) = Some (5, [3]).
Proof.
  split; [repeat (apply Forall_cons || apply Forall_nil); cbn; try lia; intros [|[|[]]]; discriminate|]. split.
  { unfold town. intros h1 r ds h2 E. repeat (destruct h1 as [|? h1]; [try discriminate E; injection E as <- <- <-; vm_compute; reflexivity|injection E as <- E]). destruct h1; discriminate E. }
  vm_compute. repeat split; reflexivity.
Qed.
