(** * C29: a switch with many links *)
From Coq Require Import String List ZArith Bool Lia.
From Verif Require Import PyBase PyLemmas AddrModel AddrSpec SwitchModel SwitchProofs FragModel HubModel HubSpec HubProofs.
Import ListNotations.
Open Scope Z_scope.

(** In every history of connections, data and losses on any set of links:
    every wire packet handled is written unchanged, once, to each of the links
    its destination should reach under the registrations of that moment, and
    to no other; other packets cause no writes. *)
Theorem C29_dispatch_exact : forall (L : Type) (E : EqDec L) (es : list (hevent L)) s g,
  well_behaved none_up es -> hub_run es hub_new = (s, g) ->
  forall before l p ws after, g = before ++ GPacket l p ws :: after ->
  match p with
  | PWire w => exists ls, ws = map (fun l' => (l', w)) ls /\ should_reach (registered (ops_of before) unregistered) (w_dst w) ls
  | _ => ws = []
  end.
Proof.
  intros L E es s g W R before l p ws after ->.
  destruct (hub_run_ok es [] hub_new) with (up := none_up (L := L)) as (s' & g' & R' & LO & _); auto.
  { intros l' a M. discriminate. }
  { constructor. }
  { intros l'. cbn. split; [contradiction|discriminate]. }
  rewrite R in R'. injection R' as <- <-. apply log_ok_split in LO. cbn [app] in LO. destruct p; exact LO.
Qed.
(** The packets of every link are handled in the order received, each at most
    once; none stays behind unless a packet with a malformed destination was
    among those received on that link. *)
Theorem C29_in_order_once : forall (L : Type) (E : EqDec L) (es : list (hevent L)) s g,
  well_behaved none_up es -> hub_run es hub_new = (s, g) ->
  forall l, handled l g ++ queue_of l s = received l es /\
            (Forall (fun p => ~ poison p) (received l es) -> handled l g = received l es).
Proof.
  intros L E es s g W R l.
  destruct (hub_run_ok es [] hub_new) with (up := none_up (L := L)) as (s' & g' & R' & _ & _ & Q & P); auto.
  { intros l' a M. discriminate. }
  { constructor. }
  { intros l'. cbn. split; [contradiction|discriminate]. }
  rewrite R in R'. injection R' as <- <-. split; [exact (Q l)|]. intros F.
  specialize (Q l). cbn [queue_of hub_new h_queue dget app] in Q. rewrite (P l F eq_refl), app_nil_r in Q. exact Q.
Qed.
(** A link that was lost receives nothing until it announces an address again. *)
Theorem C29_nothing_after_loss : forall (L : Type) (E : EqDec L) (es : list (hevent L)) s g,
  well_behaved none_up es -> hub_run es hub_new = (s, g) ->
  forall before l between l' p ws after,
  g = before ++ GLost l :: between ++ GPacket l' p ws :: after ->
  (forall a ws', ~ In (GPacket l (PAnnounce a) ws') between) ->
  ~ In l (map fst ws).
Proof.
  intros L E es s g W R before l between l' p ws after Eg NA Hin.
  pose proof (C29_dispatch_exact L E es s g W R (before ++ GLost l :: between) l' p ws after) as D.
  rewrite <- app_assoc in D. cbn [app] in D. specialize (D Eg).
  destruct p as [a|w|]; [subst ws; contradiction| |subst ws; contradiction]. destruct D as (ls & -> & _ & D).
  rewrite map_map in Hin. cbn [fst] in Hin. rewrite map_id in Hin.
  destruct (from_string ClsBlock (w_dst w)) as [a|e]; [|subst ls; contradiction]. destruct D as [_ D]. destruct (D l Hin) as (b & _ & M).
  rewrite ops_app, registered_app in M. cbn [ops_of map concat app registered] in M. fold (ops_of between) in M.
  assert (X : forall os m, m l = None -> (forall a, ~ In (SReg a l) os) -> registered os m l = None).
  { clear. induction os as [|o os IH]; intros m Hm Ho; [exact Hm|]. cbn [registered]. apply IH.
    - destruct o as [a q|q]; cbn [reg_step]; destruct (eq_dec l q); auto. subst q. exfalso. apply (Ho a). left. reflexivity.
    - intros a Ha. apply (Ho a). right. exact Ha. }
  rewrite X in M; [discriminate| |].
  - cbn [reg_step]. destruct (eq_dec l l); congruence.
  - intros a' Ha. unfold ops_of in Ha. apply in_concat in Ha. destruct Ha as (x & Hx & Ha). apply in_map_iff in Hx. destruct Hx as (y & <- & Hy).
    destruct y as [l2 q ws2|l2]; [destruct q as [a2| |]|]; cbn in Ha; try contradiction; destruct Ha as [Ha|[]]; [|discriminate].
    injection Ha as -> ->. exact (NA _ _ Hy).
Qed.
(** ** What does not hold *)
(** One packet to a destination with a negative part makes the packets behind
    it in the same read wait until the link sends something more; here both the
    announcement and the packet behind it have no effect. *)
Theorem C29_refuted_poison_delays : exists (es : list (hevent Z)) s g,
  well_behaved none_up es /\ hub_run es hub_new = (s, g) /\
  received 1 es = [PWire (Wire (lit "1.1.1.1") 1 (lit "1.1.1.-1") 2 None [0]); PAnnounce (lit "1.1.1.1"); PWire (Wire (lit "1.1.1.1") 1 (lit "1.1.1.1") 2 None [0])] /\
  g = [GPacket 1 (PWire (Wire (lit "1.1.1.1") 1 (lit "1.1.1.-1") 2 None [0])) []].
Proof.
  exists [HMade 1; HData 1 [PWire (Wire (lit "1.1.1.1") 1 (lit "1.1.1.-1") 2 None [0]); PAnnounce (lit "1.1.1.1"); PWire (Wire (lit "1.1.1.1") 1 (lit "1.1.1.1") 2 None [0])]].
  eexists _, _. split; [vm_compute; auto|]. split; [vm_compute; reflexivity|]. split; vm_compute; reflexivity.
Qed.
(** ** A concrete history: three links, a block, a packet to two of them, one
    of the two lost, another packet. *)
Example C29_ex : exists s : hub Z,
  let w := Wire (lit "1.1.1.1") 1 (lit "2.2.2.2") 2 None [7] in
  let es := [HMade 1; HMade 2; HMade 3; HData 1 [PAnnounce (lit "1.1.1.1")]; HData 2 [PAnnounce (lit "2.2.2.2"); POther];
             HData 3 [PAnnounce (lit "2.2.*.*")]; HData 1 [PWire w]; HLost 2; HData 1 [PWire w]] in
  well_behaved none_up es /\
  hub_run es hub_new = (s, [GPacket 1 (PAnnounce (lit "1.1.1.1")) []; GPacket 2 (PAnnounce (lit "2.2.2.2")) []; GPacket 2 POther [];
                            GPacket 3 (PAnnounce (lit "2.2.*.*")) []; GPacket 1 (PWire w) [(2, w); (3, w)]; GLost 2; GPacket 1 (PWire w) [(3, w)]]).
Proof. eexists. cbv zeta. split; [vm_compute; tauto|]. vm_compute. reflexivity. Qed.
Print Assumptions C29_dispatch_exact.
Print Assumptions C29_in_order_once.
Print Assumptions C29_nothing_after_loss.
