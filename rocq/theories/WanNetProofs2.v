From Coq Require Import List ZArith Bool Lia Permutation.
From Verif Require Import PyBase PyLemmas AddrModel AddrSpec AddrProofs SwitchModel SwitchProofs WanModel WanSpec WanProofs WanNetModel WanNetSpec WanNetProofs.
Import ListNotations.
Open Scope nat_scope.

(** ** Views of the switches *)
Definition sws := dict Z (switch lnk).
Definition slinks (s : sws) (p : Z) (l : lnk) : option pystr := match dget s p with Some w => dget (sw_link w) l | None => None end.
Definition swok (s : sws) : Prop := forall p w, dget s p = Some w -> swinv w (fun l => dget (sw_link w) l).
Definition with_sws (g : wnet) (s : sws) : wnet := WNet (n_routes g) s (n_ends g) (n_closed g) (n_direct g) (n_conn g) (n_draws g).
Lemma swinv_self (w : switch lnk) m : swinv w m -> swinv w (fun l => dget (sw_link w) l).
Proof. intros H. apply (swinv_ext _ _ _ H). intros l. symmetry. now apply H. Qed.
Lemma swinv_get (w : switch lnk) m l : swinv w m -> dget (sw_link w) l = m l.
Proof. intros H. now apply H. Qed.

Lemma sw_do_same f p g : dhas (n_sw g) p = false -> sw_do f p g = g.
Proof. intros H. apply dhas_false in H. unfold sw_do. now rewrite H. Qed.
Lemma with_sws_same g : g = with_sws g (n_sw g).
Proof. now destruct g. Qed.
Lemma sw_reg a l p g : swok (n_sw g) -> is_valid_string ClsBlock a = true -> dhas (n_sw g) p = true ->
  exists s', sw_do (sw_register a l) p g = with_sws g s' /\ swok s' /\ (forall p', dhas s' p' = dhas (n_sw g) p') /\
    forall p' l', slinks s' p' l' = if eq_dec p' p then if eq_dec l' l then Some a else slinks (n_sw g) p' l' else slinks (n_sw g) p' l'.
Proof.
  intros K V D. apply dhas_true in D as [w W]. unfold sw_do. rewrite W. destruct (reg_spec a l w _ (K p w W)) as (w' & E & I). rewrite E.
  exists (dset (n_sw g) p w'). split; [reflexivity|]. split; [|split].
  - intros p1 w1. rewrite dget_dset. destruct (eq_dec p1 p); [intros [= <-]; eapply swinv_self; eauto|apply K].
  - intros p'. unfold dhas. rewrite dget_dset. destruct (eq_dec p' p); [subst; now rewrite W|reflexivity].
  - intros p' l'. unfold slinks. rewrite dget_dset. destruct (eq_dec p' p); [|reflexivity]. subst. rewrite W, (swinv_get _ _ l' I). cbn. now rewrite V.
Qed.
Lemma sw_unreg l p g : swok (n_sw g) ->
  exists s', sw_do (sw_unregister l) p g = with_sws g s' /\ swok s' /\ (forall p', dhas s' p' = dhas (n_sw g) p') /\
    forall p' l', slinks s' p' l' = if eq_dec p' p then if eq_dec l' l then None else slinks (n_sw g) p' l' else slinks (n_sw g) p' l'.
Proof.
  intros K. destruct (dhas (n_sw g) p) eqn:D.
  - apply dhas_true in D as [w W]. unfold sw_do. rewrite W. destruct (unreg_spec l w _ (K p w W)) as (w' & E & I). rewrite E.
    exists (dset (n_sw g) p w'). split; [reflexivity|]. split; [|split].
    + intros p1 w1. rewrite dget_dset. destruct (eq_dec p1 p); [intros [= <-]; eapply swinv_self; eauto|apply K].
    + intros p'. unfold dhas. rewrite dget_dset. destruct (eq_dec p' p); [subst; now rewrite W|reflexivity].
    + intros p' l'. unfold slinks. rewrite dget_dset. destruct (eq_dec p' p); [|reflexivity]. subst. rewrite W, (swinv_get _ _ l' I). reflexivity.
  - rewrite sw_do_same by exact D. exists (n_sw g). split; [apply with_sws_same|]. split; [exact K|]. split; [reflexivity|].
    intros p' l'. destruct (eq_dec p' p) as [->|]; [|reflexivity]. apply dhas_false in D. unfold slinks. rewrite D. now destruct (eq_dec l' l).
Qed.

(** ** The invariant *)
Definition seat_addr (o : option seat) (p : Z) : option pystr :=
  match o with Some t => match t_at t with Some q => if eq_dec q p then t_addr t else None | None => None end | None => None end.
Definition conn_ok (s : sws) (c : option router) (o : option seat) : Prop :=
  match c, o with
  | Some rt, Some t => r_addr rt = t_addr t /\ t_at t = (if r_there rt then r_prefix rt else None) /\
      (r_there rt = true -> exists p, r_prefix rt = Some p /\ dhas s p = true) /\ (forall a, r_addr rt = Some a -> is_valid_string ClsBlock a = true)
  | None, None => True
  | _, _ => False
  end.
Record NI (lost : nat -> bool) (g : wnet) (pl : plan) : Prop := MkNI {
  ni_routes : n_routes g = pl_routes pl;
  ni_graph : exists G, inv G (n_routes g) /\ forall u v, In (u, v) (g_edges G) -> u <> v;
  ni_pos : forall p, dhas (n_routes g) p = true -> (0 <= p)%Z;
  ni_sw : forall p, dhas (n_sw g) p = dhas (n_routes g) p;
  ni_swok : swok (n_sw g);
  ni_dev : forall p n, dhas (n_sw g) p = true -> slinks (n_sw g) p (Dev n) = seat_addr (pl_seat pl n) p;
  ni_end : forall p k b x, slinks (n_sw g) p (End k b) = Some x ->
             exists q, pair_of (n_ends g) (k, b) = Some (p, q) /\ x = gateway q /\ ~ In (End k b) (n_closed g);
  ni_less : (forall i, lost i = false) -> forall k b p q, pair_of (n_ends g) (k, b) = Some (p, q) -> ~ In (End k b) (n_closed g) ->
             slinks (n_sw g) p (End k b) = Some (gateway q);
  ni_conn : forall n, conn_ok (n_sw g) (dget (n_conn g) n) (pl_seat pl n);
  ni_cnd : NoDup (dkeys (n_conn g));
  ni_dnd : NoDup (dkeys (n_direct g));
  ni_direct : forall x y l, dget (n_direct g) (x, y) = Some l -> exists k b, l = End k b /\ pair_of (n_ends g) (k, b) = Some (x, y) /\
             ~ In (End k b) (n_closed g) /\ ~ In (End k (negb b)) (n_closed g) /\ dget (n_direct g) (y, x) = Some (End k (negb b));
  ni_linked : forall x y, pl_linked pl x y = dhas (n_direct g) (x, y);
  ni_copies : forall x y, pl_copies pl x y = open_count (n_ends g) (n_closed g) x y;
  ni_ends : forall e x y, pair_of (n_ends g) e = Some (x, y) -> x <> y /\ dhas (n_routes g) x = true /\ dhas (n_routes g) y = true;
  ni_closed : forall l, In l (n_closed g) -> exists k b, l = End k b /\ k < length (n_ends g) }.

Definition pl_eq (a b : plan) : Prop :=
  pl_routes a = pl_routes b /\ (forall x y, pl_linked a x y = pl_linked b x y) /\ (forall x y, pl_copies a x y = pl_copies b x y) /\
  (forall n, pl_seat a n = pl_seat b n).
Lemma NI_ext lost g a b : NI lost g a -> pl_eq a b -> NI lost g b.
Proof.
  intros H (E1 & E2 & E3 & E4). destruct H. split; auto.
  - congruence.
  - intros. rewrite <- E4. auto.
  - intros. rewrite <- E4. auto.
  - intros. rewrite <- E2. auto.
  - intros. rewrite <- E3. auto.
Qed.
Lemma pair_other ends k b x y : pair_of ends (k, b) = Some (x, y) -> pair_of ends (k, negb b) = Some (y, x).
Proof. unfold pair_of. cbn. destruct (nth_error ends k) as [[u v]|]; [|discriminate]. destruct b; cbn; intros [= <- <-]; reflexivity. Qed.
Lemma end_at_pair g k b x y : pair_of (n_ends g) (k, b) = Some (x, y) -> end_at g (End k b) = Some x.
Proof. unfold pair_of, end_at. cbn. destruct (nth_error (n_ends g) k) as [[u v]|]; [|discriminate]. destruct b; cbn; intros [= <- <-]; reflexivity. Qed.

(** *** Cutting a link *)
Definition cut (r p : Z) (pl : plan) : plan :=
  Plan (pl_routes pl)
    (fun u v => if (u =? r)%Z && (v =? p)%Z || (u =? p)%Z && (v =? r)%Z then false else pl_linked pl u v)
    (fun u v => if (u =? p)%Z && (v =? r)%Z then pl_copies pl u v - b2n (pl_linked pl u v) else pl_copies pl u v)
    (pl_seat pl).
Lemma pair_eqb (u v x y : Z) : (u =? x)%Z && (v =? y)%Z = if eq_dec (u, v) (x, y) then true else false.
Proof. destruct (eq_dec (u, v) (x, y)) as [E|N]; [injection E as -> ->; now rewrite !Z.eqb_refl|]. destruct (Z.eqb_spec u x), (Z.eqb_spec v y); subst; auto; congruence. Qed.
Lemma destroy_NI lost r p g pl : NI lost g pl -> NI lost (link_destroy r p g) (cut r p pl).
Proof.
  intros H. destruct (dget (n_direct g) (r, p)) as [l|] eqn:D.
  - destruct (ni_direct _ _ _ H _ _ _ D) as (k & b & -> & Pr & O1 & O2 & D2). destruct (ni_ends _ _ _ H _ _ _ Pr) as (Nrp & Rr & Rp).
    pose proof (pair_other _ _ _ _ _ Pr) as Po.
    set (o := End k (negb b)) in *.
    assert (S1 : smem (n_closed g) (End k b) = false) by (apply not_true_iff_false; rewrite smem_true; exact O1).
    set (g0 := WNet (n_routes g) (n_sw g) (n_ends g) (sadd (n_closed g) o) (n_direct g) (n_conn g) (n_draws g)).
    destruct (sw_unreg o p g0 (ni_swok _ _ _ H)) as (s' & Es & Ks & Ds & Ls). cbn [n_sw g0] in Ds, Ls.
    assert (E : link_destroy r p g = WNet (n_routes g) s' (n_ends g) (sadd (n_closed g) o) (ddel (ddel (n_direct g) (r, p)) (p, r)) (n_conn g) (n_draws g)).
    { assert (Ea : end_at g o = Some p) by (eapply end_at_pair; eauto).
      assert (E1 : link_close (End k b) g = WNet (n_routes g) s' (n_ends g) (sadd (n_closed g) o) (n_direct g) (n_conn g) (n_draws g)).
      { unfold link_close. rewrite S1. cbn [other_end]. fold o. rewrite Ea. exact Es. }
      assert (E2 : half_destroy r p g = WNet (n_routes g) s' (n_ends g) (sadd (n_closed g) o) (ddel (n_direct g) (r, p)) (n_conn g) (n_draws g)).
      { unfold half_destroy. rewrite D, E1. reflexivity. }
      unfold link_destroy. rewrite E2. unfold half_destroy. cbn [n_direct]. rewrite dget_ddel_other by congruence. rewrite D2.
      assert (S2 : smem (sadd (n_closed g) o) o = true) by (apply smem_true, in_sadd; auto). unfold link_close. cbn [n_closed]. rewrite S2. reflexivity. }
    rewrite E. clear E Es g0. destruct H. split; cbn [n_routes n_sw n_ends n_closed n_direct n_conn n_draws pl_routes pl_linked pl_copies pl_seat cut]; auto.
    + intros q. rewrite Ds. apply ni_sw0.
    + intros q n Q. rewrite Ds in Q. rewrite Ls. destruct (eq_dec q p); [|auto]. destruct (eq_dec (Dev n) o); [discriminate|auto].
    + intros q j c x. rewrite Ls. destruct (eq_dec (End j c) o) as [Eo|No].
      * rewrite Eo. destruct (eq_dec q p) as [->|Nq]; [discriminate|]. intros X. apply ni_end0 in X as (q' & X & _). congruence.
      * destruct (eq_dec q p); intros X; apply ni_end0 in X as (q' & X & Y & Z); exists q'; repeat split; auto; intros I; apply in_sadd in I as [I|I]; auto.
    + intros Ll j c q q' X Y. rewrite Ls. assert (Y1 : ~ In (End j c) (n_closed g)) by (intros I; apply Y, in_sadd; auto).
      assert (Y2 : End j c <> o) by (intros Eo; apply Y, in_sadd; auto). destruct (eq_dec q p); [|auto]. destruct (eq_dec (End j c) o); [congruence|auto].
    + intros n. specialize (ni_conn0 n). destruct (dget (n_conn g) n) as [rt|], (pl_seat pl n) as [t|]; cbn in *; auto. destruct ni_conn0 as (A & B & C & V). repeat split; auto.
      intros X. destruct (C X) as (q & Q1 & Q2). exists q. split; auto. now rewrite Ds.
    + apply nodup_ddel, nodup_ddel, ni_dnd0.
    + intros x y l. rewrite !dget_ddel by (try apply nodup_ddel; exact ni_dnd0).
      destruct (eq_dec (x, y) (p, r)) as [|N1]; [discriminate|]. destruct (eq_dec (x, y) (r, p)) as [|N2]; [discriminate|]. intros X.
      destruct (ni_direct0 _ _ _ X) as (j & c & -> & X1 & X2 & X3 & X4). exists j, c. repeat split; auto.
      * intros I. apply in_sadd in I as [[= -> ->]|I]; [|auto]. congruence.
      * intros I. apply in_sadd in I as [[= -> I]|I]; [|auto]. assert (c = b) by (destruct c, b; cbn in I; congruence). subst. congruence.
      * destruct (eq_dec (y, x) (p, r)) as [[= -> ->]|]; [congruence|]. destruct (eq_dec (y, x) (r, p)) as [[= -> ->]|]; [congruence|auto].
    + intros x y. rewrite !pair_eqb, ni_linked0. unfold dhas. rewrite !dget_ddel by (try apply nodup_ddel; exact ni_dnd0).
      destruct (eq_dec (x, y) (p, r)), (eq_dec (x, y) (r, p)); reflexivity.
    + intros x y. unfold o. rewrite (open_count_close _ _ _ _ _ _ x y Po O2). rewrite ni_copies0, ni_linked0, (Z.eqb_sym x), (Z.eqb_sym y).
      destruct ((p =? x)%Z && (r =? y)%Z) eqn:M; cbn [b2n]; [|lia]. apply andb_true_iff in M as [M1 M2]. apply Z.eqb_eq in M1, M2. subst.
      unfold dhas. rewrite D2. reflexivity.
    + intros l I. apply in_sadd in I as [->|I]; [|auto]. exists k, (negb b). split; auto. now apply pair_some in Pr.
  - assert (D2 : dget (n_direct g) (p, r) = None).
    { destruct (dget (n_direct g) (p, r)) as [l|] eqn:X; [|reflexivity]. destruct (ni_direct _ _ _ H _ _ _ X) as (k & b & _ & _ & _ & _ & Y). congruence. }
    assert (E : link_destroy r p g = g) by (unfold link_destroy, half_destroy; now rewrite D, D2). rewrite E.
    apply (NI_ext _ _ _ _ H). repeat split; cbn; auto.
    + intros x y. rewrite !pair_eqb, (ni_linked _ _ _ H). unfold dhas. destruct (eq_dec (x, y) (r, p)) as [[= -> ->]|]; [now rewrite D|]. destruct (eq_dec (x, y) (p, r)) as [[= -> ->]|]; [now rewrite D2|reflexivity].
    + intros x y. rewrite pair_eqb, (ni_linked _ _ _ H). unfold dhas. destruct (eq_dec (x, y) (p, r)) as [[= -> ->]|]; [rewrite D2; cbn; lia|reflexivity].
Qed.

(** *** A new link *)
Definition join_pl (p q : Z) (pl : plan) : plan :=
  Plan (pl_routes pl)
    (fun u v => if (u =? p)%Z && (v =? q)%Z || (u =? q)%Z && (v =? p)%Z then true else pl_linked pl u v)
    (fun u v => pl_copies pl u v + b2n ((u =? p)%Z && (v =? q)%Z || (u =? q)%Z && (v =? p)%Z))
    (pl_seat pl).
Definition with_draws (g : wnet) (s : sws) (d : nat) : wnet := WNet (n_routes g) s (n_ends g) (n_closed g) (n_direct g) (n_conn g) d.
Lemma announce_spec lost l a p g : swok (n_sw g) -> is_valid_string ClsBlock a = true -> end_at g l = Some p -> dhas (n_sw g) p = true ->
  exists s', announce_to lost l a g = with_draws g s' (S (n_draws g)) /\ swok s' /\ (forall p', dhas s' p' = dhas (n_sw g) p') /\
    forall p' l', slinks s' p' l' = if lost (n_draws g) then slinks (n_sw g) p' l' else if eq_dec p' p then if eq_dec l' l then Some a else slinks (n_sw g) p' l' else slinks (n_sw g) p' l'.
Proof.
  intros K V E D. unfold announce_to. destruct (lost (n_draws g)); [exists (n_sw g); split; [reflexivity|split; [exact K|split; reflexivity]]|].
  rewrite E. set (g1 := WNet (n_routes g) (n_sw g) (n_ends g) (n_closed g) (n_direct g) (n_conn g) (S (n_draws g))).
  destruct (sw_reg a l p g1 K V D) as (s' & Es & X). exists s'. split; [exact Es|exact X].
Qed.
Lemma create_NI lost p q g pl : NI lost g pl -> p <> q -> dhas (n_routes g) p = true -> dhas (n_routes g) q = true ->
  pl_linked pl p q = false ->
  NI lost (link_create lost p q g) (join_pl p q pl).
Proof.
  intros H N Rp Rq Ul. set (k := length (n_ends g)).
  set (g1 := WNet (n_routes g) (n_sw g) (n_ends g ++ [(p, q)]) (n_closed g) (n_direct g) (n_conn g) (n_draws g)).
  assert (Pr : forall b, pair_of (n_ends g ++ [(p, q)]) (k, b) = Some (if b then (q, p) else (p, q))).
  { intros b. unfold pair_of. cbn [fst snd]. unfold k. rewrite nth_error_app2, Nat.sub_diag by lia. reflexivity. }
  destruct (gate_ok p) as (_ & _ & _ & Vp); [eapply ni_pos; eauto|]. destruct (gate_ok q) as (_ & _ & _ & Vq); [eapply ni_pos; eauto|].
  destruct (announce_spec lost (End k true) (gateway p) q g1) as (s1 & E1 & K1 & D1 & L1); auto.
  { apply (ni_swok _ _ _ H). } { eapply end_at_pair. apply (Pr true). } { cbn. now rewrite (ni_sw _ _ _ H). }
  destruct (announce_spec lost (End k false) (gateway q) p (with_draws g1 s1 (S (n_draws g1)))) as (s2 & E2 & K2 & D2 & L2); auto.
  { eapply end_at_pair. apply (Pr false). } { cbn. rewrite D1. cbn. now rewrite (ni_sw _ _ _ H). }
  cbn [g1 with_draws n_sw n_draws] in D1, L1, D2, L2.
  assert (E : link_create lost p q g = WNet (n_routes g) s2 (n_ends g ++ [(p, q)]) (n_closed g) (dset (dset (n_direct g) (p, q) (End k false)) (q, p) (End k true)) (n_conn g) (S (S (n_draws g)))).
  { unfold link_create. cbv zeta. fold k. fold g1. rewrite E1, E2. reflexivity. }
  rewrite E. clear E E1 E2 g1. set (d := n_draws g) in *.
  assert (Fr : forall b, ~ In (End k b) (n_closed g)).
  { intros b I. apply (ni_closed _ _ _ H) in I as (j & c & I & J). injection I as <- <-. unfold k in J. lia. }
  assert (Lk : forall p' l', (forall b, l' <> End k b) -> slinks s2 p' l' = slinks (n_sw g) p' l').
  { intros p' l' X. rewrite L2, L1. destruct (lost (S d)), (lost d), (eq_dec p' p), (eq_dec p' q), (eq_dec l' (End k true)), (eq_dec l' (End k false)); try reflexivity; exfalso; (eapply X; eassumption). }
  assert (Nk : forall p' b, slinks (n_sw g) p' (End k b) = None).
  { intros p' b. destruct (slinks (n_sw g) p' (End k b)) eqn:X; [|reflexivity]. apply (ni_end _ _ _ H) in X as (z & X & _). apply pair_some in X. cbn in X. unfold k in X. lia. }
  assert (Old : forall e x, e <> (k, true) -> e <> (k, false) -> pair_of (n_ends g ++ [(p, q)]) e = Some x -> pair_of (n_ends g) e = Some x).
  { intros [j c] x X1 X2 X. pose proof (pair_some _ _ _ X) as L. rewrite app_length in L. cbn in L. rewrite pair_snoc in X; [exact X|]. cbn.
    assert (j <> k) by (intros ->; destruct c; congruence). unfold k in *. lia. }
  assert (New : forall e x, pair_of (n_ends g) e = Some x -> pair_of (n_ends g ++ [(p, q)]) e = Some x).
  { intros e x X. rewrite pair_snoc; [exact X|]. now apply pair_some in X. }
  destruct H. split; cbn [n_routes n_sw n_ends n_closed n_direct n_conn n_draws pl_routes pl_linked pl_copies pl_seat join_pl]; auto.
  - intros x. rewrite D2, D1. apply ni_sw0.
  - intros x n X. rewrite Lk by discriminate. apply ni_dev0. now rewrite D2, D1 in X.
  - intros x j c y X. destruct (Nat.eq_dec j k) as [->|Nj].
    + rewrite Pr. rewrite L2, L1, Nk in X. destruct c.
      * exists p. destruct (eq_dec (End k true) (End k false)); [discriminate|]. destruct (eq_dec (End k true) (End k true)); [|congruence].
        destruct (eq_dec x q) as [->|]; [|destruct (lost (S d)), (lost d), (eq_dec x p); discriminate].
        split; [reflexivity|]. split; [|apply Fr]. destruct (lost (S d)), (lost d), (eq_dec q p); congruence.
      * exists q. destruct (eq_dec (End k false) (End k true)); [discriminate|]. destruct (eq_dec (End k false) (End k false)); [|congruence].
        destruct (eq_dec x p) as [->|]; [|destruct (lost (S d)), (lost d), (eq_dec x q); discriminate].
        split; [reflexivity|]. split; [|apply Fr]. destruct (lost (S d)), (lost d), (eq_dec p q); congruence.
    + rewrite Lk in X by congruence. apply ni_end0 in X as (z & X1 & X2 & X3). exists z. auto.
  - intros Ll j c x y X Y. destruct (Nat.eq_dec j k) as [->|Nj].
    + rewrite Pr in X. rewrite L2, L1, !Ll. destruct c; injection X as <- <-.
      * destruct (eq_dec (End k true) (End k false)); [discriminate|]. destruct (eq_dec (End k true) (End k true)); [|congruence]. destruct (eq_dec q q); [|congruence]. now destruct (eq_dec q p).
      * destruct (eq_dec p p); [|congruence]. now destruct (eq_dec (End k false) (End k false)).
    + rewrite Lk by congruence. apply ni_less0; auto. apply Old; [congruence|congruence|exact X].
  - intros n. specialize (ni_conn0 n). destruct (dget (n_conn g) n) as [rt|], (pl_seat pl n) as [t|]; cbn in *; auto. destruct ni_conn0 as (A & B & C & V). repeat split; auto.
    intros X. destruct (C X) as (z & Q1 & Q2). exists z. split; auto. now rewrite D2, D1.
  - apply nodup_dset, nodup_dset, ni_dnd0.
  - assert (U1 : dget (n_direct g) (p, q) = None) by (apply dhas_false; now rewrite <- ni_linked0).
    assert (U2 : dget (n_direct g) (q, p) = None) by (destruct (dget (n_direct g) (q, p)) eqn:X; [apply ni_direct0 in X as (? & ? & _ & _ & _ & _ & X); congruence|reflexivity]).
    intros x y l. rewrite !dget_dset. destruct (eq_dec (x, y) (q, p)) as [[= -> ->]|N1]; [|destruct (eq_dec (x, y) (p, q)) as [[= -> ->]|N2]].
    + intros [= <-]. exists k, true. rewrite Pr. repeat split; auto. destruct (eq_dec (p, q) (q, p)); [congruence|]. destruct (eq_dec (p, q) (p, q)); [reflexivity|congruence].
    + intros [= <-]. exists k, false. rewrite Pr. repeat split; auto. now destruct (eq_dec (q, p) (q, p)).
    + intros X. destruct (ni_direct0 _ _ _ X) as (j & c & -> & X1 & X2 & X3 & X4). exists j, c. repeat split; auto.
      destruct (eq_dec (y, x) (q, p)) as [[= -> ->]|]; [congruence|]. destruct (eq_dec (y, x) (p, q)) as [[= -> ->]|]; [congruence|auto].
  - intros x y. rewrite !pair_eqb, ni_linked0. unfold dhas. rewrite !dget_dset. destruct (eq_dec (x, y) (q, p)), (eq_dec (x, y) (p, q)); reflexivity.
  - intros x y. rewrite open_count_create by auto. rewrite ni_copies0. do 2 f_equal. now rewrite (Z.eqb_sym p x), (Z.eqb_sym q x), (Z.eqb_sym q y), (Z.eqb_sym p y).
  - intros [j c] x y X. destruct (Nat.eq_dec j k) as [->|Nj]; [|apply (ni_ends0 (j, c)), Old; auto; congruence].
    rewrite Pr in X. destruct c; injection X as <- <-; auto.
  - intros l I. destruct (ni_closed0 l I) as (j & c & -> & J). exists j, c. split; auto. rewrite app_length. lia.
Qed.
