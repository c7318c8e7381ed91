From Coq Require Import List ZArith Bool Lia.
From Verif Require Import PyBase PyLemmas AddrModel AddrSpec AddrProofs SwitchModel SwitchProofs WanModel WanSpec WanProofs WanNetModel WanNetSpec WanNetProofs WanNetProofs2.
Import ListNotations.
Open Scope nat_scope.

(** ** Cutting all links of a LAN, making the new ones *)
Definition memz (x : Z) (l : list Z) : bool := smem l x.
Definition touches (r : Z) (ks : list Z) (u v : Z) : bool := (u =? r)%Z && memz v ks || (v =? r)%Z && memz u ks.
Lemma memz_cons x a l : memz x (a :: l) = (x =? a)%Z || memz x l.
Proof.
  unfold memz. destruct (smem (a :: l) x) eqn:E; symmetry.
  - apply smem_true in E as [->|E]; [now rewrite Z.eqb_refl|]. apply smem_true in E. rewrite E. apply orb_true_r.
  - apply orb_false_iff. apply not_true_iff_false in E. rewrite smem_true in E. split; [apply Z.eqb_neq; intros ->; apply E; now left|]. apply not_true_iff_false. rewrite smem_true. intros X. apply E. now right.
Qed.
Lemma touches_cons r a l u v : touches r (a :: l) u v = ((u =? r)%Z && (v =? a)%Z || (u =? a)%Z && (v =? r)%Z) || touches r l u v.
Proof. unfold touches. rewrite !memz_cons. destruct (u =? r)%Z, (v =? r)%Z, (u =? a)%Z, (v =? a)%Z, (memz u l), (memz v l); reflexivity. Qed.
Lemma cuts r ks : forall pl, NoDup ks ->
  let pl' := fold_left (fun pl p => cut r p pl) ks pl in
  pl_routes pl' = pl_routes pl /\ (forall n, pl_seat pl' n = pl_seat pl n) /\
  (forall u v, pl_linked pl' u v = if touches r ks u v then false else pl_linked pl u v) /\
  (forall u v, pl_copies pl' u v = if (v =? r)%Z && memz u ks then pl_copies pl u v - b2n (pl_linked pl u v) else pl_copies pl u v).
Proof.
  induction ks as [|k ks IH]; intros pl N; cbn [fold_left].
  - repeat split; intros; unfold touches, memz; cbn; rewrite ?andb_false_r; reflexivity.
  - inversion N as [|? ? Nk Nks]; subst. destruct (IH (cut r k pl) Nks) as (A & B & C & D). cbn zeta in *. split; [rewrite A; reflexivity|]. split; [intros; rewrite B; reflexivity|]. split.
    + intros u v. rewrite C, touches_cons. cbn [cut pl_linked]. destruct ((u =? r)%Z && (v =? k)%Z || (u =? k)%Z && (v =? r)%Z), (touches r ks u v); reflexivity.
    + intros u v. rewrite D, memz_cons. cbn [cut pl_linked pl_copies].
      destruct (Z.eqb_spec v r) as [->|]; [|rewrite andb_false_r; reflexivity]. rewrite !andb_true_r. cbn [andb].
      destruct (Z.eqb_spec u k) as [->|Nu].
      * assert (M : memz k ks = false) by (unfold memz; apply not_true_iff_false; rewrite smem_true; exact Nk). rewrite M. cbn. reflexivity.
      * cbn [orb]. destruct (memz u ks) eqn:M; [|reflexivity].
        destruct (Z.eqb_spec u r) as [->|]; [|reflexivity]. destruct (Z.eqb_spec r k); [congruence|]. reflexivity.
Qed.
Lemma joins r qs : forall pl, NoDup qs -> ~ In r qs ->
  let pl' := fold_left (fun pl q => join_pl r q pl) qs pl in
  pl_routes pl' = pl_routes pl /\ (forall n, pl_seat pl' n = pl_seat pl n) /\
  (forall u v, pl_linked pl' u v = if touches r qs u v then true else pl_linked pl u v) /\
  (forall u v, pl_copies pl' u v = pl_copies pl u v + b2n (touches r qs u v)).
Proof.
  induction qs as [|q qs IH]; intros pl N R; cbn [fold_left].
  - repeat split; intros; unfold touches, memz; cbn; rewrite ?andb_false_r; cbn; auto.
  - inversion N as [|? ? Nk Nks]; subst. assert (Rq : r <> q) by (intros ->; apply R; now left). assert (Rqs : ~ In r qs) by (intros X; apply R; now right).
    destruct (IH (join_pl r q pl) Nks Rqs) as (A & B & C & D). cbn zeta in *. split; [rewrite A; reflexivity|]. split; [intros; rewrite B; reflexivity|]. split.
    + intros u v. rewrite C, touches_cons. cbn [join_pl pl_linked]. destruct ((u =? r)%Z && (v =? q)%Z || (u =? q)%Z && (v =? r)%Z), (touches r qs u v); reflexivity.
    + intros u v. rewrite D, touches_cons. cbn [join_pl pl_copies].
      assert (X : (u =? r)%Z && (v =? q)%Z || (u =? q)%Z && (v =? r)%Z = true -> touches r qs u v = false).
      { assert (M : forall z, z = q \/ z = r -> memz z qs = false) by (intros z [->| ->]; unfold memz; apply not_true_iff_false; rewrite smem_true; assumption).
        intros X. unfold touches. apply orb_true_iff in X as [X|X]; apply andb_true_iff in X as [X1 X2]; apply Z.eqb_eq in X1, X2; subst; rewrite !M by auto; now rewrite !andb_false_r. }
      destruct ((u =? r)%Z && (v =? q)%Z || (u =? q)%Z && (v =? r)%Z); [rewrite X by reflexivity|]; cbn; lia.
Qed.
Lemma destroys_NI lost r ks : forall g pl, NI lost g pl -> NI lost (fold_left (fun g p => link_destroy r p g) ks g) (fold_left (fun pl p => cut r p pl) ks pl).
Proof. induction ks as [|k ks IH]; intros g pl H; cbn; [exact H|]. apply IH. now apply destroy_NI. Qed.
Lemma creates_NI lost r qs : forall g pl, NI lost g pl -> NoDup qs -> ~ In r qs -> dhas (pl_routes pl) r = true ->
  (forall q, In q qs -> dhas (pl_routes pl) q = true /\ pl_linked pl r q = false) ->
  NI lost (fold_left (fun g q => link_create lost r q g) qs g) (fold_left (fun pl q => join_pl r q pl) qs pl).
Proof.
  induction qs as [|q qs IH]; intros g pl H N R Dr Q; cbn; [exact H|]. inversion N as [|? ? Nk Nks]; subst.
  destruct (Q q) as [Q1 Q2]; [now left|]. assert (Rq : r <> q) by (intros ->; apply R; now left).
  apply IH; auto.
  - apply create_NI; auto; rewrite (ni_routes _ _ _ H); assumption.
  - intros X. apply R. now right.
  - intros z Z. destruct (Q z) as [Z1 Z2]; [now right|]. split; [exact Z1|]. cbn. assert (z <> q) by congruence.
    rewrite Z2, (proj2 (Z.eqb_neq z q)) by auto. rewrite (proj2 (Z.eqb_neq r q)) by auto. rewrite andb_false_r. reflexivity.
Qed.

(** ** Routes *)
Lemma routes_NI lost g pl a : NI lost g pl -> (exists G, inv G a /\ forall u v, In (u, v) (g_edges G) -> u <> v) ->
  (forall p, dhas a p = dhas (n_routes g) p) -> NI lost (with_routes g a) (Plan a (pl_linked pl) (pl_copies pl) (pl_seat pl)).
Proof.
  intros H G D. destruct H. split; cbn; auto.
  - intros p. rewrite D. apply ni_pos.
  - intros p. rewrite D. apply ni_sw.
  - intros e x y X. rewrite !D. apply (ni_ends e x y X).
Qed.
Lemma set_graph r ds (a : routes Z) : (exists G, inv G a /\ forall u v, In (u, v) (g_edges G) -> u <> v) -> ~ In r ds ->
  (exists G, inv G (fst (wan_set r ds a)) /\ forall u v, In (u, v) (g_edges G) -> u <> v) /\ dkeys (fst (wan_set r ds a)) = dkeys a.
Proof.
  intros (G & I & Ne) R. destruct (step_inv (WSet r ds) G a I) as (I' & _). cbn [wan_step] in I'. split.
  - exists (g_step (WSet r ds) G). split; [exact I'|]. intros u v. cbn. destruct (in_dec eq_dec r (g_nodes G)); [|apply Ne]. cbn. rewrite in_app_iff, filter_In, in_flat_map.
    intros [[X _]|(d & D & X)]; [now apply Ne|]. assert (In d ds).
    { clear -D. induction ds as [|y ds IH]; cbn in *; [tauto|]. destruct (in_dec eq_dec y (g_nodes G)); [|destruct D]. destruct D as [->|D]; auto. }
    destruct X as [[= <- <-]|[[= <- <-]|[]]]; intros ->; contradiction.
  - rewrite (i_keys _ _ I'), (i_keys _ _ I). cbn. destruct (in_dec eq_dec r (g_nodes G)); reflexivity.
Qed.
Lemma register_graph p (a : routes Z) : (exists G, inv G a /\ forall u v, In (u, v) (g_edges G) -> u <> v) ->
  exists G, inv G (fst (wan_register p a)) /\ forall u v, In (u, v) (g_edges G) -> u <> v.
Proof.
  intros (G & I & Ne). destruct (step_inv (WReg p) G a I) as (I' & _). exists (g_step (WReg p) G). split; [exact I'|].
  intros u v. cbn. destruct (in_dec eq_dec p (g_nodes G)); cbn; apply Ne.
Qed.
Lemma row_ok (a : routes Z) r : (exists G, inv G a /\ forall u v, In (u, v) (g_edges G) -> u <> v) ->
  NoDup (dkeys (wan_routes a r)) /\ ~ In r (dkeys (wan_routes a r)) /\ forall q, In q (dkeys (wan_routes a r)) -> dhas a q = true.
Proof.
  intros (G & I & Ne). unfold wan_routes. destruct (dget a r) as [row|] eqn:E; [|repeat split; cbn; [constructor|tauto|tauto]].
  assert (W : forall q, In q (dkeys row) -> exists p, walk (g_edges G) r p q /\ (q = r -> p = [q])).
  { intros q Q. apply dhas_in, dhas_true in Q as [p P]. exists p. assert (X : get2 a r q = Some p) by (unfold get2; rewrite E; exact P). split; [apply (snd_walk _ _ (i_sound _ _ I) _ _ _ X)|]. intros ->. destruct (i_sound _ _ I) as [_ _ S3]. apply (S3 r). exact X. }
  split; [apply (i_rows _ _ I r row E)|]. split.
  - intros X. destruct (W r X) as (p & P1 & P2). rewrite (P2 eq_refl) in P1. inversion P1 as [u v Y|u w p' v Y Z]; subst; [apply Ne in Y; congruence|]. inversion Z.
  - intros q X. destruct (W q X) as (p & P & _). destruct (walk_last _ _ _ _ P) as [p' ->].
    rewrite (dhas_node G) by apply I. apply smem_true. destruct (i_wf _ _ I) as [_ Wf]. apply (walk_in (g_edges G) (g_nodes G) r (p' ++ [q]) q); [intros; now apply Wf|exact P|apply in_or_app; right; now left].
Qed.

(** ** The operations *)
Lemma memz_keys x (a : routes Z) : memz x (dkeys a) = dhas a x.
Proof.
  unfold memz. destruct (dhas a x) eqn:E.
  - apply smem_true, dhas_in, E.
  - apply not_true_iff_false. rewrite smem_true, <- dhas_in. congruence.
Qed.
Lemma set_NI lost r ds g pl : NI lost g pl -> ~ In r ds -> NI lost (fst (net_set lost r ds g)) (plan_step (NSet r ds) pl).
Proof.
  intros H R. pose proof (ni_routes _ _ _ H) as E. unfold net_set. cbn [plan_step]. rewrite E.
  destruct (dhas (pl_routes pl) r) eqn:Dr; cbn [negb]; [|exact H].
  assert (Gr : exists G, inv G (pl_routes pl) /\ forall u v, In (u, v) (g_edges G) -> u <> v) by (rewrite <- E; apply (ni_graph _ _ _ H)).
  destruct (set_graph r ds _ Gr R) as [Gr' Kr'].
  assert (Nd : NoDup (dkeys (pl_routes pl))) by (destruct Gr as (G & I & _); rewrite (i_keys _ _ I); apply (i_wf _ _ I)).
  destruct (wan_set r ds (pl_routes pl)) as [a o] eqn:Ws. cbn [fst] in Gr', Kr'.
  assert (Dh : forall p, dhas a p = dhas (pl_routes pl) p) by (intros; now apply dhas_keys).
  pose proof (destroys_NI lost r (dkeys (pl_routes pl)) g pl H) as H1.
  destruct (cuts r (dkeys (pl_routes pl)) pl Nd) as (C1 & C2 & C3 & C4). cbn zeta in *.
  set (g1 := fold_left (fun g p => link_destroy r p g) (dkeys (pl_routes pl)) g) in *.
  set (pl1 := fold_left (fun pl p => cut r p pl) (dkeys (pl_routes pl)) pl) in *.
  assert (H2 := routes_NI lost g1 pl1 a H1 Gr'). rewrite (ni_routes _ _ _ H1), C1 in H2. specialize (H2 Dh).
  assert (Un : forall u v, pl_linked pl u v = true -> dhas (pl_routes pl) u = true /\ dhas (pl_routes pl) v = true).
  { intros u v X. rewrite (ni_linked _ _ _ H) in X. apply dhas_true in X as [l X]. destruct (ni_direct _ _ _ H _ _ _ X) as (k & b & _ & Pr & _). rewrite <- E. apply (ni_ends _ _ _ H _ _ _ Pr). }
  assert (Lk : forall u v, pl_linked pl1 u v = if (u =? r)%Z then false else if (v =? r)%Z then false else pl_linked pl u v).
  { intros u v. rewrite C3. unfold touches. rewrite !memz_keys. specialize (Un u v).
    destruct (pl_linked pl u v).
    - destruct Un as [-> ->]; [reflexivity|]. destruct (u =? r)%Z, (v =? r)%Z; reflexivity.
    - destruct (u =? r)%Z, (v =? r)%Z, (dhas (pl_routes pl) u), (dhas (pl_routes pl) v); reflexivity. }
  assert (Rr : pl_linked pl r r = false).
  { rewrite (ni_linked _ _ _ H). apply dhas_false. destruct (dget (n_direct g) (r, r)) eqn:X; [|reflexivity]. destruct (ni_direct _ _ _ H _ _ _ X) as (k & b & _ & Pr & _). apply (ni_ends _ _ _ H) in Pr as [Pr _]. congruence. }
  assert (Cp : forall u v, pl_copies pl1 u v = if (u =? r)%Z then pl_copies pl u v else if (v =? r)%Z then pl_copies pl u v - b2n (pl_linked pl u v) else pl_copies pl u v).
  { intros u v. rewrite C4, memz_keys. specialize (Un u v). destruct (Z.eqb_spec u r) as [->|].
    - destruct (Z.eqb_spec v r) as [->|]; [|reflexivity]. rewrite Rr, Dr. cbn. lia.
    - destruct (v =? r)%Z; [|reflexivity]. cbn [andb]. destruct (pl_linked pl u v); [destruct Un as [-> _]; reflexivity|]. destruct (dhas (pl_routes pl) u); cbn; lia. }
  destruct o as [u|e]; cbn [fst].
  - destruct (row_ok a r Gr') as (Q1 & Q2 & Q3).
    assert (H3 := creates_NI lost r (dkeys (wan_routes a r)) _ _ H2 Q1 Q2). cbn [pl_routes pl_linked] in H3. rewrite Dh in H3. specialize (H3 Dr).
    assert (X : forall q, In q (dkeys (wan_routes a r)) -> dhas a q = true /\ pl_linked pl1 r q = false) by (intros q Q; split; [now apply Q3|rewrite Lk, Z.eqb_refl; reflexivity]).
    specialize (H3 X). destruct (joins r (dkeys (wan_routes a r)) (Plan a (pl_linked pl1) (pl_copies pl1) (pl_seat pl1)) Q1 Q2) as (J1 & J2 & J3 & J4). cbn zeta in *.
    assert (Fm : forall q, memz q (dkeys (wan_routes a r)) = dhas (wan_routes a r) q).
    { intros q. unfold memz. destruct (dhas (wan_routes a r) q) eqn:Y; [apply smem_true, dhas_in, Y|]. apply not_true_iff_false. rewrite smem_true, <- dhas_in. congruence. }
    assert (Fr : dhas (wan_routes a r) r = false) by (apply not_true_iff_false; rewrite dhas_in; exact Q2).
    apply (NI_ext _ _ _ _ H3). split; [exact J1|]. split; [|split].
    + intros u0 v. rewrite J3. cbn [pl_linked]. rewrite Lk. unfold touches. rewrite !Fm.
      destruct (Z.eqb_spec u0 r) as [->|]; [|cbn [andb orb]; destruct (Z.eqb_spec v r) as [->|]; cbn [andb]; [destruct (dhas _ u0); reflexivity|reflexivity]].
      cbn [andb]. rewrite Fr, andb_false_r, orb_false_r. destruct (dhas _ v); reflexivity.
    + intros u0 v. rewrite J4. cbn [pl_copies]. rewrite Cp. unfold touches. rewrite !Fm.
      destruct (Z.eqb_spec u0 r) as [->|]; [cbn [andb]; rewrite Fr, andb_false_r, orb_false_r; reflexivity|]. cbn [andb orb]. destruct (v =? r)%Z; cbn; lia.
    + intros n. rewrite J2. cbn. apply C2.
  - apply (NI_ext _ _ _ _ H2). split; [reflexivity|]. cbn [pl_linked pl_copies pl_seat]. split; [|split].
    + intros u v. rewrite Lk. reflexivity.
    + intros u v. rewrite Cp. cbn [b2n]. destruct (u =? r)%Z, (v =? r)%Z; lia.
    + exact C2.
Qed.
Lemma register_NI lost p g pl : NI lost g pl -> (0 <= p)%Z -> NI lost (fst (net_register p g)) (plan_step (NReg p) pl).
Proof.
  intros H P. pose proof (ni_routes _ _ _ H) as E. unfold net_register. cbn [plan_step]. rewrite <- E.
  assert (Gr := register_graph p _ (ni_graph _ _ _ H)). revert Gr. unfold wan_register. destruct (dhas (n_routes g) p) eqn:D; cbn [fst]; intros Gr.
  - apply (NI_ext _ _ _ _ H). repeat split; auto.
  - assert (Ds : dget (n_sw g) p = None) by (apply dhas_false; rewrite (ni_sw _ _ _ H); exact D).
    assert (Dn : forall q, dhas (dset (n_routes g) p []) q = (if eq_dec q p then true else dhas (n_routes g) q)) by (intros q; unfold dhas; rewrite dget_dset; destruct (eq_dec q p); reflexivity).
    assert (Ln : forall q l, slinks (dset (n_sw g) p sw_empty) q l = slinks (n_sw g) q l).
    { intros q l. unfold slinks. rewrite dget_dset. destruct (eq_dec q p) as [->|]; [rewrite Ds; reflexivity|reflexivity]. }
    destruct H. split; cbn [with_sw with_routes n_routes n_sw n_ends n_closed n_direct n_conn pl_routes pl_linked pl_copies pl_seat]; auto.
    + intros q. rewrite Dn. destruct (eq_dec q p); [subst; auto|apply ni_pos].
    + intros q. rewrite Dn. unfold dhas at 1. rewrite dget_dset. destruct (eq_dec q p); [reflexivity|apply ni_sw].
    + intros q w. rewrite dget_dset. destruct (eq_dec q p); [intros [= <-]; eapply swinv_self, swinv_empty|apply ni_swok].
    + intros q n X. rewrite Ln. unfold dhas in X. rewrite dget_dset in X. destruct (eq_dec q p) as [->|]; [|apply ni_dev; exact X].
      unfold slinks. rewrite Ds. specialize (ni_conn n). unfold conn_ok in ni_conn. destruct (dget (n_conn g) n) as [rt|], (pl_seat pl n) as [t|]; try contradiction; [|reflexivity]. cbn.
      destruct ni_conn as (A & B & C & _). rewrite B. destruct (r_there rt); [|reflexivity]. destruct C as (q & -> & Q); [reflexivity|]. destruct (eq_dec q p); [subst; unfold dhas in Q; now rewrite Ds in Q|reflexivity].
    + intros q k b x. rewrite Ln. apply ni_end.
    + intros Ll k b q q' X Y. rewrite Ln. now apply ni_less.
    + intros n. specialize (ni_conn n). destruct (dget (n_conn g) n) as [rt|], (pl_seat pl n) as [t|]; cbn in *; auto. destruct ni_conn as (A & B & C & V). repeat split; auto.
      intros X. destruct (C X) as (z & Q1 & Q2). exists z. split; auto. unfold dhas. rewrite dget_dset. destruct (eq_dec z p); [reflexivity|exact Q2].
    + intros e x y X. rewrite !Dn. destruct (ni_ends e x y X) as (A & B & C). split; [exact A|]. destruct (eq_dec x p), (eq_dec y p); auto.
Qed.

Lemma dev_NI lost g pl n t s' conn' : NI lost g pl -> swok s' -> (forall p, dhas s' p = dhas (n_sw g) p) ->
  (forall p l, l <> Dev n -> slinks s' p l = slinks (n_sw g) p l) ->
  (forall p, dhas (n_sw g) p = true -> slinks s' p (Dev n) = seat_addr t p) ->
  (forall m, m <> n -> dget conn' m = dget (n_conn g) m) -> conn_ok (n_sw g) (dget conn' n) t -> NoDup (dkeys conn') ->
  NI lost (WNet (n_routes g) s' (n_ends g) (n_closed g) (n_direct g) conn' (n_draws g)) (put_seat pl n t).
Proof.
  intros H K D L Ln C Cn N. assert (Cx : forall c o, conn_ok (n_sw g) c o -> conn_ok s' c o).
  { intros [rt|] [u|]; cbn; auto. intros (A & B & X & V). repeat split; auto. intros Y. destruct (X Y) as (z & Z1 & Z2). exists z. rewrite D. auto. }
  destruct H. split; cbn [n_routes n_sw n_ends n_closed n_direct n_conn pl_routes pl_linked pl_copies pl_seat put_seat]; auto.
  - intros p. rewrite D. apply ni_sw.
  - intros p m X. rewrite D in X. destruct (Nat.eq_dec m n) as [->|]; [now apply Ln|]. rewrite L by congruence. now apply ni_dev.
  - intros p k b x. rewrite L by discriminate. apply ni_end.
  - intros Ll k b p q X Y. rewrite L by discriminate. now apply ni_less.
  - intros m. apply Cx. destruct (Nat.eq_dec m n) as [->|]; [exact Cn|]. rewrite C by auto. apply ni_conn.
Qed.
Lemma prefix_NI lost g pl n rt p there : NI lost g pl -> dget (n_conn g) n = Some rt ->
  (there = true -> exists q, p = Some q /\ dhas (n_sw g) q = true) ->
  NI lost (set_prefix n p there g) (put_seat pl n (Some (Seat (r_addr rt) (if there then p else None)))) /\
  dget (n_conn (set_prefix n p there g)) n = Some (Router (r_addr rt) p there).
Proof.
  intros H C P. pose proof (ni_conn _ _ _ H n) as Cn. rewrite C in Cn. cbn in Cn. destruct (pl_seat pl n) as [t|] eqn:St; [|contradiction].
  destruct Cn as (A & B & X & V). unfold set_prefix. rewrite C.
  assert (S1 : exists s1, (match r_there rt, r_prefix rt, r_addr rt with true, Some q, Some _ => sw_do (sw_unregister (Dev n)) q g | _, _, _ => g end) = with_sws g s1 /\
     swok s1 /\ (forall q, dhas s1 q = dhas (n_sw g) q) /\ (forall q l, l <> Dev n -> slinks s1 q l = slinks (n_sw g) q l) /\ forall q, slinks s1 q (Dev n) = None).
  { assert (Z : forall q, dhas (n_sw g) q = false -> slinks (n_sw g) q (Dev n) = None) by (intros q Q; apply dhas_false in Q; unfold slinks; now rewrite Q).
    assert (Y : forall q, slinks (n_sw g) q (Dev n) = match r_there rt, r_prefix rt with true, Some q' => if eq_dec q' q then r_addr rt else None | _, _ => None end).
    { intros q. destruct (dhas (n_sw g) q) eqn:Dq.
      - rewrite (ni_dev _ _ _ H) by exact Dq. rewrite St. cbn. rewrite B, A. destruct (r_there rt), (r_prefix rt); reflexivity.
      - rewrite (Z q Dq). destruct (r_there rt) eqn:T; [|reflexivity]. destruct (X eq_refl) as (q' & -> & Q'). destruct (eq_dec q' q); [congruence|reflexivity]. }
    assert (Same : (forall q, slinks (n_sw g) q (Dev n) = None) -> exists s1, g = with_sws g s1 /\
     swok s1 /\ (forall q, dhas s1 q = dhas (n_sw g) q) /\ (forall q l, l <> Dev n -> slinks s1 q l = slinks (n_sw g) q l) /\ forall q, slinks s1 q (Dev n) = None).
    { intros Y'. exists (n_sw g). split; [apply with_sws_same|]. split; [apply (ni_swok _ _ _ H)|]. auto. }
    destruct (r_there rt); [|apply Same; exact Y]. destruct (r_prefix rt) as [q0|]; [|apply Same; exact Y]. destruct (r_addr rt) as [a|]; [|apply Same; intros q; rewrite Y; now destruct (eq_dec q0 q)].
    destruct (sw_unreg (Dev n) q0 g (ni_swok _ _ _ H)) as (s1 & E1 & K1 & D1 & L1). exists s1. split; [exact E1|]. split; [exact K1|]. split; [exact D1|]. split.
    - intros q l Nl. rewrite L1. destruct (eq_dec q q0); [|reflexivity]. destruct (eq_dec l (Dev n)); [congruence|reflexivity].
    - intros q. rewrite L1. destruct (eq_dec q q0) as [->|Nq]; [now destruct (eq_dec (Dev n) (Dev n))|]. rewrite Y. destruct (eq_dec q0 q); [congruence|reflexivity]. }
  destruct S1 as (s1 & E1 & K1 & D1 & L1 & N1). rewrite E1.
  set (c' := dset (n_conn g) n (Router (r_addr rt) p there)).
  assert (Hc : forall m, m <> n -> dget c' m = dget (n_conn g) m) by (intros m M; unfold c'; now apply dget_dset_other).
  assert (Hn : dget c' n = Some (Router (r_addr rt) p there)) by apply dget_dset_same.
  assert (Hk : conn_ok (n_sw g) (dget c' n) (Some (Seat (r_addr rt) (if there then p else None)))).
  { rewrite Hn. cbn. repeat split; auto. }
  assert (Hd : NoDup (dkeys c')) by (apply nodup_dset, (ni_cnd _ _ _ H)).
  change (with_conn (with_sws g s1) n (Router (r_addr rt) p there)) with (WNet (n_routes g) s1 (n_ends g) (n_closed g) (n_direct g) c' (n_draws g)).
  set (g2 := WNet (n_routes g) s1 (n_ends g) (n_closed g) (n_direct g) c' (n_draws g)).
  assert (Keep : (forall q, seat_addr (Some (Seat (r_addr rt) (if there then p else None))) q = None) -> NI lost g2 (put_seat pl n (Some (Seat (r_addr rt) (if there then p else None)))) /\ dget (n_conn g2) n = Some (Router (r_addr rt) p there)).
  { intros Z. split; [|exact Hn]. apply dev_NI; auto. intros q _. rewrite Z. apply N1. }
  destruct there; [|apply Keep; reflexivity]. destruct (P eq_refl) as (q & -> & Q). destruct (r_addr rt) as [a|] eqn:Ea; [|apply Keep; intros z; cbn; now destruct (eq_dec q z)].
  destruct (sw_reg a (Dev n) q g2) as (s2 & E2 & K2 & D2 & L2); auto. { cbn. now rewrite D1. }
  rewrite E2. split; [|exact Hn]. cbn [n_sw g2] in *. apply (dev_NI lost g pl n (Some (Seat (Some a) (Some q))) s2 c'); auto.
  - intros z. now rewrite D2.
  - intros z l Nl. rewrite L2. destruct (eq_dec z q); [|now apply L1]. destruct (eq_dec l (Dev n)); [congruence|now apply L1].
  - intros z _. rewrite L2. cbn [seat_addr t_at t_addr]. destruct (eq_dec z q) as [->|].
    + destruct (eq_dec (Dev n) (Dev n)); [|congruence]. destruct (eq_dec q q); congruence.
    + destruct (eq_dec q z); [congruence|]. apply N1.
Qed.
Lemma put_put pl n t t' : pl_eq (put_seat (put_seat pl n t) n t') (put_seat pl n t').
Proof. repeat split; cbn; auto. intros m. destruct (Nat.eq_dec m n); reflexivity. Qed.
Lemma conn_seat lost g pl n : NI lost g pl -> (dhas (n_conn g) n = true <-> pl_seat pl n <> None).
Proof.
  intros H. pose proof (ni_conn _ _ _ H n) as C. unfold dhas. destruct (dget (n_conn g) n), (pl_seat pl n); cbn in C; try contradiction; split; congruence.
Qed.
Definition NI_step_goal lost o := forall g pl, NI lost g pl -> sensible o -> NI lost (net_step lost o g) (plan_step o pl).
Lemma NI_step lost o : NI_step_goal lost o.
Proof.
  intros g pl H S. destruct o as [n|n a|n p|n|p|r ds]; cbn [net_step plan_step sensible] in *.
  - unfold net_connect. pose proof (ni_conn _ _ _ H n) as C. unfold dhas. destruct (dget (n_conn g) n) as [rt|] eqn:E, (pl_seat pl n) as [t|] eqn:St; cbn in C; try contradiction; [exact H|].
    apply (dev_NI lost g pl n (Some (Seat None None)) (n_sw g) (dset (n_conn g) n (Router None None false)) H); auto.
    + apply (ni_swok _ _ _ H).
    + intros p P. rewrite (ni_dev _ _ _ H) by exact P. now rewrite St.
    + intros m M. now apply dget_dset_other.
    + rewrite dget_dset_same. cbn. repeat split; congruence.
    + apply nodup_dset, (ni_cnd _ _ _ H).
  - unfold net_announce. pose proof (ni_conn _ _ _ H n) as C. unfold dhas. destruct (dget (n_conn g) n) as [rt|] eqn:E, (pl_seat pl n) as [t|] eqn:St; cbn [conn_ok] in C; try contradiction; [|exact H].
    cbn [andb]. destruct (is_valid_string ClsBlock a) eqn:V; [|exact H].
    destruct (prefix_NI lost g pl n rt None false H E) as [H1 C1]; [discriminate|]. set (g1 := set_prefix n None false g) in *. cbn iota in H1.
    refine (NI_ext _ _ _ _ _ (put_put pl n _ _)).
    apply (dev_NI lost g1 (put_seat pl n (Some (Seat (r_addr rt) None))) n (Some (Seat (Some a) None)) (n_sw g1) (dset (n_conn g1) n (Router (Some a) None false)) H1); auto.
    + apply (ni_swok _ _ _ H1).
    + intros p P. rewrite (ni_dev _ _ _ H1) by exact P. cbn. now destruct (Nat.eq_dec n n).
    + intros m M. now apply dget_dset_other.
    + rewrite dget_dset_same. cbn. repeat split; try congruence.
    + apply nodup_dset, (ni_cnd _ _ _ H1).
  - unfold net_locate. pose proof (ni_conn _ _ _ H n) as C. unfold dhas at 1. destruct (dget (n_conn g) n) as [rt|] eqn:E, (pl_seat pl n) as [t|] eqn:St; cbn [conn_ok] in C; try contradiction; [|exact H].
    cbn [fst]. destruct C as (A & _). rewrite (ni_sw _ _ _ H), (ni_routes _ _ _ H). rewrite <- A.
    destruct (prefix_NI lost g pl n rt (Some p) (dhas (pl_routes pl) p) H E) as [H1 _]; [|exact H1]. intros X. exists p. rewrite (ni_sw _ _ _ H), (ni_routes _ _ _ H). auto.
  - unfold net_lost. pose proof (ni_conn _ _ _ H n) as C. unfold dhas. destruct (dget (n_conn g) n) as [rt|] eqn:E.
    + destruct (prefix_NI lost g pl n rt None false H E) as [H1 C1]; [discriminate|]. set (g1 := set_prefix n None false g) in *. cbn iota in H1.
      refine (NI_ext _ _ _ _ _ (put_put pl n _ _)).
      apply (dev_NI lost g1 (put_seat pl n (Some (Seat (r_addr rt) None))) n None (n_sw g1) (ddel (n_conn g1) n) H1); auto.
      * apply (ni_swok _ _ _ H1).
      * intros p P. rewrite (ni_dev _ _ _ H1) by exact P. cbn. now destruct (Nat.eq_dec n n).
      * intros m M. now apply dget_ddel_other.
      * rewrite dget_ddel by apply (ni_cnd _ _ _ H1). destruct (eq_dec n n); [exact I|congruence].
      * apply nodup_ddel, (ni_cnd _ _ _ H1).
    + apply (NI_ext _ _ _ _ H). repeat split; auto. cbn. intros m. destruct (Nat.eq_dec m n); [|reflexivity]. subst. destruct (pl_seat pl n); [contradiction|reflexivity].
  - now apply register_NI.
  - now apply set_NI.
Qed.
Lemma NI_new lost : NI lost net_new plan_new.
Proof.
  split; [reflexivity|exists g_new; split; [apply inv_new|cbn; tauto]|discriminate|reflexivity|intros p w X; discriminate X|discriminate|discriminate| | |constructor|constructor|discriminate|reflexivity|reflexivity| |intros l []].
  - intros _ [|k] b p q X; discriminate X.
  - intros n. exact I.
  - intros [[|k] b] x y X; discriminate X.
Qed.
Lemma NI_run lost h : forall g pl, NI lost g pl -> Forall sensible h -> NI lost (net_run lost h g) (fold_left (fun pl o => plan_step o pl) h pl).
Proof. induction h as [|o h IH]; intros g pl H S; cbn; [exact H|]. inversion S; subst. apply IH; auto. now apply NI_step. Qed.
Lemma NI_planned lost h : Forall sensible h -> NI lost (net_run lost h net_new) (planned h).
Proof. apply NI_run, NI_new. Qed.
