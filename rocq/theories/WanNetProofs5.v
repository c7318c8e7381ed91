From Coq Require Import List ZArith Bool Lia.
From Verif Require Import PyBase PyLemmas AddrModel AddrSpec AddrProofs SwitchModel SwitchProofs WanModel WanSpec WanProofs WanNetModel WanNetSpec WanNetProofs WanNetProofs2 WanNetProofs3 WanNetProofs4.
Import ListNotations.
Open Scope nat_scope.

Section Send.
  Context (lost : nat -> bool) (g : wnet) (pl : plan).
  Hypothesis H : NI lost g pl.
  Lemma seat_router n t p : pl_seat pl n = Some t -> t_at t = Some p ->
    exists rt w, dget (n_conn g) n = Some rt /\ r_there rt = true /\ r_prefix rt = Some p /\ dget (n_sw g) p = Some w.
  Proof.
    intros S T. pose proof (ni_conn _ _ _ H n) as C. rewrite S in C. destruct (dget (n_conn g) n) as [rt|]; [|contradiction]. cbn in C. destruct C as (A & B & X & _).
    rewrite T in B. destruct (r_there rt) eqn:Th; [|discriminate]. destruct (X eq_refl) as (q & Q1 & Q2). rewrite Q1 in B. injection B as <-. apply dhas_true in Q2 as [w W]. exists rt, w. auto.
  Qed.
  (** the list of links the router of a device at [p] writes to *)
  Lemma router_list rt w p dest a : r_there rt = true -> r_prefix rt = Some p -> dget (n_sw g) p = Some w -> from_string ClsBlock dest = Ok a ->
    exists ls0, sw_outbound dest w = Ok ls0 /\ NoDup ls0 /\
    router_outbound rt dest g =
      match hop pl p a with
      | None => Ok ls0
      | Some x => match sw_outbound (gateway x) w with Ok l2 => Ok (sunion ls0 l2) | Raise e => Raise e end
      end.
  Proof.
    intros T P W F. destruct (outbound_total w _ dest a (ni_swok _ _ _ H p w W) F) as (ls0 & E & N). exists ls0. split; [exact E|]. split; [exact N|].
    unfold router_outbound. rewrite (from_string_valid _ _ _ F), T, P, W, F, E. cbn [negb]. unfold hop. rewrite <- (ni_routes _ _ _ H).
    destruct (a_zone a) as [|q]; [reflexivity|]. destruct (q =? p)%Z; [reflexivity|]. destruct (wan_next_hop (n_routes g) p q) as [x|]; [|reflexivity]. destruct (x =? 0)%Z; reflexivity.
  Qed.
  Lemma send_spec n t p dest a f : pl_seat pl n = Some t -> t_at t = Some p -> from_string ClsBlock dest = Ok a -> prefix_shaped a -> ~ is_gate a ->
    exists k ds c, net_send lost (S (S f)) n dest g = Some (k, ds) /\ crosses lost pl p a c /\
      forall m, (near pl p a m -> times m ds = 1) /\ (far pl p a m -> times m ds = c) /\ (~ near pl p a m -> ~ far pl p a m -> times m ds = 0).
  Proof.
    intros S T F P Ng. destruct (seat_router n t p S T) as (rt & w & C & Th & Pr & W). unfold net_send. rewrite C.
    destruct (router_list rt w p dest a Th Pr W F) as (ls0 & E0 & N0 & R). rewrite R. clear R.
    assert (G0 : forall q, from_string ClsBlock dest = Ok (gate q) -> q = p) by (intros q X; exfalso; apply Ng; exists q; congruence).
    pose proof (devs_only _ _ _ H p w dest ls0 W E0 G0) as D0.
    assert (Dv := fun m => dev_in _ _ _ H p w dest a ls0 m W F P E0).
    unfold crosses, near, far. destruct (hop pl p a) as [x|] eqn:Hx.
    - destruct (hop_ok _ _ _ H p a x Hx) as (X0 & Xp & Xr & _). destruct (gate_ok x X0) as (GB & GP & GF & _).
      destruct (outbound_total w _ (gateway x) (gate x) (ni_swok _ _ _ H p w W) GF) as (l2 & E2 & N2). rewrite E2.
      set (ls := sunion ls0 l2). assert (N : NoDup ls) by (apply nodup_sunion; exact N0).
      destruct (ends_in _ _ _ H p w x l2 X0 W E2) as [I1 I2]. assert (Dg := fun m => dev_in _ _ _ H p w (gateway x) (gate x) l2 m W GF GP E2).
      assert (Xs : dhas (n_sw g) x = true) by (rewrite (ni_sw _ _ _ H); exact Xr). apply dhas_true in Xs as [wx Wx].
      destruct (outbound_total wx _ dest a (ni_swok _ _ _ H x wx Wx) F) as (T' & ET & NT).
      assert (Ie : forall k b, In (End k b) ls -> In (End k b) l2).
      { intros k b I. apply in_sunion in I as [I|I]; [|exact I]. apply D0 in I as [I _]. discriminate. }
      assert (Cl : forall l, In l ls -> ~ In l (n_closed g)).
      { intros [m|k b] I; [apply (closed_dev _ _ _ H)|]. apply (I1 k b). now apply Ie. }
      assert (Tg : forall l, In l ls -> is_end l = true -> target g dest l = T').
      { intros [m|k b] I; [discriminate|]. intros _. apply Ie in I. destruct (I1 k b I) as [Pk _]. unfold target. cbn [other_end]. rewrite (end_at_pair g k (negb b) x p) by now apply pair_other. now rewrite Wx, ET. }
      assert (Gx : forall q, from_string ClsBlock dest = Ok (gate q) -> q = x) by (intros q X; exfalso; apply Ng; exists q; congruence).
      destruct (writes_mix lost f g dest T' ls N NT Cl Tg (devs_only _ _ _ H x wx dest T' Wx ET Gx) (n_draws g)) as (k' & ds & c & Ew & Lc & Lcl & Ct).
      destruct (ends_count _ _ _ H p x ls N) as [Ec1 Ec2]. { intros k b I. apply I1. now apply Ie. }
      exists k', ds, c. split; [exact Ew|]. split; [split; [lia|]|].
      { intros Ll. rewrite (Lcl Ll). apply Ec2. intros k b Pk Nk. apply in_sunion. right. now apply I2. }
      intros m. rewrite Ct. assert (M1 : smem ls (Dev m) = true <-> at_lan pl m p a \/ at_lan pl m p (gate x)) by (rewrite smem_true; unfold ls; rewrite in_sunion, Dv, Dg; tauto).
      assert (M2 : smem T' (Dev m) = true <-> at_lan pl m x a) by (rewrite smem_true; apply (dev_in _ _ _ H x wx dest a T' m Wx F P ET)).
      assert (Dj : forall a1 a2, at_lan pl m p a1 -> at_lan pl m x a2 -> False) by (intros a1 a2 (t1 & A1 & A2 & _) (t2 & B1 & B2 & _); congruence).
      split; [|split].
      + intros [Y|(x' & Hx' & Y)].
        * rewrite (proj2 M1) by auto. destruct (smem T' (Dev m)) eqn:Z; [exfalso; apply (Dj a a Y); now apply M2|cbn; lia].
        * injection Hx' as <-. rewrite (proj2 M1) by auto. destruct (smem T' (Dev m)) eqn:Z; [exfalso; apply (Dj (gate x) a Y); now apply M2|cbn; lia].
      + intros (x' & Hx' & Y). injection Hx' as <-. rewrite (proj2 M2) by auto. destruct (smem ls (Dev m)) eqn:Z; [exfalso; destruct (proj1 M1 eq_refl) as [Z'|Z']; eapply Dj; eauto|cbn; lia].
      + intros Y1 Y2. destruct (smem ls (Dev m)) eqn:Z1; [exfalso; apply Y1; destruct (proj1 M1 eq_refl) as [Z'|Z']; eauto|]. destruct (smem T' (Dev m)) eqn:Z2; [exfalso; apply Y2; pose proof (proj1 M2 eq_refl); eauto|]. cbn. lia.
    - rewrite (writes_devs lost (Datatypes.S f) g dest ls0 D0). exists (n_draws g), (map num_of ls0), 0. split; [reflexivity|]. split; [reflexivity|].
      intros m. rewrite times_devs by (auto; intros; now apply D0).
      split; [|split].
      + intros [Y|(x & X & _)]; [|discriminate]. apply Dv in Y. apply smem_true in Y. now rewrite Y.
      + intros (x & X & _). discriminate.
      + intros Y1 _. destruct (smem ls0 (Dev m)) eqn:Z; [|reflexivity]. exfalso. apply Y1. left. apply Dv. now apply smem_true.
  Qed.
  (** no location, or an address that cannot be read *)
  Lemma send_nowhere n t f dest : pl_seat pl n = Some t -> t_at t = None -> net_send lost (S f) n dest g = Some (n_draws g, []).
  Proof.
    intros S T. pose proof (ni_conn _ _ _ H n) as C. rewrite S in C. unfold net_send. destruct (dget (n_conn g) n) as [rt|]; [|reflexivity]. cbn in C. destruct C as (A & B & X & _).
    rewrite T in B. unfold router_outbound. destruct (is_valid_string ClsBlock dest); [|reflexivity]. cbn [negb]. destruct (r_there rt); [|reflexivity]. destruct (X eq_refl) as (q & Q & _). congruence.
  Qed.
  Lemma send_bad n f dest : (forall a, from_string ClsBlock dest <> Ok a) -> net_send lost (S f) n dest g = Some (n_draws g, []).
  Proof.
    intros B. unfold net_send. destruct (dget (n_conn g) n) as [rt|]; [|reflexivity]. unfold router_outbound. destruct (is_valid_string ClsBlock dest); [|reflexivity]. cbn [negb].
    destruct (r_there rt); [|reflexivity]. destruct (r_prefix rt) as [p|]; [|reflexivity]. destruct (dget (n_sw g) p); [|reflexivity]. destruct (from_string ClsBlock dest) as [a|e] eqn:F; [destruct (B a eq_refl)|reflexivity].
  Qed.
  (** ** Every packet comes to rest *)
  Lemma writes_some f dest ls : (forall l, In l ls -> is_end l = true -> forall k, writes lost f g dest k (target g dest l) <> None) ->
    forall k, writes lost (S f) g dest k ls <> None.
  Proof.
    induction ls as [|l ls IH]; intros HT k; [discriminate|]. rewrite writes_cons. destruct (smem (n_closed g) l); [discriminate|].
    assert (IH' := IH (fun l L => HT l (or_intror L))). destruct l as [m|j b].
    - specialize (IH' k). destruct (writes lost (S f) g dest k ls) as [[k' ds]|]; [discriminate|congruence].
    - destruct (lost k); [apply IH'|]. specialize (HT (End j b) (or_introl eq_refl) eq_refl (S k)). destruct (writes lost f g dest (S k) (target g dest (End j b))) as [[k1 d1]|]; [|congruence].
      specialize (IH' k1). destruct (writes lost (S f) g dest k1 ls) as [[k2 d2]|]; [discriminate|congruence].
  Qed.
  Lemma send_ends n f dest : net_send lost (S (S (S f))) n dest g <> None.
  Proof.
    unfold net_send. destruct (dget (n_conn g) n) as [rt|] eqn:C; [|discriminate]. destruct (router_outbound rt dest g) as [ls|e] eqn:R; [|discriminate].
    (* what is written at a switch for this destination *)
    assert (Fin : forall q w T f, dget (n_sw g) q = Some w -> sw_outbound dest w = Ok T -> (forall q', from_string ClsBlock dest = Ok (gate q') -> q' = q) -> forall k, writes lost (S f) g dest k T <> None).
    { intros q w T f0 W E G k. rewrite (writes_devs lost f0 g dest T); [discriminate|]. now apply (devs_only _ _ _ H q w dest T W E). }
    assert (Any : forall q w T f, dget (n_sw g) q = Some w -> sw_outbound dest w = Ok T -> forall k, writes lost (S (S f)) g dest k T <> None).
    { intros q w T f0 W E. apply writes_some. intros l I Il k. destruct (sw_at _ _ _ H q w dest T l W E I) as [_ X]. destruct (X Il) as (z & F & Tg & _). rewrite Tg.
      destruct (dget (n_sw g) z) as [wz|] eqn:Wz; [|discriminate]. destruct (sw_outbound dest wz) as [T'|] eqn:ET; [|discriminate]. apply (Fin z wz T' f0 Wz ET). intros q' Q. assert (Gq : gate q' = gate z) by congruence. now injection Gq. }
    apply writes_some. intros l I Il k.
    unfold target. destruct (end_at g (other_end l)) as [z|]; [|discriminate]. destruct (dget (n_sw g) z) as [wz|] eqn:Wz; [|discriminate]. destruct (sw_outbound dest wz) as [T'|] eqn:ET; [|discriminate]. eapply Any; eauto.
  Qed.
End Send.

(** ** Next hops are linked *)
Definition LK (pl : plan) : Prop := exists G, inv G (pl_routes pl) /\ forall u v, In (u, v) (g_edges G) -> pl_linked pl u v = true.
Definition set_went (pl : plan) (o : nop) : Prop := match o with NSet r ds => snd (wan_set r ds (pl_routes pl)) = Ok tt | _ => True end.
Lemma LK_step o pl : LK pl -> set_went pl o -> LK (plan_step o pl).
Proof.
  intros (G & I & L) S. destruct o as [n|n a|n p|n|p|r ds]; cbn [plan_step set_went] in *.
  - destruct (pl_seat pl n); exists G; auto.
  - destruct (pl_seat pl n); [destruct (is_valid_string ClsBlock a)|]; exists G; auto.
  - destruct (pl_seat pl n); exists G; auto.
  - exists G; auto.
  - destruct (step_inv (WReg p) G _ I) as (I' & _). exists (g_step (WReg p) G). split; [exact I'|]. cbn. destruct (in_dec eq_dec p (g_nodes G)); exact L.
  - destruct (dhas (pl_routes pl) r) eqn:D; [|exists G; auto]. destruct (step_inv (WSet r ds) G _ I) as (I' & _). cbn [wan_step] in I'. destruct (wan_set r ds (pl_routes pl)) as [a o] eqn:W. cbn [fst snd] in *. subst o.
    exists (g_step (WSet r ds) G). split; [exact I'|]. cbn [pl_linked]. intros u v E.
    assert (Rt : forall x y, In (x, y) (g_edges (g_step (WSet r ds) G)) -> x = r -> dhas (wan_routes a r) y = true).
    { intros x y X ->. destruct (i_sound _ _ I') as [_ S2 _]. specialize (S2 r y X). unfold get2 in S2. unfold wan_routes. destruct (dget a r) as [row|]; [|discriminate]. apply dhas_true. eauto. }
    assert (Sy : u <> r -> v = r -> In (r, u) (g_edges (g_step (WSet r ds) G))).
    { intros Nu ->. cbn in E |- *. destruct (in_dec eq_dec r (g_nodes G)) as [Rn|Rn]; [|exfalso; apply Rn; apply smem_true; rewrite <- (dhas_node G (pl_routes pl)) by apply I; exact D].
      cbn in *. apply in_app_iff in E as [E|E]; [apply filter_In in E as [_ E]; cbn in E; rewrite andb_true_iff, !negb_true_iff in E; destruct E as [_ E]; apply not_true_iff_false in E; exfalso; apply E; now apply eqb_eq|].
      apply in_app_iff. right. apply in_flat_map in E as (d & Dd & E). apply in_flat_map. exists d. split; [exact Dd|]. destruct E as [E|[E|[]]]; [congruence|]. injection E as <-. now left. }
    destruct (Z.eqb_spec u r) as [->|Nu]; [now apply (Rt r v E)|]. destruct (Z.eqb_spec v r) as [->|Nv]; [apply (Rt r u); auto|].
    apply L. cbn in E. destruct (in_dec eq_dec r (g_nodes G)); [|exact E]. cbn in E. apply in_app_iff in E as [E|E]; [now apply filter_In in E|]. exfalso. apply in_flat_map in E as (d & Dd & E). destruct E as [E|[E|[]]]; congruence.
Qed.
Lemma routes_run lost h : n_routes (net_run lost h net_new) = pl_routes (planned h).
Proof.
  unfold net_run, planned. assert (X : forall g pl, n_routes g = pl_routes pl -> n_routes (fold_left (fun g o => net_step lost o g) h g) = pl_routes (fold_left (fun pl o => plan_step o pl) h pl)); [|now apply X].
  induction h as [|o h IH]; intros g pl E; cbn; [exact E|]. apply IH. clear IH h.
  assert (Dof : forall f p g, n_routes (sw_do f p g) = n_routes g) by (intros f p g0; unfold sw_do; destruct (dget (n_sw g0) p); [destruct (f s); reflexivity|reflexivity]).
  assert (Pf : forall n p t g, n_routes (set_prefix n p t g) = n_routes g).
  { intros n p t g0. unfold set_prefix. destruct (dget (n_conn g0) n) as [rt|]; [|reflexivity].
    assert (X1 : n_routes (match r_there rt, r_prefix rt, r_addr rt with true, Some q, Some _ => sw_do (sw_unregister (Dev n)) q g0 | _, _, _ => g0 end) = n_routes g0).
    { destruct (r_there rt); [|reflexivity]. destruct (r_prefix rt); [|reflexivity]. destruct (r_addr rt); [apply Dof|reflexivity]. }
    destruct t, p, (r_addr rt); cbn; rewrite ?Dof; cbn; exact X1. }
  destruct o as [n|n a|n p|n|p|r ds]; cbn [net_step plan_step].
  - unfold net_connect. destruct (dhas (n_conn g) n), (pl_seat pl n); exact E.
  - unfold net_announce. destruct (dhas (n_conn g) n && is_valid_string ClsBlock a); [|destruct (pl_seat pl n); [destruct (is_valid_string ClsBlock a)|]; exact E].
    cbn. rewrite Pf. destruct (pl_seat pl n); [destruct (is_valid_string ClsBlock a)|]; exact E.
  - unfold net_locate. destruct (dhas (n_conn g) n); cbn [fst]; rewrite ?Pf; destruct (pl_seat pl n); exact E.
  - unfold net_lost. destruct (dhas (n_conn g) n); cbn; rewrite ?Pf; exact E.
  - unfold net_register. rewrite <- E. cbn. unfold wan_register. destruct (dhas (n_routes g) p); reflexivity.
  - unfold net_set. rewrite E. destruct (dhas (pl_routes pl) r); [|exact E]. cbn [negb]. destruct (wan_set r ds (pl_routes pl)) as [a o]. destruct o; cbn; [|reflexivity].
    generalize (dkeys (wan_routes a r)) as qs. intros qs. assert (Y : forall qs g, n_routes (fold_left (fun g q => link_create lost r q g) qs g) = n_routes g).
    { clear -Dof. induction qs as [|q qs IH]; intros g; cbn; [reflexivity|]. rewrite IH. unfold link_create. cbn.
      assert (An : forall l a g, n_routes (announce_to lost l a g) = n_routes g). { intros l a g0. unfold announce_to. destruct (lost (n_draws g0)); [reflexivity|]. destruct (end_at g0 l); [rewrite Dof|]; reflexivity. }
      now rewrite !An. }
    now rewrite Y.
Qed.
Lemma LK_all h : all_ok h -> LK (planned h).
Proof.
  intros A. unfold planned. assert (X : forall h2 h1, h = h1 ++ h2 -> LK (planned h1) -> LK (fold_left (fun pl o => plan_step o pl) h2 (planned h1))).
  { induction h2 as [|o h2 IH]; intros h1 E K; cbn [fold_left]; [exact K|].
    assert (P1 : plan_step o (planned h1) = planned (h1 ++ [o])) by (unfold planned; rewrite fold_left_app; reflexivity). rewrite P1. apply IH; [now rewrite <- app_assoc|]. rewrite <- P1. apply LK_step; [exact K|].
    destruct o as [n|n a|n p|n|p|r ds]; try exact I. specialize (A h1 r ds h2 E). unfold net_set in A. rewrite (routes_run (fun _ => false) h1) in A. cbn [set_went].
    destruct (dhas (pl_routes (planned h1)) r) eqn:D; [|discriminate]. cbn [negb] in A. destruct (wan_set r ds (pl_routes (planned h1))) as [a o]. destruct o as [[]|e]; [reflexivity|discriminate]. }
  apply (X h []); [reflexivity|]. exists g_new. split; [apply inv_new|]. cbn. tauto.
Qed.
Lemma linked_copies lost g pl u v : NI lost g pl -> pl_linked pl u v = true -> 1 <= pl_copies pl u v.
Proof.
  intros H L. rewrite (ni_linked _ _ _ H) in L. apply dhas_true in L as [l D]. destruct (ni_direct _ _ _ H _ _ _ D) as (k & b & -> & Pr & O & _). rewrite (ni_copies _ _ _ H). unfold open_count.
  set (es := filter _ _). assert (I : In (k, b) es). { apply filter_In. split; [apply in_all; now apply pair_some in Pr|]. apply andb_true_iff. split; [now apply is_pair_true|]. unfold open_end. cbn. apply negb_true_iff, not_true_iff_false. now rewrite smem_true. }
  destruct es; [destruct I|cbn; lia].
Qed.
Lemma next_linked pl p a x : LK pl -> hop pl p a = Some x -> pl_linked pl p x = true.
Proof.
  intros (G & I & L). unfold hop. destruct (a_zone a) as [|q]; [discriminate|]. destruct (q =? p)%Z; [discriminate|]. destruct (wan_next_hop (pl_routes pl) p q) as [y|] eqn:W; [|discriminate]. destruct (y =? 0)%Z; [discriminate|]. intros [= <-].
  unfold wan_next_hop in W. destruct (get2 (pl_routes pl) p q) as [[|z r]|] eqn:X; try discriminate. injection W as ->. apply L.
  pose proof (snd_walk _ _ (i_sound _ _ I) _ _ _ X) as Wk. inversion Wk; subst; assumption.
Qed.
