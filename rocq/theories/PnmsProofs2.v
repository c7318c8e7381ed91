From Coq Require Import String.
From Coq Require Import List ZArith Bool Lia.
From Verif Require Import PyBase PyLemmas AddrModel PnmsModel PnmsSpec PnmsProofs.
Import ListNotations.
Open Scope nat_scope.

Definition tidy (c : config) : Prop := forall d a, dget (g_connections c) d = Some a -> dhas (g_devices c) a = true.
Lemma tidy_clean c : wf c -> tidy (clean c).
Proof.
  intros W d a H. cbn in *. rewrite dget_filter in H by apply W. destruct (dget (g_connections c) d) as [a'|]; [|discriminate]. cbn [snd] in H.
  destruct (dhas (g_devices c) a') eqn:E; [|discriminate]. congruence.
Qed.
Lemma get_ready c m f n : ready c m -> plain n ->
  get_device (S f) n m = (Ok (if dhas (g_devices c) n then Some n else None), m).
Proof.
  intros [R1 R2 R3 R4] P. destruct (dhas (g_devices c) n) eqn:E.
  - apply get_loaded; [apply P|]. apply R4. now apply dhas_in.
  - apply dhas_false in E. apply get_absent; [apply P| |].
    + intros X. apply R4 in X. apply dget_none in E. contradiction.
    + unfold sec_get. rewrite plain_lower by exact P. now rewrite R1.
Qed.
Lemma kind_vnic t : type_kind t = Some Iface <-> eqb t (lit "vnic") = true.
Proof. unfold type_kind. destruct (eqb t (lit "vnic")); [tauto|]. destruct (_ || _); split; discriminate. Qed.
Lemma kind_access t : type_kind t = Some Access <-> eqb t (lit "switch") || eqb t (lit "unreliable_switch") = true.
Proof.
  unfold type_kind. destruct (eqb t (lit "vnic")) eqn:E.
  - apply eqb_t in E. subst. split; [discriminate|]. vm_compute. discriminate.
  - destruct (_ || _); split; congruence.
Qed.
Lemma kind_ready c m n : ready c m -> plain n -> kind_of m n = match dget (g_devices c) n with Some t => type_kind t | None => None end.
Proof. intros R P. unfold kind_of, sec_get. rewrite plain_lower by exact P. now rewrite (r_mem _ _ R). Qed.
Lemma iface_kind c d : iface (net_of c) d = match dget (g_devices c) d with Some t => match type_kind t with Some Iface => true | _ => false end | None => false end.
Proof.
  unfold iface. cbn [net_of t_dev]. destruct (dget (g_devices c) d) as [t|]; [|reflexivity]. destruct (type_kind t) as [[|]|] eqn:K.
  - now apply kind_vnic.
  - destruct (eqb t (lit "vnic")) eqn:E; [|reflexivity]. apply (proj2 (kind_vnic t)) in E. congruence.
  - destruct (eqb t (lit "vnic")) eqn:E; [|reflexivity]. apply (proj2 (kind_vnic t)) in E. congruence.
Qed.
Lemma access_kind c d : access (net_of c) d = match dget (g_devices c) d with Some t => match type_kind t with Some Access => true | _ => false end | None => false end.
Proof.
  unfold access. cbn [net_of t_dev]. destruct (dget (g_devices c) d) as [t|]; [|reflexivity]. destruct (type_kind t) as [[|]|] eqn:K.
  - destruct (_ || _) eqn:E; [|reflexivity]. apply (proj2 (kind_access t)) in E. congruence.
  - now apply kind_access.
  - destruct (_ || _) eqn:E; [|reflexivity]. apply (proj2 (kind_access t)) in E. congruence.
Qed.
Lemma owner_dget c r : owner (net_of c) r = dget (g_routes c) r.
Proof.
  unfold owner. cbn. induction (g_routes c) as [|[k v] l IH]; [reflexivity|]. cbn. unfold eqb.
  destruct (eq_dec k r) as [->|N]; destruct (eq_dec r _) as [E|N']; try congruence; try reflexivity. exact IH.
Qed.
Lemma dset_give (s : section) r d : NoDup (dkeys s) -> dset s r d = give_route r d s.
Proof.
  unfold give_route, dkeys. induction s as [|[k v] l IH]; intros ND; [reflexivity|]. cbn [dset existsb map fst] in *. inversion ND as [|? ? NI ND']; subst. specialize (IH ND').
  unfold eqb at 1 3. destruct (eq_dec k r) as [->|N]; destruct (eq_dec r _) as [E|N']; try congruence.
  - cbn [orb]. f_equal. symmetry. clear - NI. induction l as [|[a b] l IH]; [reflexivity|]. cbn in *. rewrite IH by tauto. unfold eqb. destruct (eq_dec a r); [exfalso; tauto|reflexivity].
  - cbn [orb]. rewrite IH. destruct (existsb _ l); reflexivity.
Qed.
Lemma dset_new (s : section) r d : ~ In r (dkeys s) -> dset s r d = s ++ [(r, d)].
Proof.
  unfold dkeys. induction s as [|[k v] l IH]; intros N; [reflexivity|]. cbn in *. destruct (eq_dec r k) as [->|_]; [exfalso; auto|]. rewrite IH by tauto. reflexivity.
Qed.

(** ** Removing routes *)
Lemma remove_routes_ok dev : forall rs s, NoDup (dkeys s) -> NoDup rs -> (forall r, In r rs -> lower r = r /\ dget s r = Some dev) ->
  remove_routes rs dev s = Ok (filter (fun p => negb (smem rs (fst p))) s).
Proof.
  induction rs as [|r rs IH]; intros s ND NR H.
  - cbn. f_equal. symmetry. apply filter_all. intros; reflexivity.
  - inversion NR as [|? ? NI NR']; subst. destruct (H r (or_introl eq_refl)) as [Lr Gr]. cbn [remove_routes].
    unfold remove_route, in_adapter, sec_get, sec_del. rewrite Lr, Gr, eqb_refl. rewrite (smem_i (dkeys s) r) by (eapply dget_some_in_keys; eauto). cbn [negb].
    rewrite IH; [| now apply nodup_ddel | exact NR' |].
    + f_equal. rewrite ddel_filter by exact ND. rewrite filter_filter. apply filter_ext_in'. intros [k v] I. cbn [fst].
      unfold smem. destruct (eqb k r) eqn:E.
      * apply eqb_t in E. subst k. cbn [negb andb]. destruct (in_dec eq_dec r (r :: rs)) as [_|X]; [reflexivity|exfalso; apply X; now left].
      * apply eqb_f in E. cbn [negb andb]. f_equal. destruct (in_dec eq_dec k rs) as [X|X]; destruct (in_dec eq_dec k (r :: rs)) as [Y|Y]; try reflexivity.
        -- exfalso. apply Y. now right.
        -- destruct Y as [Y|Y]; [congruence|contradiction].
    + intros z Z. destruct (H z (or_intror Z)) as [Lz Gz]. split; [exact Lz|]. rewrite dget_ddel_other; [exact Gz|]. intros ->. contradiction.
Qed.
Lemma routes_of_spec (s : section) d : NoDup (dkeys s) -> NoDup (routes_of s d) /\ forall r, In r (routes_of s d) <-> dget s r = Some d.
Proof.
  intros ND. split.
  - unfold routes_of. apply (nodup_filter_keys _ s ND).
  - intros r. unfold routes_of. split.
    + intros I. apply in_map_iff in I as ([k v] & E & I). cbn in E. subst k. apply filter_In in I as [I F]. cbn in F. apply eqb_t in F. subst v. now apply in_dget.
    + intros G. apply in_map_iff. exists (r, d). split; [reflexivity|]. apply filter_In. split; [now apply dget_in|]. cbn. apply eqb_refl.
Qed.
Lemma remove_all_routes c d : wf c -> remove_routes (routes_of (g_routes c) d) d (g_routes c) = Ok (filter (fun p => negb (eqb (snd p) d)) (g_routes c)).
Proof.
  intros W. destruct (routes_of_spec (g_routes c) d (w_rnd _ W)) as [N S]. rewrite remove_routes_ok; [|apply W|exact N|].
  - f_equal. apply filter_ext_in'. intros [k v] I. cbn [fst snd]. f_equal. apply (in_dget _ _ _ (w_rnd _ W)) in I.
    destruct (eqb v d) eqn:E.
    + apply eqb_t in E. subst v. apply smem_i. now apply S.
    + unfold smem. destruct (in_dec eq_dec k (routes_of (g_routes c) d)) as [X|X]; [|reflexivity]. apply S in X. apply eqb_f in E. congruence.
  - intros r I. apply S in I. split; [|exact I]. now apply (w_route _ W) in I.
Qed.

(** ** The commands, with everything loaded *)
Definition outcome (k : command) (c : config) (o : res unit * mgr) : Prop :=
  let c' := n_file (snd o) in
  wf c' /\
  match effect k (net_of c) with
  | Some n' => fst o = Ok tt /\ (lasting k -> net_eq (net_of c') n') /\ (~ lasting k -> c' = c)
  | None => (exists e, fst o = Raise e) /\ c' = c
  end.
Lemma add_ok c m d t args : wf c -> tidy c -> ready c m -> plain d -> outcome (CAdd d t args) c (add_device d t args m).
Proof.
  intros W T R P. destruct R as [R1 R2 R3 R4]. unfold outcome, add_device. rewrite R1. unfold sec_has. rewrite plain_lower by exact P.
  cbn [effect]. cbn [net_of t_dev]. unfold dhas. destruct (dget (g_devices c) d) as [t0|] eqn:E.
  { cbn [fst snd]. rewrite R2. split; [exact W|]. split; [eauto|reflexivity]. }
  destruct (type_kind t) as [kd|] eqn:K; [|cbn [fst snd]; rewrite R2; split; [exact W|]; split; [eauto|reflexivity]].
  unfold sec_set. rewrite ?plain_lower by exact P.
  set (c1 := Config (dset (g_devices c) d t) (g_connections c) (g_routes c) (dset (g_sections c) d [])).
  assert (Em : set_mem m c1 = Mgr c1 (n_file m) (n_objs m)) by reflexivity. rewrite Em. set (m1 := Mgr c1 (n_file m) (n_objs m)).
  assert (NI : ~ In d (n_objs m)). { intros X. apply R4 in X. apply dget_none in E. contradiction. }
  assert (NC : dget (g_connections c) d = None).
  { destruct (dget (g_connections c) d) as [a|] eqn:Ec; [|reflexivity]. destruct (w_conn _ W _ _ Ec) as ((t' & E' & _) & _). congruence. }
  assert (G : get_device (fuel_of (n_mem m1)) d m1 = (Ok (Some d), Mgr (n_mem m1) (n_file m) (d :: n_objs m))).
  { unfold fuel_of. cbn [get_device]. destruct (plain_cons d P) as (x & r & Ed). rewrite Ed at 1. change (n_objs m1) with (n_objs m). change (n_mem m1) with c1.
    destruct (smem (n_objs m) d) eqn:S; [apply smem_t in S; contradiction|]. unfold sec_get. rewrite plain_lower by exact P.
    change (g_devices c1) with (dset (g_devices c) d t). rewrite dget_dset_same, K.
    change (g_sections c1) with (dset (g_sections c) d (@nil (pystr * pystr))). unfold dhas at 1. rewrite dget_dset_same. cbn [negb].
    destruct kd; [|reflexivity]. unfold connected_to, sec_get. rewrite plain_lower by exact P. change (g_connections (n_mem (Mgr c1 (n_file m1) (d :: n_objs m)))) with (g_connections c). rewrite NC. reflexivity. }
  rewrite G. destruct (settings kd args) as [s|e].
  2:{ cbn [fst snd n_file]. rewrite R2. split; [exact W|]. split; [eauto|reflexivity]. }
  unfold m1, c1. cbn [fst snd n_file save set_mem n_mem g_devices g_connections g_routes g_sections].
  assert (ND : ~ In d (dkeys (g_devices c))) by now apply dget_none.
  split; [|split; [reflexivity|split]].
  - constructor; cbn [g_devices g_connections g_routes g_sections]; try apply W.
    + apply nodup_dset, W.
    + intros z Z. apply in_dkeys_dset in Z as [->|Z]; [exact P|now apply W].
    + intros z t' Z. rewrite dget_dset in Z. destruct (eq_dec z d); [|now apply (w_type _ W) in Z]. injection Z as <-. congruence.
    + intros z Z. unfold dhas. rewrite !dget_dset. destruct (eq_dec z d) as [->|Nz]; [reflexivity|]. apply in_dkeys_dset in Z as [Z|Z]; [congruence|]. exact (w_sec _ W z Z).
    + apply nodup_dset, nodup_dset, W.
    + intros z a Z. destruct (w_conn _ W _ _ Z) as ((tz & Ez & Kz) & Pa & Acc). split; [|split; [exact Pa|]].
      * exists tz. rewrite dget_dset_other; [auto|]. intros ->. congruence.
      * intros ta Ea. rewrite dget_dset_other in Ea; [auto|]. intros ->. specialize (T z d Z). apply dhas_true in T as [v T]. congruence.
    + intros r z Z. destruct (w_route _ W _ _ Z) as (Lr & tz & Ez & Kz). split; [exact Lr|]. exists tz. rewrite dget_dset_other; [auto|]. intros ->. congruence.
  - intros _. split; [|split; [|reflexivity]].
    + intros z. cbn. unfold upd. rewrite !dget_dset. destruct (eq_dec z d); reflexivity.
    + intros z. cbn. destruct (dget (g_connections c) z) as [a|] eqn:Ez; [|reflexivity]. pose proof (T z a Ez) as Ta. rewrite Ta. apply dhas_in in Ta.
      assert (X : dhas (dset (g_devices c) d t) a = true) by (apply dhas_in, in_dkeys_dset; auto). now rewrite X.
  - intros X. exfalso. apply X. exact I.
Qed.
Lemma disconnect_ready c m d : wf c -> ready c m -> plain d ->
  n_mem (disconnect m d) = Config (g_devices c) (ddel (g_connections c) d) (g_routes c) (g_sections c) /\
  n_file (disconnect m d) = Config (g_devices c) (ddel (g_connections c) d) (g_routes c) (g_sections c) /\ n_objs (disconnect m d) = n_objs m.
Proof.
  intros W [R1 R2 R3 R4] P. unfold disconnect, connected_to, sec_get. rewrite plain_lower by exact P. rewrite R1.
  destruct (dget (g_connections c) d) as [a|] eqn:E.
  - destruct (w_conn _ W _ _ E) as (_ & Pa & _). destruct (plain_cons a Pa) as (x & r & ->).
    unfold in_adapter. rewrite (smem_i (dkeys (g_connections c)) d) by (eapply dget_some_in_keys; eauto).
    unfold sec_del. rewrite plain_lower by exact P. unfold set_connections, set_mem, save. rewrite R1. cbn. auto.
  - apply dget_none in E. rewrite ddel_absent by exact E. rewrite R1, R2. destruct c; auto.
Qed.
Lemma remove_ok c m d : wf c -> tidy c -> ready c m -> plain d -> outcome (CRemove d) c (remove_device d m).
Proof.
  intros W T R P. pose proof R as [R1 R2 R3 R4]. unfold outcome, remove_device. rewrite R1. unfold sec_has. rewrite plain_lower by exact P.
  cbn [effect]. cbn [net_of t_dev]. destruct (dget (g_devices c) d) as [t|] eqn:E.
  2:{ unfold dhas. rewrite E. cbn [negb fst snd]. rewrite R2. split; [exact W|]. split; [reflexivity|]. split; [intros _; apply net_eq_refl|reflexivity]. }
  assert (Hd : dhas (g_devices c) d = true) by (unfold dhas; now rewrite E).
  unfold fuel_of. rewrite Hd. cbn [negb]. rewrite (get_ready c m _ d R P), Hd. rewrite (kind_ready c m d R P), E.
  set (cf := Config (ddel (g_devices c) d) (ddel (g_connections c) d) (filter (fun p => negb (eqb (snd p) d)) (g_routes c)) (ddel (g_sections c) d)).
  assert (Wf : wf cf).
  { constructor; unfold cf; cbn [g_devices g_connections g_routes g_sections].
    - apply nodup_ddel, W.
    - intros z Z. apply in_map_iff in Z as (p & <- & Z). apply in_ddel in Z as [Z _]; [|apply W]. apply (w_plain _ W). now apply in_map.
    - intros z t' Z. rewrite dget_ddel in Z by apply W. destruct (eq_dec z d); [discriminate|]. now apply (w_type _ W) in Z.
    - intros z Z. apply in_map_iff in Z as (p & <- & Z). apply in_ddel in Z as [Z N]; [|apply W]. unfold dhas. rewrite dget_ddel_other by exact N. apply (w_sec _ W). now apply in_map.
    - apply nodup_ddel, W.
    - apply nodup_ddel, W.
    - intros z a Z. rewrite dget_ddel in Z by apply W. destruct (eq_dec z d); [discriminate|]. destruct (w_conn _ W _ _ Z) as ((tz & Ez & Kz) & Pa & Acc).
      split; [exists tz; rewrite dget_ddel_other; auto|]. split; [exact Pa|]. intros ta Ea. rewrite dget_ddel in Ea by apply W. destruct (eq_dec a d); [discriminate|]. auto.
    - apply nodup_filter_keys, W.
    - intros r z Z. rewrite dget_filter in Z by apply W. destruct (dget (g_routes c) r) as [z'|] eqn:Er; [|discriminate]. cbn [snd] in Z. destruct (eqb z' d) eqn:Ez; [discriminate|].
      cbn in Z. injection Z as ->. apply eqb_f in Ez. destruct (w_route _ W _ _ Er) as (Lr & tz & Et & Kt). split; [exact Lr|]. exists tz. rewrite dget_ddel_other; auto. }
  assert (Ne : net_eq (net_of cf) (Net (upd (t_dev (net_of c)) d None)
      (fun x => if eq_dec x d then None else match t_conn (net_of c) x with Some y => if eq_dec y d then None else Some y | None => None end)
      (filter (fun p => negb (eqb (snd p) d)) (t_routes (net_of c))))).
  { split; [|split; [|reflexivity]].
    - intros z. cbn. unfold upd. rewrite dget_ddel by apply W. destruct (eq_dec z d); [reflexivity|]. rewrite dget_ddel_other by assumption. reflexivity.
    - intros z. cbn. rewrite dget_ddel by apply W. destruct (eq_dec z d); [reflexivity|]. destruct (dget (g_connections c) z) as [a|]; [|reflexivity].
      unfold dhas. rewrite dget_ddel by apply W. destruct (eq_dec a d) as [->|N]; [rewrite E; destruct (eq_dec d d); [reflexivity|congruence]|]. destruct (dget (g_devices c) a); [|reflexivity]. now destruct (eq_dec a d). }
  destruct (type_kind t) as [[|]|] eqn:K; [| |exfalso; now apply (w_type _ W _ _ E)].
  - destruct (disconnect_ready c m d W R P) as (D1 & D2 & D3). rewrite D1. cbn [g_routes].
    rewrite (remove_all_routes c d W). cbn [fst snd]. unfold set_routes, set_mem, save. rewrite D1. cbn [n_mem n_file g_devices g_connections g_routes g_sections].
    unfold sec_del. rewrite plain_lower by exact P. fold cf. split; [exact Wf|]. split; [reflexivity|]. split; [intros _; exact Ne|]. intros X; exfalso; apply X; exact I.
  - cbn [fst snd]. unfold save. cbn [n_mem n_file]. rewrite R1. unfold sec_del. rewrite plain_lower by exact P.
    assert (Ec : ddel (g_connections c) d = g_connections c).
    { apply ddel_absent. intros X. apply dhas_in, dhas_true in X as [a X]. destruct (w_conn _ W _ _ X) as ((t' & E' & K') & _). congruence. }
    assert (Er : filter (fun p => negb (eqb (snd p) d)) (g_routes c) = g_routes c).
    { apply filter_all. intros [k v] I'. cbn [snd]. destruct (eqb v d) eqn:Ev; [|reflexivity]. apply eqb_t in Ev. subst v. apply (in_dget _ _ _ (w_rnd _ W)) in I'.
      destruct (w_route _ W _ _ I') as (_ & t' & E' & K'). congruence. }
    unfold cf in *. rewrite Ec, Er in *. split; [exact Wf|]. split; [reflexivity|]. split; [intros _; exact Ne|]. intros X; exfalso; apply X; exact I.
Qed.
Lemma with_iface_ready c m d k : ready c m -> plain d ->
  with_iface d m k = if iface (net_of c) d then k m else (Raise (if dhas (g_devices c) d then AttributeError else GenericException), m).
Proof.
  intros R P. unfold with_iface, fuel_of. rewrite (get_ready c m _ d R P), iface_kind. unfold dhas. destruct (dget (g_devices c) d) as [t|] eqn:E; [|reflexivity].
  rewrite (kind_ready c m d R P), E. destruct (type_kind t) as [[|]|]; reflexivity.
Qed.
Lemma refused c m k e : wf c -> ready c m -> effect k (net_of c) = None -> outcome k c (Raise e, m).
Proof. intros W R E. unfold outcome. rewrite E. cbn [fst snd]. rewrite (r_file _ _ R). split; [exact W|]. split; [eauto|reflexivity]. Qed.
Lemma wf_conns c s : wf c -> NoDup (dkeys s) -> 
  (forall d a, dget s d = Some a -> vnic_in (g_devices c) d /\ plain a /\ forall t, dget (g_devices c) a = Some t -> type_kind t = Some Access) ->
  wf (Config (g_devices c) s (g_routes c) (g_sections c)).
Proof. intros W N H. constructor; cbn; try apply W; auto. Qed.
Lemma wf_routes c s : wf c -> NoDup (dkeys s) -> (forall r d, dget s r = Some d -> lower r = r /\ vnic_in (g_devices c) d) ->
  wf (Config (g_devices c) (g_connections c) s (g_sections c)).
Proof. intros W N H. constructor; cbn; try apply W; auto. Qed.
Lemma iface_in c d : iface (net_of c) d = true -> vnic_in (g_devices c) d.
Proof.
  rewrite iface_kind. unfold vnic_in. destruct (dget (g_devices c) d) as [t|]; [|discriminate]. destruct (type_kind t) as [[|]|] eqn:K; try discriminate. eauto.
Qed.
Lemma connect_ok c m d a : wf c -> tidy c -> ready c m -> plain d -> plain a -> outcome (CConnect d a) c (connect d a m).
Proof.
  intros W T R P Pa. unfold connect. rewrite (with_iface_ready c m d _ R P). destruct (iface (net_of c) d) eqn:F.
  2:{ apply refused; auto. cbn [effect]. now rewrite F. }
  unfold fuel_of. rewrite (get_ready c m _ a R Pa). pose proof (access_kind c a) as A. unfold dhas. destruct (dget (g_devices c) a) as [t|] eqn:E.
  2:{ apply refused; auto. cbn [effect]. now rewrite F, A. }
  rewrite (kind_ready c m a R Pa), E. destruct (type_kind t) as [[|]|] eqn:K.
  - apply refused; auto. cbn [effect]. now rewrite F, A.
  - pose proof R as [R1 R2 R3 R4]. unfold outcome. cbn [effect]. rewrite F, A. cbn [andb fst snd].
    unfold set_connections, set_mem, save. rewrite R1. cbn [n_mem n_file]. unfold sec_set. rewrite plain_lower by exact P.
    split; [|split; [reflexivity|split]].
    + apply wf_conns; [exact W|apply nodup_dset, W|]. intros z b Z. rewrite dget_dset in Z. destruct (eq_dec z d) as [->|]; [|now apply (w_conn _ W) in Z].
      injection Z as <-. split; [now apply iface_in|]. split; [exact Pa|]. congruence.
    + intros _. split; [reflexivity|]. split; [|reflexivity]. intros z. cbn. unfold upd. rewrite dget_dset. destruct (eq_dec z d); [|reflexivity]. unfold dhas. now rewrite E.
    + intros X; exfalso; apply X; exact I.
  - apply refused; auto. cbn [effect]. now rewrite F, A.
Qed.
Lemma disconnect_ok c m d : wf c -> tidy c -> ready c m -> plain d -> outcome (CDisconnect d) c (with_iface d m (fun m1 => (Ok tt, disconnect m1 d))).
Proof.
  intros W T R P. rewrite (with_iface_ready c m d _ R P). destruct (iface (net_of c) d) eqn:F.
  2:{ apply refused; auto. cbn [effect]. now rewrite F. }
  unfold outcome. cbn [effect]. rewrite F. cbn [fst snd]. destruct (disconnect_ready c m d W R P) as (D1 & D2 & D3). rewrite D2.
  split; [|split; [reflexivity|split]].
  - apply wf_conns; [exact W|apply nodup_ddel, W|]. intros z b Z. rewrite dget_ddel in Z by apply W. destruct (eq_dec z d); [discriminate|]. now apply (w_conn _ W) in Z.
  - intros _. split; [reflexivity|]. split; [|reflexivity]. intros z. cbn. unfold upd. rewrite dget_ddel by apply W. destruct (eq_dec z d); reflexivity.
  - intros X; exfalso; apply X; exact I.
Qed.
Lemma route_add_ok c m d r : wf c -> tidy c -> ready c m -> plain d -> plain r -> outcome (CRouteAdd d r) c (route_add d r m).
Proof.
  intros W T R P Pr. unfold route_add. rewrite (with_iface_ready c m d _ R P). destruct (iface (net_of c) d) eqn:F.
  2:{ apply refused; auto. cbn [effect]. now rewrite F. }
  pose proof R as [R1 R2 R3 R4]. rewrite R1. unfold is_default. destruct (eqb r (lit "default")) eqn:D.
  - unfold outcome. cbn [effect]. rewrite F, D. cbn [fst snd]. unfold set_routes, set_mem, save. rewrite R1. cbn [n_mem n_file].
    unfold set_default_route, sec_set. rewrite default_lower. split; [|split; [reflexivity|split]].
    + apply wf_routes; [exact W|apply nodup_dset, W|]. intros z b Z. rewrite dget_dset in Z. destruct (eq_dec z default_key) as [->|]; [|now apply (w_route _ W) in Z].
      injection Z as <-. split; [apply default_lower|now apply iface_in].
    + intros _. split; [reflexivity|]. split; [reflexivity|]. cbn [net_of t_routes g_routes]. apply dset_give, W.
    + intros X; exfalso; apply X; exact I.
  - unfold add_route, in_adapter. destruct (smem (dkeys (g_routes c)) r) eqn:S.
    + apply smem_t in S. apply refused; auto. cbn [effect]. rewrite F, D, owner_dget. destruct (dget (g_routes c) r) eqn:G; [reflexivity|]. apply dget_none in G. contradiction.
    + assert (NI : ~ In r (dkeys (g_routes c))). { intros X. apply smem_i in X. congruence. }
      unfold outcome. cbn [effect]. rewrite F, D, owner_dget. assert (G : dget (g_routes c) r = None) by now apply dget_none. rewrite G. cbn [fst snd].
      unfold set_routes, set_mem, save. rewrite R1. cbn [n_mem n_file]. unfold sec_set. rewrite plain_lower by exact Pr. split; [|split; [reflexivity|split]].
      * apply wf_routes; [exact W|apply nodup_dset, W|]. intros z b Z. rewrite dget_dset in Z. destruct (eq_dec z r) as [->|]; [|now apply (w_route _ W) in Z].
        injection Z as <-. split; [now apply plain_lower|now apply iface_in].
      * intros _. split; [reflexivity|]. split; [reflexivity|]. cbn [net_of t_routes g_routes]. now apply dset_new.
      * intros X; exfalso; apply X; exact I.
Qed.
Lemma eqb_opt_true (x : option pystr) d : eqb x (Some d) = true -> x = Some d.
Proof. apply eqb_t. Qed.
Lemma route_remove_ok c m d r : wf c -> tidy c -> ready c m -> plain d -> plain r -> outcome (CRouteRemove d r) c (route_remove d r m).
Proof.
  intros W T R P Pr. unfold route_remove. rewrite (with_iface_ready c m d _ R P). destruct (iface (net_of c) d) eqn:F.
  2:{ apply refused; auto. cbn [effect]. now rewrite F. }
  pose proof R as [R1 R2 R3 R4]. rewrite R1. unfold is_default. destruct (eqb r (lit "default")) eqn:D.
  - unfold unset_default_route, sec_get. rewrite default_lower. change (lit "__default__") with default_key. destruct (eqb (dget (g_routes c) default_key) (Some d)) eqn:G.
    + unfold outcome. cbn [effect]. rewrite F, D. change (lit "__default__") with default_key. rewrite owner_dget, G. cbn [andb fst snd].
      unfold set_routes, set_mem, save. rewrite R1. cbn [n_mem n_file]. unfold sec_del. rewrite default_lower. split; [|split; [reflexivity|split]].
      * apply wf_routes; [exact W|apply nodup_ddel, W|]. intros z b Z. rewrite dget_ddel in Z by apply W. destruct (eq_dec z default_key); [discriminate|]. now apply (w_route _ W) in Z.
      * intros _. split; [reflexivity|]. split; [reflexivity|]. cbn [net_of t_routes g_routes]. apply ddel_filter, W.
      * intros X. exfalso. apply X. cbn. now apply eqb_t.
    + apply refused; auto. cbn [effect]. rewrite F, D. change (lit "__default__") with default_key. now rewrite owner_dget, G.
  - unfold remove_route, in_adapter, sec_get. rewrite plain_lower by exact Pr.
    destruct (smem (dkeys (g_routes c)) r) eqn:S; cbn [negb].
    + destruct (eqb (dget (g_routes c) r) (Some d)) eqn:G; cbn [negb].
      * unfold outcome. cbn [effect]. rewrite F, D, owner_dget, G. cbn [andb fst snd n_file set_routes set_mem]. rewrite R2. split; [exact W|]. split; [reflexivity|]. split; [|reflexivity].
        intros L. cbn in L. rewrite L, eqb_refl in D. discriminate.
      * apply refused; auto. cbn [effect]. now rewrite F, D, owner_dget, G.
    + apply refused; auto. cbn [effect]. rewrite F, D, owner_dget. assert (G : dget (g_routes c) r = None) by (apply dget_none; intros X; apply smem_i in X; congruence). rewrite G. reflexivity.
Qed.
Lemma exec_ok c m k : wf c -> tidy c -> ready c m -> plain_command k -> outcome k c (exec k m).
Proof.
  intros W T R P. destruct k as [d t a|d|d a|d|d r|d r|]; cbn [exec plain_command] in *.
  - now apply add_ok.
  - now apply remove_ok.
  - now apply connect_ok.
  - now apply disconnect_ok.
  - now apply route_add_ok.
  - now apply route_remove_ok.
  - unfold outcome. cbn [effect fst snd]. rewrite (r_file _ _ R). split; [exact W|]. split; [reflexivity|]. split; [intros _; apply net_eq_refl|reflexivity].
Qed.
Lemma effect_eq k a b : net_eq a b -> match effect k a, effect k b with Some x, Some y => net_eq x y | None, None => True | _, _ => False end.
Proof.
  intros (E1 & E2 & E3).
  assert (If : forall d, iface a d = iface b d) by (intros d; unfold iface; now rewrite E1).
  assert (Ac : forall d, access a d = access b d) by (intros d; unfold access; now rewrite E1).
  assert (Ow : forall d, owner a d = owner b d) by (intros d; unfold owner; now rewrite E3).
  destruct k as [d t args|d|d x|d|d r|d r|]; cbn [effect]; rewrite <- ?If, <- ?Ac.
  - rewrite E1. destruct (t_dev b d); [exact I|]. destruct (type_kind t); [|exact I]. destruct (settings _ _); [|exact I].
    repeat split; cbn; auto. intros z. unfold upd. destruct (eq_dec z d); auto.
  - rewrite E1. destruct (t_dev b d); [|repeat split; auto]. repeat split; cbn; auto.
    + intros z. unfold upd. destruct (eq_dec z d); auto.
    + intros z. destruct (eq_dec z d); [reflexivity|]. now rewrite E2.
    + now rewrite E3.
  - destruct (_ && _); [|exact I]. repeat split; cbn; auto. intros z. unfold upd. destruct (eq_dec z d); auto.
  - destruct (iface a d); [|exact I]. repeat split; cbn; auto. intros z. unfold upd. destruct (eq_dec z d); auto.
  - destruct (iface a d); [|exact I]. destruct (eqb r (lit "default")); [repeat split; cbn; auto; now rewrite E3|]. rewrite <- Ow. destruct (owner a r); [exact I|].
    repeat split; cbn; auto. now rewrite E3.
  - rewrite <- Ow. destruct (_ && _); [|exact I]. repeat split; cbn; auto. now rewrite E3.
  - repeat split; auto.
Qed.
Lemma run_ok c k : wf c -> plain_command k ->
  wf (snd (run k c)) /\
  match effect k (net_of c) with
  | Some n' => fst (run k c) = Ok tt /\ (lasting k -> net_eq (net_of (snd (run k c))) n') /\ (~ lasting k -> net_eq (net_of (snd (run k c))) (net_of c))
  | None => (exists e, fst (run k c) = Raise e) /\ net_eq (net_of (snd (run k c))) (net_of c)
  end.
Proof.
  intros W P. destruct (load_ok c W) as (m & L & R). unfold run. rewrite L. cbn [fst snd].
  pose proof (exec_ok (clean c) m k (wf_clean c W) (tidy_clean c W) R P) as O. unfold outcome in O. destruct (exec k m) as [r m']. cbn [fst snd] in *.
  pose proof (net_clean c W) as NC. pose proof (effect_eq k _ _ NC) as EE. destruct O as [W' O]. split; [exact W'|].
  destruct (effect k (net_of (clean c))) as [x|]; destruct (effect k (net_of c)) as [y|]; try contradiction.
  - destruct O as (O1 & O2 & O3). split; [exact O1|]. split; [intros Lk; eapply net_eq_trans; eauto|]. intros Lk. now rewrite (O3 Lk).
  - destruct O as (O1 & O2). split; [exact O1|]. now rewrite O2.
Qed.
