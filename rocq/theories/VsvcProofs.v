From Coq Require Import String.
From Coq Require Import List ZArith Bool Lia.
From Verif Require Import PyBase PyLemmas AddrModel AddrSpec PnmsModel PnmsSpec PnmsProofs PnmsProofs2 PnmsProofs3 PnmsProps.
From Verif Require Import DeviceModel DeviceSpec DeviceProofs DeviceProofs2 DeviceProofs3 DeviceProps VsvcModel VsvcSpec.
Import ListNotations.
Open Scope nat_scope.

(** ** The devices of a good configuration *)
Lemma devices_keys c : dkeys (devices c) = dkeys (g_devices c).
Proof. unfold devices, dkeys. rewrite map_map. now apply map_ext. Qed.
Lemma devices_get c d : dget (devices c) d = match dget (g_devices c) d with Some t => Some (device_of c d t) | None => None end.
Proof.
  unfold devices. induction (g_devices c) as [|[k t] r IH]; [reflexivity|]. cbn [map dget fst snd].
  repeat match goal with |- context [eq_dec ?a ?b] => destruct (eq_dec a b) end; subst; try congruence; exact IH.
Qed.
Lemma devices_has c d : dhas (devices c) d = dhas (g_devices c) d.
Proof.
  destruct (dhas (g_devices c) d) eqn:E.
  - apply dhas_true in E as [t E]. apply dhas_true. rewrite devices_get, E. eauto.
  - apply dhas_false in E. apply dhas_false. now rewrite devices_get, E.
Qed.
Lemma iface_lower c d t : wf c -> dget (g_devices c) d = Some t -> lower d = d.
Proof. intros W E. apply plain_lower, (w_plain _ W). eapply dget_some_in_keys; eauto. Qed.
Lemma devices_good c : wf c -> tidy c -> good_net (devices c).
Proof.
  intros W T. constructor.
  - rewrite devices_keys. apply W.
  - intros d v a E K. rewrite devices_get in E. destruct (dget (g_devices c) d) as [t|] eqn:Et; [|discriminate]. injection E as <-. cbn [v_kind device_of] in K.
    destruct (type_kind t) as [[|]|]; try discriminate; injection K as K; unfold sec_get in K; rewrite (iface_lower c d t W Et) in K.
    all: destruct (w_conn _ W _ _ K) as (_ & _ & A); pose proof (T _ _ K) as H; apply dhas_true in H as [ta H]; specialize (A _ H);
      eexists _, _; rewrite devices_get, H; unfold device_of; rewrite A; reflexivity.
Qed.

Lemma net_option c d o : wf c -> lower o = o -> dhas (g_devices c) d = true -> setting c d o = option_of (net_of c) d o.
Proof.
  intros W L H. unfold setting, option_of, net_of. cbn [t_dev]. apply dhas_true in H as [t H]. rewrite H.
  destruct (dget (g_sections c) d) as [s|]; [|reflexivity]. unfold sec_get. now rewrite L.
Qed.
Lemma remote_spec c d t : wf c -> dget (g_devices c) d = Some t -> remote_ap c d = is_remote_ap (net_of c) d.
Proof. intros W E. unfold remote_ap, is_remote_ap. rewrite (net_option c d _ W); [reflexivity|reflexivity|]. apply dhas_true. eauto. Qed.

(** ** The service after it was made *)
Definition started (c : config) (os : pystr -> osd) (d : pystr) : status := lst (devices c) os d.
Record SInv (c : config) (os0 : pystr -> osd) (v : vsvc) : Prop := {
  si_mgr : exists m, vs_mgr v = Some m /\ PnmsProofs.ready c m;
  si_status : forall d, dhas (g_devices c) d = true -> dget (s_status (vs_dst v)) d = Some (started c os0 d)
}.
Lemma vs_new_ok c w os0 : wf c -> stops_work w ->
  SInv (clean c) os0 (vs_new (Some c) w os0) /\
  forall d, dhas (g_devices c) d = true -> running (vs_dst (vs_new (Some c) w os0)) d = lup (devices (clean c)) os0 d.
Proof.
  intros W K. unfold vs_new. destruct (load_ok c W) as (m & L & R). rewrite L. destruct R as [R1 R2 R3 R4].
  rewrite R1. pose proof (wf_clean c W) as Wc. pose proof (tidy_clean c W) as Tc. pose proof (devices_good _ Wc Tc) as G.
  destruct (load_sp (devices (clean c)) w G os0) as (r & s & E & P). unfold DeviceModel.load_all in *. rewrite E.
  destruct P as [(-> & [j J] & _)|(-> & I & Ru & St & _)]; [rewrite K in J; discriminate|]. split.
  - constructor; cbn [vs_mgr vs_dst snd].
    + exists m. split; [reflexivity|]. constructor; auto.
    + intros d H. rewrite <- devices_has in H. pose proof (St d H) as Z. unfold status_of in Z. unfold started.
      assert (X : In d (dkeys (s_status s))). { apply (i_keys _ _ I). now apply dhas_in. }
      apply dhas_in, dhas_true in X as [x X]. rewrite X in Z |- *. congruence.
  - intros d H. cbn [vs_dst snd]. change (g_devices c) with (g_devices (clean c)) in H. rewrite <- devices_has in H. destruct (Ru d) as [Z|Z]; congruence.
Qed.

(** [works], of the network *)
Lemma status_iface c os d t : wf c -> tidy c -> dget (g_devices c) d = Some t -> type_kind t = Some Iface ->
  lup (devices c) os d = works (net_of c) os d /\ is_on (started c os d) = works (net_of c) os d.
Proof.
  intros W T E Kt. assert (A : lup (devices c) os d = works (net_of c) os d).
  { unfold lup, stranded, works, is_iface, DeviceSpec.ready, up. rewrite devices_get, E. unfold device_of. rewrite Kt. cbn [v_kind].
    change (os_running (os d)) with (runs_at os d). unfold sec_get. rewrite (iface_lower c d t W E). unfold net_of at 1. cbn [t_conn].
    destruct (dget (g_connections c) d) as [a|] eqn:Ca; [|destruct (runs_at os d); reflexivity].
    pose proof (T _ _ Ca) as Ha. rewrite Ha. apply dhas_true in Ha as [ta Ha]. destruct (w_conn _ W _ _ Ca) as (_ & _ & Ka). specialize (Ka _ Ha).
    unfold usable. rewrite devices_get, Ha. unfold device_of. rewrite Ka. cbn [v_kind]. rewrite <- (remote_spec c a ta W Ha).
    destruct (remote_ap c a); cbn [orb]; [destruct (runs_at os d); reflexivity|]. change (os_running (os a)) with (runs_at os a). destruct (runs_at os d), (runs_at os a); reflexivity. }
  split; [exact A|]. unfold started, lst. rewrite A. destruct (works _ os d); [reflexivity|]. destruct (up os d); reflexivity.
Qed.
Lemma status_access c os d t : wf c -> dget (g_devices c) d = Some t -> type_kind t = Some Access ->
  lup (devices c) os d = runs_at os d /\ is_on (started c os d) = runs_at os d.
Proof.
  intros W E Kt. assert (A : lup (devices c) os d = runs_at os d).
  { apply lup_ap. unfold is_iface. rewrite devices_get, E. unfold device_of. now rewrite Kt. }
  split; [exact A|]. unfold started, lst. rewrite A. unfold up. change (os_running (os d)) with (runs_at os d). destruct (runs_at os d); reflexivity.
Qed.

Section Calls.
  Context (c : config) (W : wf c) (T : tidy c) (os0 : pystr -> osd) (w : world) (line : pystr -> pystr).
  Notation n := (net_of c).

  Lemma inv_dst m s : vs_mgr m = Some s -> m = VSvc (Some s) (vs_dst m).
  Proof. destruct m as [x y]. cbn. now intros ->. Qed.
  Lemma conf_ok v : SInv c os0 v -> conf v = (inl c, v).
  Proof. intros [(m & E & R) _]. unfold conf. rewrite E. destruct R as [R _ _ _]. now rewrite R. Qed.
  Lemma get_ok v d : SInv c os0 v -> plain d -> vs_get w d v = (inl (if dhas (g_devices c) d then Some d else None), v).
  Proof.
    intros [(m & E & R) St] P. unfold vs_get. rewrite E. unfold fuel_of. rewrite (get_ready c m _ d R P).
    destruct (dhas (g_devices c) d) eqn:H; [|unfold ret; now rewrite <- (inv_dst v m E)].
    unfold load_one. replace (dhas (s_status (vs_dst v)) d) with true.
    - unfold ret. now rewrite <- (inv_dst v m E).
    - symmetry. apply dhas_true. rewrite (St d H). eauto.
  Qed.
  Lemma plain_dev d : dhas (g_devices c) d = true -> plain d.
  Proof. intros H. apply (w_plain _ W). now apply dhas_in. Qed.
  Lemma kind_sec d : dhas (g_devices c) d = true -> sec_get (g_devices c) d = dget (g_devices c) d.
  Proof. intros H. unfold sec_get. now rewrite (plain_lower d (plain_dev d H)). Qed.

  (** enabled, at any time *)
  Definition after_look (d : pystr) (live : bool) (v : vsvc) : vsvc := if live then v else VSvc (vs_mgr v) (unlink (vs_dst v) d).
  Lemma look_inv d b v : SInv c os0 v -> SInv c os0 (after_look d b v).
  Proof. intros [A B]. destruct b; [now constructor|]. constructor; [exact A|exact B]. Qed.
  Lemma if_enabled_ok v d t : SInv c os0 v -> dget (g_devices c) d = Some t -> remote (devices c) d = false ->
    let b := is_on (started c os0 d) in
    if_enabled line c d v = (place b (o_files (s_os (vs_dst v) d)) (line d), after_look d b v).
  Proof.
    intros [(m & E & R) St] Et Rm b. unfold if_enabled, DeviceModel.enabled. rewrite Rm. unfold status_of. rewrite (St d) by (apply dhas_true; eauto). fold b.
    destruct b; cbn [after_look].
    - replace (VSvc (vs_mgr v) (vs_dst v)) with v by now destruct v. unfold place, fail, andthen, port_of, of_res. destruct (o_files _); [|reflexivity].
      destruct (parse_int (line d)); reflexivity.
    - reflexivity.
  Qed.
  Lemma iface_tk d t : dget (g_devices c) d = Some t -> iface n d = true -> type_kind t = Some Iface.
  Proof. intros E H. rewrite iface_kind, E in H. destruct (type_kind t) as [[|]|]; congruence. Qed.
  Lemma access_tk d t : dget (g_devices c) d = Some t -> PnmsSpec.access n d = true -> type_kind t = Some Access.
  Proof. intros E H. rewrite access_kind, E in H. destruct (type_kind t) as [[|]|]; congruence. Qed.
  Lemma iface_dget d : iface n d = true -> exists t, dget (g_devices c) d = Some t /\ type_kind t = Some Iface.
  Proof. intros H. destruct (dget (g_devices c) d) as [t|] eqn:E; [|rewrite iface_kind, E in H; discriminate]. exists t. split; [reflexivity|]. now apply (iface_tk d). Qed.
  Lemma access_dget d : PnmsSpec.access n d = true -> exists t, dget (g_devices c) d = Some t /\ type_kind t = Some Access.
  Proof. intros H. destruct (dget (g_devices c) d) as [t|] eqn:E; [|rewrite access_kind, E in H; discriminate]. exists t. split; [reflexivity|]. now apply (access_tk d). Qed.

  Lemma location_plain v d : plain d -> vnic_location w line (Some d) v =
    andthen (vs_get w d v) (fun o v => match o with None => ret None v | Some d => andthen (tcp_location line d v) (fun l v => ret (Some l) v) end).
  Proof. destruct d; [intros [H _]; congruence|reflexivity]. Qed.
  Lemma address_plain v d : plain d -> vnic_address w (Some d) v =
    andthen (vs_get w d v) (fun o v => match o with None => ret None v
      | Some d => andthen (address d v) (fun a v => andthen (of_res (from_string ClsAddress a) v) (fun a v => ret (Some a) v)) end).
  Proof. destruct d; [intros [H _]; congruence|reflexivity]. Qed.

  Definition lift (p : (location + verr) * vsvc) : vres (option location) * vsvc :=
    match p with (inl l, v) => (inl (Some l), v) | (inr e, v) => (inr e, v) end.
  Lemma location_iface v d : SInv c os0 v -> iface n d = true ->
    vnic_location w line (Some d) v = lift (place (works n os0 d) (o_files (s_os (vs_dst v) d)) (line d), after_look d (works n os0 d) v).
  Proof.
    intros I H. destruct (iface_dget d H) as (t & E & K). assert (Hd : dhas (g_devices c) d = true) by (apply dhas_true; eauto).
    rewrite location_plain by now apply plain_dev. rewrite (get_ok v d I (plain_dev d Hd)), Hd. cbn [andthen].
    unfold tcp_location. rewrite (conf_ok v I). cbn [andthen]. rewrite (kind_sec d Hd), E, K.
    rewrite (if_enabled_ok v d t I E); [|unfold remote, kind; rewrite devices_get, E; unfold device_of; now rewrite K].
    destruct (status_iface c os0 d t W T E K) as [_ ->]. cbv zeta. destruct (place _ _ _); reflexivity.
  Qed.
  Lemma location_none v d : SInv c os0 v -> plain d -> t_dev n d = None -> vnic_location w line (Some d) v = (inl None, v).
  Proof.
    intros I P H. rewrite location_plain by exact P. rewrite (get_ok v d I P).
    cbn [net_of t_dev] in H. replace (dhas (g_devices c) d) with false; [reflexivity|]. symmetry. apply dhas_false. destruct (dget (g_devices c) d); [discriminate|reflexivity].
  Qed.

  (** the settings are complete *)
  Definition complete : Prop := forall d,
    (iface n d = true -> exists a, own_address n d = Some a) /\
    (PnmsSpec.access n d = true -> exists t, option_of n d (lit "physical_connection_type") = Some t /\
       (t <> lit "managed" -> exists p, option_of n d (lit "tcp_port") = Some p) /\
       (t = lit "remote" -> exists a, option_of n d (lit "tcp_address") = Some a)).
  Context (Cm : complete).

  Definition looked (d : pystr) (v : vsvc) : vsvc :=
    if iface n d then after_look d (works n os0 d) v
    else if eqb (option_of n d (lit "physical_connection_type")) (Some (lit "managed")) then after_look d (runs_at os0 d) v else v.
  Lemma location_access v d : SInv c os0 v -> PnmsSpec.access n d = true ->
    vnic_location w line (Some d) v = lift (place_ap n d (runs_at os0 d) (o_files (s_os (vs_dst v) d)) (line d), looked d v).
  Proof.
    intros I H. destruct (access_dget d H) as (t & E & K). assert (Hd : dhas (g_devices c) d = true) by (apply dhas_true; eauto).
    assert (NI : iface n d = false) by (rewrite iface_kind, E, K; reflexivity).
    rewrite location_plain by now apply plain_dev. rewrite (get_ok v d I (plain_dev d Hd)), Hd. cbn [andthen].
    unfold tcp_location. rewrite (conf_ok v I). cbn [andthen]. rewrite (kind_sec d Hd), E, K.
    unfold opt_of. rewrite !(net_option c d) by (try exact W; try reflexivity; exact Hd).
    destruct (proj2 (Cm d) H) as (x & Ex & Px & Ax). unfold looked, place_ap. rewrite Ex, NI. cbn [andthen ret].
    destruct (eqb x (lit "managed")) eqn:Mx.
    - apply eqb_t in Mx. subst x. rewrite (if_enabled_ok v d t I E).
      + destruct (status_access c os0 d t W E K) as [_ ->]. cbv zeta. rewrite eqb_refl. destruct (place _ _ _); reflexivity.
      + unfold remote, kind. rewrite devices_get, E. unfold device_of. rewrite K. cbn [v_kind]. unfold remote_ap. rewrite (net_option c d) by (try exact W; try reflexivity; exact Hd).
        rewrite Ex. reflexivity.
    - apply eqb_f in Mx. rewrite (eqb_no (Some x)) by congruence. destruct (Px Mx) as [p Ep]. rewrite Ep. destruct (eqb x (lit "remote")) eqn:Rx.
      + apply eqb_t in Rx. destruct (Ax Rx) as [a Ea]. rewrite Ea. cbn [andthen ret fst snd]. unfold port_of, of_res. destruct (parse_int p); reflexivity.
      + cbn [andthen ret]. unfold port_of, of_res. destruct (parse_int p); cbn; [|reflexivity]. destruct (eqb x (lit "public")); reflexivity.
  Qed.

  (** *** addresses *)
  Lemma address_iface v d : SInv c os0 v -> iface n d = true ->
    address d v = match own_address n d with Some a => (inl a, v) | None => (inr (VPy KeyError), v) end.
  Proof.
    intros I H. destruct (iface_dget d H) as (t & E & K). assert (Hd : dhas (g_devices c) d = true) by (apply dhas_true; eauto).
    unfold address. rewrite (conf_ok v I). cbn [andthen]. rewrite (kind_sec d Hd), E, K. rewrite (net_option c d) by (try exact W; try reflexivity; exact Hd).
    unfold own_address. destruct (option_of _ _ _); reflexivity.
  Qed.
  Lemma vnic_address_ok v d a : SInv c os0 v -> iface n d = true -> own_address n d = Some a ->
    vnic_address w (Some d) v = match from_string ClsAddress a with Ok x => (inl (Some x), v) | Raise e => (inr (VPy e), v) end.
  Proof.
    intros I H A. destruct (iface_dget d H) as (t & E & K). assert (Hd : dhas (g_devices c) d = true) by (apply dhas_true; eauto).
    rewrite address_plain by now apply plain_dev. rewrite (get_ok v d I (plain_dev d Hd)), Hd. cbn [andthen].
    rewrite (address_iface v d I H), A. cbn [andthen]. unfold of_res. destruct (from_string ClsAddress a); reflexivity.
  Qed.
  Lemma default_ok v : SInv c os0 v -> default_vnic v = (inl (default_owner n), v).
  Proof.
    intros I. unfold default_vnic. rewrite (conf_ok v I). cbn [andthen]. unfold ret, default_route, sec_get. rewrite default_lower.
    unfold default_owner. now rewrite owner_dget.
  Qed.
  Lemma owner_iface r d : owner n r = Some d -> iface n d = true.
  Proof. rewrite owner_dget. intros E. destruct (w_route _ W _ _ E) as (_ & t & Et & Kt). rewrite iface_kind, Et, Kt. reflexivity. Qed.
  Lemma route_iface r d : In (r, d) (t_routes n) -> iface n d = true.
  Proof. intros I. apply (in_dget _ _ _ (w_rnd _ W)) in I. destruct (w_route _ W _ _ I) as (_ & t & Et & Kt). rewrite iface_kind, Et, Kt. reflexivity. Qed.
  Lemma vnic_for_ok v a : SInv c os0 v -> good_routes n -> exists od, chosen n a od /\ vnic_for a v = (inl od, v) /\ forall d, od = Some d -> iface n d = true.
  Proof.
    intros I G. unfold vnic_for. rewrite (conf_ok v I). cbn [andthen]. unfold of_res, routing_device, default_route, sec_get. rewrite default_lower.
    destruct (loop_ok a (dget (g_routes c) default_key) (g_routes c) G) as [(d & (l & r & rest & E & N & B & A) & ->)|(A & ->)].
    - exists (Some d). split; [|split; [reflexivity|]].
      + apply (chosen_route n a l r d rest E N B). intros r' d' X NX. exact (A (r', d') X NX).
      + intros d' [= <-]. apply (route_iface r). change (t_routes n) with (g_routes c). rewrite E. apply in_or_app. right. now left.
    - exists (default_owner n). split; [|split].
      + apply chosen_default. exact A.
      + unfold default_owner. now rewrite owner_dget.
      + intros d H. unfold default_owner in H. now apply owner_iface in H.
  Qed.

  (** *** the connector's calls *)
  Lemma iface_plain d : iface n d = true -> plain d.
  Proof. intros H. destruct (iface_dget d H) as (t & E & _). apply plain_dev, dhas_true. eauto. Qed.
  Lemma pick_some {A} d (x : A) (y : A) : plain d -> match d with [] => x | _ :: _ => y end = y.
  Proof. destruct d; [intros [H _]; congruence|reflexivity]. Qed.
  Definition via (a : addr) (d : pystr) (v : vsvc) : ((addr * location) + verr) * vsvc :=
    (with_addr a (place (works n os0 d) (o_files (s_os (vs_dst v) d)) (line d)), after_look d (works n os0 d) v).
  Lemma connect_via v a vn : SInv c os0 v ->
    (forall od, (if eqb vn (lit "default") then vnic_for a v else ret (Some vn) v) = (inl od, v) ->
    find_connect w line (DAddr a) vn v =
      match od with
      | None | Some [] => (inr VNoVnic, v)
      | Some d => andthen (vnic_location w line (Some d) v) (fun l v => match l with None => fail VNotReady v | Some l => ret (a, l) v end)
      end).
  Proof. intros I od E. unfold find_connect. cbn [andthen ret]. rewrite E. cbn [andthen]. destruct od as [[|x d]|]; reflexivity. Qed.
  Lemma connect_iface v a d : SInv c os0 v -> iface n d = true ->
    andthen (vnic_location w line (Some d) v) (fun l v => match l with None => fail VNotReady v | Some l => ret (a, l) v end) = via a d v.
  Proof. intros I H. rewrite (location_iface v d I H). unfold via. destruct (place _ _ _); reflexivity. Qed.
  Lemma connect_default v a : SInv c os0 v -> good_routes n ->
    exists od, chosen n a od /\ find_connect w line (DAddr a) (lit "default") v = match od with None => (inr VNoVnic, v) | Some d => via a d v end /\
      forall d, od = Some d -> iface n d = true.
  Proof.
    intros I G. destruct (vnic_for_ok v a I G) as (od & C & E & F). exists od. split; [exact C|]. split; [|exact F].
    rewrite (connect_via v a (lit "default") I od E). destruct od as [d|]; [|reflexivity]. specialize (F d eq_refl).
    rewrite <- (connect_iface v a d I F). exact (pick_some d _ _ (iface_plain d F)).
  Qed.
  Lemma connect_named v a d : SInv c os0 v -> plain d -> d <> lit "default" ->
    (iface n d = true -> find_connect w line (DAddr a) d v = via a d v) /\
    (PnmsSpec.access n d = true -> find_connect w line (DAddr a) d v =
        (with_addr a (place_ap n d (runs_at os0 d) (o_files (s_os (vs_dst v) d)) (line d)), looked d v)) /\
    (t_dev n d = None -> find_connect w line (DAddr a) d v = (inr VNotReady, v)).
  Proof.
    intros I P N. rewrite (connect_via v a d I (Some d)) by (rewrite eqb_no by exact N; reflexivity).
    rewrite (pick_some d _ _ P). split; [|split]; intros H.
    - now apply connect_iface.
    - rewrite (location_access v d I H). destruct (place_ap _ _ _ _ _); reflexivity.
    - rewrite (location_none v d I P H). reflexivity.
  Qed.
  Lemma connect_text v s vn : SInv c os0 v -> s <> lit "localhost" ->
    find_connect w line (DText s) vn v = match from_string ClsAddress s with Ok a => find_connect w line (DAddr a) vn v | Raise e => (inr (VPy e), v) end.
  Proof. intros I N. unfold find_connect at 1. unfold is_text. rewrite (eqb_no s) by exact N. unfold of_res. destruct (from_string ClsAddress s); reflexivity. Qed.
  Lemma connect_localhost v vn : SInv c os0 v ->
    find_connect w line (DText (lit "localhost")) vn v =
    match default_owner n with
    | None => (inr (VPy InvalidPlaygroundAddress), v)
    | Some d => match own_address n d with
                | Some t => match from_string ClsAddress t with Ok a => find_connect w line (DAddr a) vn v | Raise e => (inr (VPy e), v) end
                | None => (inr (VPy KeyError), v)
                end
    end.
  Proof.
    intros I. unfold find_connect at 1. change (is_text (lit "localhost") (lit "localhost")) with true. rewrite (default_ok v I). cbn [andthen].
    destruct (default_owner n) as [d|] eqn:D; [|reflexivity]. pose proof (owner_iface _ _ D) as H. destruct (proj1 (Cm d) H) as [t Ht].
    rewrite Ht, (vnic_address_ok v d t I H Ht). destruct (from_string ClsAddress t); reflexivity.
  Qed.

  Lemma by_address_ok v host : SInv c os0 v -> forall ds, (forall p, In p ds -> In p (g_devices c)) ->
    let good d := iface n d = true /\ own_address n d = Some host in
    (exists l d r, dkeys ds = l ++ d :: r /\ (forall x, In x l -> ~ good x) /\ good d /\ by_address w ds host v = (inl (Some d), v)) \/
    ((forall x, In x (dkeys ds) -> ~ good x) /\ by_address w ds host v = (inl None, v)).
  Proof.
    intros I ds Sub good. induction ds as [|[d t] ds IH]; [right; split; [intros ? []|reflexivity]|].
    assert (E : dget (g_devices c) d = Some t) by (apply (in_dget _ _ _ (w_nd _ W)), Sub; now left).
    destruct IH as [(l & x & r & K & A & G & B)|[A B]]; [intros p Hp; apply Sub; now right|..]; cbn [by_address].
    all: destruct (eqb t (lit "vnic")) eqn:Tv.
    1,3: assert (H : iface n d = true) by (unfold iface; cbn [net_of t_dev]; rewrite E; exact Tv);
         rewrite (get_ok v d I (iface_plain d H)); replace (dhas (g_devices c) d) with true by (symmetry; apply dhas_true; eauto); cbn [andthen];
         rewrite (address_iface v d I H); destruct (proj1 (Cm d) H) as [a Ha]; rewrite Ha; cbn [andthen]; destruct (eqb a host) eqn:Ea.
    - left. apply eqb_t in Ea. subst a. exists [], d, (dkeys ds). split; [reflexivity|]. split; [intros ? []|]. split; [now split|reflexivity].
    - left. apply eqb_f in Ea. exists (d :: l), x, r. split; [cbn; change (map fst ds) with (dkeys ds); now rewrite K|]. split; [|now split].
      intros y [<-|Y]; [intros [_ Z]; congruence|now apply A].
    - left. apply eqb_t in Ea. subst a. exists [], d, (dkeys ds). split; [reflexivity|]. split; [intros ? []|]. split; [now split|reflexivity].
    - right. apply eqb_f in Ea. split; [|exact B]. intros y [<-|Y]; [cbn [fst]; intros [_ Z]; congruence|now apply A].
    - left. assert (H : iface n d = false) by (unfold iface; cbn [net_of t_dev]; rewrite E; exact Tv).
      exists (d :: l), x, r. split; [cbn; change (map fst ds) with (dkeys ds); now rewrite K|]. split; [|now split]. intros y [<-|Y]; [intros [Z _]; congruence|now apply A].
    - right. assert (H : iface n d = false) by (unfold iface; cbn [net_of t_dev]; rewrite E; exact Tv).
      split; [|exact B]. intros y [<-|Y]; [cbn [fst]; intros [Z _]; congruence|now apply A].
  Qed.
  Definition serve (d : pystr) (v : vsvc) : ((option addr * location) + verr) * vsvc :=
    match own_address n d with
    | None => (inr (VPy KeyError), v)
    | Some t => match from_string ClsAddress t with
                | Raise e => (inr (VPy e), v)
                | Ok a => (for_server (with_addr (Some a) (place (works n os0 d) (o_files (s_os (vs_dst v) d)) (line d))), after_look d (works n os0 d) v)
                end
    end.
  Lemma listen_on v host od : SInv c os0 v ->
    (if is_text host (lit "default") || is_text host (lit "localhost") then default_vnic v else vnic_at w host v) = (inl od, v) ->
    (forall d, od = Some d -> iface n d = true) ->
    find_listen w line host v = match od with None => (inr VNoVnic, v) | Some d => serve d v end.
  Proof.
    intros I E F. unfold find_listen. rewrite E. cbn [andthen]. destruct od as [d|]; [|reflexivity]. specialize (F d eq_refl).
    rewrite (pick_some d _ _ (iface_plain d F)). destruct (proj1 (Cm d) F) as [t Ht]. unfold serve. rewrite Ht, (vnic_address_ok v d t I F Ht).
    destruct (from_string ClsAddress t) as [a|e]; [|reflexivity]. cbn [andthen]. rewrite (location_iface v d I F).
    destruct (place _ _ _) as [[h p]|e]; cbn [lift andthen]; [|reflexivity]. cbn [l_host l_port with_addr for_server]. destruct h as [[|x h]|], p as [p|]; try reflexivity.
    destruct (Z.eqb p 0); reflexivity.
  Qed.
  Lemma listen_default v host : SInv c os0 v -> host = lit "default" \/ host = lit "localhost" ->
    find_listen w line host v = match default_owner n with None => (inr VNoVnic, v) | Some d => serve d v end.
  Proof.
    intros I H. apply listen_on; [exact I| |intros d; apply owner_iface].
    destruct H as [-> | ->]; apply (default_ok v I).
  Qed.
  Lemma listen_at v host : SInv c os0 v -> host <> lit "default" -> host <> lit "localhost" ->
    let good d := iface n d = true /\ own_address n d = Some host in
    (exists l d r, dkeys (g_devices c) = l ++ d :: r /\ (forall x, In x l -> ~ good x) /\ good d /\ find_listen w line host v = serve d v) \/
    ((forall x, ~ good x) /\ find_listen w line host v = (inr VNoVnic, v)).
  Proof.
    intros I N1 N2 good. assert (C : (if is_text host (lit "default") || is_text host (lit "localhost") then default_vnic v else vnic_at w host v) = by_address w (g_devices c) host v).
    { unfold is_text. rewrite (eqb_no host _ N1), (eqb_no host _ N2). cbn [orb]. unfold vnic_at. now rewrite (conf_ok v I). }
    destruct (by_address_ok v host I (g_devices c) (fun p H => H)) as [(l & d & r & K & A & G & B)|[A B]].
    - left. exists l, d, r. split; [exact K|]. split; [exact A|]. split; [exact G|]. rewrite (listen_on v host (Some d) I); [reflexivity|now rewrite C|]. intros d' [= <-]. apply G.
    - right. split; [|rewrite (listen_on v host None I); [reflexivity|now rewrite C|discriminate]].
      intros x G. apply (A x); [|exact G]. destruct (iface_dget x (proj1 G)) as (t & E & _). eapply dget_some_in_keys; eauto.
  Qed.
  Lemma raw_default v : SInv c os0 v ->
    find_raw w line (lit "default") v =
    match default_owner n with
    | None => (inr VNoVnic, v)
    | Some d => match own_address n d with
                | None => (inr (VPy KeyError), v)
                | Some t => match from_string ClsAddress t with
                            | Raise e => (inr (VPy e), v)
                            | Ok _ => (place (works n os0 d) (o_files (s_os (vs_dst v) d)) (line d), after_look d (works n os0 d) v)
                            end
                end
    end.
  Proof.
    intros I. unfold find_raw. change (eqb (lit "default") (lit "default")) with true. rewrite (default_ok v I). cbn [andthen].
    destruct (default_owner n) as [d|] eqn:D; [|reflexivity]. pose proof (owner_iface _ _ D) as F.
    rewrite (pick_some d _ _ (iface_plain d F)). destruct (proj1 (Cm d) F) as [t Ht]. rewrite Ht, (vnic_address_ok v d t I F Ht).
    destruct (from_string ClsAddress t) as [a|e]; [|reflexivity]. cbn [andthen]. rewrite (location_iface v d I F).
    destruct (place _ _ _) as [l|e]; reflexivity.
  Qed.

  (** *** Every call leaves the invariant *)
  Lemma inv_looked d v : SInv c os0 v -> SInv c os0 (looked d v).
  Proof. intros I. unfold looked. destruct (iface n d); [now apply look_inv|]. destruct (eqb _ _); [now apply look_inv|exact I]. Qed.
  Lemma serve_inv d v : SInv c os0 v -> SInv c os0 (snd (serve d v)).
  Proof. intros I. unfold serve. destruct (own_address n d); [|exact I]. destruct (from_string _ _); [|exact I]. now apply look_inv. Qed.
End Calls.

Lemma loop_from a o : forall s od, routing_loop s a o = Ok od -> od = o \/ exists r d, od = Some d /\ In (r, d) s.
Proof.
  induction s as [|[r d'] s IH]; intros od R; cbn [routing_loop] in R; [left; congruence|].
  assert (K : routing_loop s a o = Ok od -> od = o \/ exists r0 d, od = Some d /\ In (r0, d) ((r, d') :: s)).
  { intros X. destruct (IH _ X) as [Y|(r0 & d0 & Y & Z)]; [now left|right; exists r0, d0; split; [exact Y|now right]]. }
  destruct (eqb r default_key); [now apply K|]. destruct (from_string ClsBlock r) as [b|]; [|discriminate].
  destruct (is_parent_block b a); [|now apply K]. injection R as <-. right. exists r, d'. split; [reflexivity|now left].
Qed.
Section History.
  Context (c : config) (W : wf c) (T : tidy c) (os0 : pystr -> osd) (w : world) (Cm : complete c).
  Lemma addr_inv line v a vn : SInv c os0 v -> plain vn -> SInv c os0 (snd (find_connect w line (DAddr a) vn v)).
  Proof.
    intros I P. destruct (eqb vn (lit "default")) eqn:E.
    - apply eqb_t in E. subst vn. unfold find_connect. cbn [andthen ret]. change (eqb (lit "default") (lit "default")) with true.
      unfold vnic_for. rewrite (conf_ok c os0 v I). cbn [andthen]. unfold of_res. destruct (routing_device (g_routes c) a) as [od|e] eqn:R; [|exact I]. cbn [andthen ret].
      assert (F : forall d, od = Some d -> iface (net_of c) d = true).
      { intros d ->. apply loop_from in R as [R|(r & d0 & [= <-] & R)].
        - unfold default_route, sec_get in R. rewrite default_lower in R. apply (owner_iface c W default_key). rewrite owner_dget. now symmetry.
        - now apply (route_iface c W r). }
      destruct od as [d|]; [|exact I]. specialize (F d eq_refl). rewrite (pick_some d _ _ (iface_plain c W d F)).
      rewrite (connect_iface c W T os0 w line v a d I F). now apply look_inv.
    - apply eqb_f in E. destruct (connect_named c W T os0 w line Cm v a vn I P E) as (A & B & D).
      destruct (dget (g_devices c) vn) as [t|] eqn:Et.
      + destruct (type_kind t) as [[|]|] eqn:K; [| |now apply (w_type _ W) in Et].
        * rewrite A; [now apply look_inv|]. rewrite iface_kind, Et, K. reflexivity.
        * rewrite B; [now apply inv_looked|]. rewrite access_kind, Et, K. reflexivity.
      + rewrite D; [exact I|]. cbn [net_of t_dev]. now rewrite Et.
  Qed.
  Lemma call_inv line cl v : SInv c os0 v -> plain_event (VCall line cl) -> SInv c os0 (vs_call w line cl v).
  Proof.
    intros I P. destruct cl as [[s|a] d|h|d]; cbn [vs_call plain_event] in *.
    - destruct (eqb s (lit "localhost")) eqn:E.
      + apply eqb_t in E. subst s. rewrite (connect_localhost c W os0 w line Cm v d I). destruct (default_owner _); [|exact I].
        destruct (own_address _ _); [|exact I]. destruct (from_string _ _); [now apply addr_inv|exact I].
      + apply eqb_f in E. rewrite (connect_text c os0 w line v s d I E). destruct (from_string _ _); [now apply addr_inv|exact I].
    - now apply addr_inv.
    - destruct (eqb h (lit "default")) eqn:E1; [|destruct (eqb h (lit "localhost")) eqn:E2].
      + apply eqb_t in E1. rewrite (listen_default c W T os0 w line Cm v h I (or_introl E1)). destruct (default_owner _); [now apply serve_inv|exact I].
      + apply eqb_t in E2. rewrite (listen_default c W T os0 w line Cm v h I (or_intror E2)). destruct (default_owner _); [now apply serve_inv|exact I].
      + apply eqb_f in E1, E2. destruct (listen_at c W T os0 w line Cm v h I E1 E2) as [(l & x & r & _ & _ & _ & ->)|[_ ->]]; [now apply serve_inv|exact I].
    - destruct (eqb d (lit "default")) eqn:E.
      + apply eqb_t in E. subst d. rewrite (raw_default c W T os0 w line Cm v I). destruct (default_owner _); [|exact I].
        destruct (own_address _ _); [|exact I]. destruct (from_string _ _); [now apply look_inv|exact I].
      + unfold find_raw. rewrite E. exact I.
  Qed.
  Lemma run_inv es : forall v, SInv c os0 v -> Forall plain_event es -> SInv c os0 (vs_run w es v).
  Proof.
    induction es as [|e es IH]; intros v I F; [exact I|]. inversion F as [|? ? P F']; subst. destruct e as [os|line cl]; cbn [vs_run].
    - apply IH; [|exact F']. destruct I as [A B]. constructor; [exact A|exact B].
    - apply IH; [now apply call_inv|exact F'].
  Qed.
End History.

(** ** The settings that pnetworking writes are complete *)
Definition net_complete (n : net) : Prop := forall d,
  (iface n d = true -> exists a, own_address n d = Some a) /\
  (PnmsSpec.access n d = true -> exists t, option_of n d (lit "physical_connection_type") = Some t /\
     (t <> lit "managed" -> exists p, option_of n d (lit "tcp_port") = Some p) /\
     (t = lit "remote" -> exists a, option_of n d (lit "tcp_address") = Some a)).
Lemma net_complete_dev n n' : (forall d, t_dev n' d = t_dev n d \/ t_dev n' d = None) -> net_complete n -> net_complete n'.
Proof.
  intros E H d. specialize (H d). unfold iface, PnmsSpec.access, own_address, option_of in *. destruct (E d) as [-> | ->]; [exact H|]. split; discriminate.
Qed.
Lemma iface_settings_addr args s : iface_settings args = Ok s -> exists a, dget s (lit "playground_address") = Some a.
Proof.
  unfold iface_settings. destruct args as [|a r]; [discriminate|]. destruct (iface_flags r s_true) as [f|]; [|discriminate]. intros [= <-]. exists a. reflexivity.
Qed.
Lemma ap_settings_complete args s : ap_settings args = Ok s ->
  exists t, dget s (lit "physical_connection_type") = Some t /\ (t <> lit "managed" -> exists p, dget s (lit "tcp_port") = Some p) /\
    (t = lit "remote" -> exists a, dget s (lit "tcp_address") = Some a).
Proof.
  unfold ap_settings. destruct (ap_args _ args _) as [k|]; [|discriminate]. intros H.
  apply (f_equal (fun r => match r with Ok x => x | Raise _ => [] end)) in H. cbv beta iota in H. subst s. exists (ap_type k). split; [reflexivity|].
  destruct (eqb (ap_type k) (lit "managed")) eqn:M.
  - apply eqb_t in M. split; [congruence|]. rewrite M. discriminate.
  - destruct (eqb (ap_type k) (lit "remote")) eqn:R.
    + split; intros _; [exists (ap_port k)|exists (ap_addr k)]; reflexivity.
    + apply eqb_f in R. split; [|congruence]. intros _. exists (ap_port k). reflexivity.
Qed.
Lemma effect_complete k n n' : effect k n = Some n' -> net_complete n -> net_complete n'.
Proof.
  intros E H. destruct k as [d t args|d|d a|d|d r|d r|]; cbn [effect] in E.
  - destruct (t_dev n d) eqn:D; [discriminate|]. destruct (type_kind t) as [kd|] eqn:K; [|discriminate]. destruct (settings kd args) as [s|] eqn:S; [|discriminate]. injection E as <-.
    intros x. specialize (H x). unfold iface, PnmsSpec.access, own_address, option_of in *. cbn [t_dev]. unfold upd. destruct (eq_dec x d) as [->|N]; [|exact H].
    destruct kd; cbn [settings] in S.
    + apply kind_vnic in K. split; [intros _; eapply iface_settings_addr; eauto|]. apply eqb_t in K. subst t. discriminate.
    + apply kind_access in K. split; [|intros _; eapply ap_settings_complete; eauto]. intros V. apply eqb_t in V. subst t. discriminate.
  - destruct (t_dev n d) eqn:D; injection E as <-; [|exact H]. apply (net_complete_dev n); [|exact H]. intros x. cbn [t_dev]. unfold upd. destruct (eq_dec x d); auto.
  - destruct (_ && _); [|discriminate]. injection E as <-. apply (net_complete_dev n); [|exact H]. intros x. now left.
  - destruct (iface n d); [|discriminate]. injection E as <-. apply (net_complete_dev n); [|exact H]. intros x. now left.
  - destruct (iface n d); [|discriminate]. destruct (eqb r _); [injection E as <-; apply (net_complete_dev n); [|exact H]; intros x; now left|].
    destruct (owner n r); [discriminate|]. injection E as <-. apply (net_complete_dev n); [|exact H]. intros x. now left.
  - destruct (_ && _); [|discriminate]. injection E as <-. apply (net_complete_dev n); [|exact H]. intros x. now left.
  - injection E as <-. exact H.
Qed.
Lemma net_complete_eq a b : net_eq a b -> net_complete b -> net_complete a.
Proof. intros (E & _ & _). apply net_complete_dev. intros d. left. apply E. Qed.
Lemma runs_complete : forall ks c, wf c -> Forall plain_command ks -> net_complete (net_of c) -> net_complete (net_of (runs ks c)).
Proof.
  induction ks as [|k ks IH]; intros c W F H; [exact H|]. inversion F as [|? ? P F']; subst. cbn [runs]. destruct (run_ok c k W P) as [W' O].
  apply IH; [exact W'|exact F'|]. destruct (effect k (net_of c)) as [n'|] eqn:E.
  - destruct O as (_ & L & R). pose proof (effect_complete _ _ _ E H) as Hn. destruct k; try (eapply net_complete_eq; [apply L; exact I|exact Hn]).
    destruct (eq_dec route (lit "default")) as [->|N].
    + eapply net_complete_eq; [apply L; reflexivity|exact Hn].
    + eapply net_complete_eq; [apply R; intros X; now apply N|exact H].
  - destruct O as [_ O]. eapply net_complete_eq; [exact O|exact H].
Qed.
Definition file_of (ks : list command) : config := runs ks config_empty.
Lemma file_ok ks : Forall plain_command ks -> let c := clean (file_of ks) in wf c /\ tidy c /\ complete c /\ wf (file_of ks) /\ net_eq (net_of c) (net_of (file_of ks)).
Proof.
  intros P. assert (W : wf (file_of ks)) by (apply runs_wf; [apply wf_empty|exact P]). pose proof (net_clean _ W) as N.
  split; [now apply wf_clean|]. split; [now apply tidy_clean|]. split; [|now split].
  change (net_complete (net_of (clean (file_of ks)))). eapply net_complete_eq; [exact N|]. apply runs_complete; [apply wf_empty|exact P|].
  intros d. split; discriminate.
Qed.
(** what a network says does not depend on which of two equal ones it is *)
Lemma works_eq a b os d : net_eq a b -> works a os d = works b os d.
Proof. intros (E & F & _). unfold works, is_remote_ap, option_of. rewrite F. destruct (t_conn b d); [rewrite E|]; reflexivity. Qed.
Lemma option_eq a b d o : net_eq a b -> option_of a d o = option_of b d o.
Proof. intros (E & _ & _). unfold option_of. now rewrite E. Qed.
Lemma iface_eq a b d : net_eq a b -> iface a d = iface b d.
Proof. intros (E & _ & _). unfold iface. now rewrite E. Qed.
Lemma access_eq a b d : net_eq a b -> PnmsSpec.access a d = PnmsSpec.access b d.
Proof. intros (E & _ & _). unfold PnmsSpec.access. now rewrite E. Qed.
Lemma chosen_eq a b x od : net_eq a b -> chosen a x od -> chosen b x od.
Proof.
  intros (_ & _ & E) H. inversion H as [l r d rest T N Ho A|A]; subst.
  - eapply chosen_route; [rewrite <- E; exact T|exact N|exact Ho|exact A].
  - unfold default_owner, owner. rewrite E. apply chosen_default. now rewrite <- E.
Qed.
Lemma owner_eq a b : net_eq a b -> default_owner a = default_owner b.
Proof. intros (_ & _ & E). unfold default_owner, owner. now rewrite E. Qed.
Lemma place_ap_eq a b d x y z : net_eq a b -> place_ap a d x y z = place_ap b d x y z.
Proof. intros E. unfold place_ap. now rewrite !(option_eq a b) by exact E. Qed.
