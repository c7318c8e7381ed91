(** * C41: the route table; C50: the configuration of the network lasts *)
From Coq Require Import String.
From Coq Require Import List ZArith Bool Lia.
From Verif Require Import PyBase PyLemmas AddrModel AddrSpec PnmsModel PnmsSpec PnmsProofs PnmsProofs2 PnmsProofs3.
Import ListNotations.
Open Scope nat_scope.

(** C41. With every route a valid block: the interface of the first route, in
    table order, whose block has the address; if there is none, the one of the
    default route; if there is no default, None. *)
Theorem C41_lookup : forall (s : section) (a : addr),
  (forall r d, In (r, d) s -> r <> lit "__default__" -> exists b, from_string ClsBlock r = Ok b) ->
  let within r := exists b, from_string ClsBlock r = Ok b /\ covers b a in
  (exists d, first_match s within d /\ routing_device s a = Ok (Some d)) \/
  ((forall r d, In (r, d) s -> r <> lit "__default__" -> ~ within r) /\ routing_device s a = Ok (dget s (lit "__default__"))).
Proof.
  intros s a V within. unfold routing_device, default_route, sec_get. rewrite default_lower. exact (loop_ok a (dget s default_key) s V).
Qed.
Print Assumptions C41_lookup.

(** C41, refuted without that hypothesis: nothing checks a route when it is
    added, and a route that is no block makes every lookup raise that no
    earlier route answers. *)
Theorem C41_bad_route_refuted : forall (before rest : section) (r d : pystr) (a : addr),
  (forall p, In p before -> fst p <> lit "__default__" ->
     (exists b, from_string ClsBlock (fst p) = Ok b) /\ ~ exists b, from_string ClsBlock (fst p) = Ok b /\ covers b a) ->
  r <> lit "__default__" -> is_valid_string ClsBlock r = false ->
  routing_device (before ++ (r, d) :: rest) a = Raise InvalidPlaygroundAddress.
Proof.
  intros before rest r d a B N V. unfold routing_device. apply loop_bad; [exact N|exact B|]. unfold from_string, is_valid_string in *.
  destruct (valid_parts ClsBlock r); [discriminate|reflexivity].
Qed.
Print Assumptions C41_bad_route_refuted.

(** C41. A route belongs to one interface: adding one that is in the table is
    refused; removing one is refused unless it is one's own; adding and removing
    change nothing else, and the order stays. *)
Theorem C41_ownership : forall (s : section) (dev r : pystr), NoDup (dkeys s) -> plain r ->
  (dget s r <> None -> exists e, add_route s dev r = Raise e) /\
  (dget s r = None -> add_route s dev r = Ok (s ++ [(r, dev)])) /\
  (dget s r <> Some dev -> exists e, remove_route s dev r = Raise e) /\
  (dget s r = Some dev -> remove_route s dev r = Ok (filter (fun p => negb (eqb (fst p) r)) s)).
Proof.
  intros s dev r ND P. unfold add_route, remove_route, in_adapter, sec_set, sec_del, sec_get. rewrite plain_lower by exact P. repeat split.
  - intros H. destruct (smem (dkeys s) r) eqn:S; [eauto|]. exfalso. apply H, dget_none. intros X. apply smem_i in X. congruence.
  - intros H. apply dget_none in H. destruct (smem (dkeys s) r) eqn:S; [apply smem_t in S; contradiction|]. f_equal. now apply dset_new.
  - intros H. destruct (smem (dkeys s) r); cbn [negb]; [|eauto]. rewrite eqb_no by exact H. cbn [negb]. eauto.
  - intros H. rewrite H, eqb_refl. rewrite (smem_i (dkeys s) r) by (eapply dget_some_in_keys; eauto). cbn [negb]. f_equal. now apply ddel_filter.
Qed.
Print Assumptions C41_ownership.

(** C41, refuted for the default route: any interface takes it from its owner,
    and so does the route "__DEFAULT__", which is not refused although a default exists. *)
Theorem C41_default_taken_refuted : forall (s : section) (dev : pystr), NoDup (dkeys s) ->
  dget (set_default_route s dev) (lit "__default__") = Some dev /\
  ((forall r, In r (dkeys s) -> lower r = r) ->
   exists s', add_route s dev (lit "__DEFAULT__") = Ok s' /\ dget s' (lit "__default__") = Some dev).
Proof.
  intros s dev ND. split.
  - unfold set_default_route, sec_set. rewrite default_lower. apply dget_dset_same.
  - intros L. unfold add_route, in_adapter. destruct (smem (dkeys s) (lit "__DEFAULT__")) eqn:S.
    + apply smem_t, L in S. vm_compute in S. discriminate.
    + eexists. split; [reflexivity|]. unfold sec_set. change (lower (lit "__DEFAULT__")) with (lit "__default__"). apply dget_dset_same.
Qed.
Print Assumptions C41_default_taken_refuted.

Example C41_example :
  let t := [(lit "1.2.*.*", lit "eth0"); (lit "__default__", lit "eth1"); (lit "1.*.*.*", lit "eth2")] in
  routing_device t (Addr (Num 1) (Num 2) (Num 3) (Num 4)) = Ok (Some (lit "eth0")) /\
  routing_device t (Addr (Num 1) (Num 9) (Num 3) (Num 4)) = Ok (Some (lit "eth2")) /\
  routing_device t (Addr (Num 7) (Num 9) (Num 3) (Num 4)) = Ok (Some (lit "eth1")) /\
  routing_device [(lit "1.2.*.*", lit "eth0")] (Addr (Num 7) (Num 9) (Num 3) (Num 4)) = Ok None /\
  routing_device (t ++ [(lit "bad", lit "eth0")]) (Addr (Num 7) (Num 9) (Num 3) (Num 4)) = Raise InvalidPlaygroundAddress.
Proof. vm_compute. repeat split; reflexivity. Qed.

(** ** C50 *)
(** C50. After every history of commands on names without capital letters, with
    a restart between any two, a command does what [effect] says, and its effect
    is in the file; a command that is refused raises and changes nothing. *)
Theorem C50_commands : forall (ks : list command) (k : command), Forall plain_command ks -> plain_command k ->
  let file := runs ks config_empty in
  match effect k (net_of file) with
  | Some n' => fst (run k file) = Ok tt /\ (lasting k -> net_eq (net_of (snd (run k file))) n')
  | None => (exists e, fst (run k file) = Raise e) /\ net_eq (net_of (snd (run k file))) (net_of file)
  end.
Proof.
  intros ks k P Pk file. destruct (run_ok file k) as [_ H]; [apply runs_wf; [apply wf_empty|exact P]|exact Pk|].
  destruct (effect k (net_of file)); [|exact H]. destruct H as (A & B & _). auto.
Qed.
Print Assumptions C50_commands.

(** C50. The network that the file describes after a history is the effect of
    its commands, one after the other. *)
Theorem C50_history : forall ks : list command, Forall plain_command ks -> Forall lasting ks ->
  net_eq (net_of (runs ks config_empty)) (effects ks net_empty).
Proof. intros ks P L. apply runs_effects; auto; [apply wf_empty|]. repeat split. Qed.
Print Assumptions C50_history.

(** C50. The file always loads, and what is loaded is consistent: every device
    has a known type and its settings; every connection goes from an interface
    to an access point that is there; every route belongs to an interface. *)
Theorem C50_consistent : forall ks : list command, Forall plain_command ks ->
  exists m, load (runs ks config_empty) = (Ok tt, m) /\ n_mem m = n_file m /\
  let c := n_mem m in
  net_eq (net_of c) (net_of (runs ks config_empty)) /\
  (forall d t, dget (g_devices c) d = Some t -> type_kind t <> None /\ (exists s, dget (g_sections c) d = Some s)) /\
  (forall d a, dget (g_connections c) d = Some a ->
     (exists t, dget (g_devices c) d = Some t /\ type_kind t = Some Iface) /\ (exists t, dget (g_devices c) a = Some t /\ type_kind t = Some Access)) /\
  (forall r d, dget (g_routes c) r = Some d -> exists t, dget (g_devices c) d = Some t /\ type_kind t = Some Iface).
Proof.
  intros ks P. set (f := runs ks config_empty). assert (W : wf f) by (apply runs_wf; [apply wf_empty|exact P]).
  destruct (load_ok f W) as (m & L & R). exists m. split; [exact L|]. destruct R as [R1 R2 _ _]. split; [congruence|]. rewrite R1.
  pose proof (wf_clean f W) as Wc. split; [now apply net_clean|]. split; [|split].
  - intros d t E. split; [now apply (w_type _ Wc d)|]. apply dhas_true. apply (w_sec _ Wc). eapply dget_some_in_keys; eauto.
  - intros d a E. destruct (w_conn _ Wc _ _ E) as (V & _ & A). split; [exact V|]. pose proof (tidy_clean f W d a E) as T. apply dhas_true in T as [t T]. exists t. auto.
  - intros r d E. now destruct (w_route _ Wc _ _ E) as (_ & V).
Qed.
Print Assumptions C50_consistent.

(** C50, refuted for the removal of a route: it succeeds, and the route is
    there again after the restart. *)
Theorem C50_route_removal_refuted : forall (ks : list command) (d r : pystr), Forall plain_command ks -> plain d -> plain r -> r <> lit "default" ->
  let file := runs ks config_empty in
  fst (run (CRouteRemove d r) file) = Ok tt ->
  owner (net_of file) r = Some d /\ net_eq (net_of (snd (run (CRouteRemove d r) file))) (net_of file).
Proof.
  intros ks d r P Pd Pr N file H. destruct (run_ok file (CRouteRemove d r)) as [_ E]; [apply runs_wf; [apply wf_empty|exact P]|split; assumption|].
  destruct (effect (CRouteRemove d r) (net_of file)) as [n|] eqn:F.
  - destruct E as (_ & _ & E). split; [|apply E; intros X; now apply N].
    cbn [effect] in F. rewrite (eqb_no r (lit "default") N) in F. destruct (iface _ d && _) eqn:Q; [|discriminate]. apply andb_true_iff in Q as [_ Q]. now apply eqb_t in Q.
  - destruct E as ((e & E) & _). congruence.
Qed.
Print Assumptions C50_route_removal_refuted.

(** C50, refuted for names with a capital letter: adding the device succeeds,
    and from then on no command works, because the configuration cannot be loaded. *)
Theorem C50_capital_name_refuted : forall (c c' : config) (d t : pystr) (args : list pystr),
  run (CAdd d t args) c = (Ok tt, c') -> lower d <> d -> dhas (g_sections c) (lower d) = false ->
  forall k, exists e, fst (run k c') = Raise e.
Proof. intros c c' d t args H N S k. destruct (add_capital c d t args c' H N S) as [A B]. eapply capital_stuck; eauto. Qed.
Print Assumptions C50_capital_name_refuted.

(** C50. The settings of an interface: its address, and whether it is enabled by itself. *)
Theorem C50_interface_settings : forall (args : list pystr) (s : section),
  settings Iface args = Ok s <->
  exists a flags, args = a :: flags /\ Forall (fun w => w = lit "manual") flags /\
    s = [(lit "playground_address", a); (lit "auto_enable", match flags with [] => lit "true" | _ => lit "false" end)].
Proof.
  intros args s. cbn [settings]. unfold iface_settings. destruct args as [|a r].
  - split; [discriminate|]. intros (a & f & E & _). discriminate.
  - destruct (iface_flags r s_true) as [x|e] eqn:F.
    + apply iface_flags_ok in F as [F ->]. split.
      * intros H. injection H as <-. exists a, r. auto.
      * intros (a' & f & E & _ & ->). injection E as <- <-. reflexivity.
    + split; [discriminate|]. intros (a' & f & E & Fo & _). injection E as <- <-.
      assert (X : iface_flags r s_true = Ok (match r with [] => s_true | _ => s_false end)) by now apply iface_flags_ok. congruence.
Qed.
Print Assumptions C50_interface_settings.

(** C50. The settings of an access point: its options in any order and number,
    the last of each kind deciding; anything else is refused. *)
Theorem C50_access_point_settings : forall args : list pystr,
  (forall os, args = concat (map words os) -> settings Access args = Ok (ap_meaning os)) /\
  ((exists s, settings Access args = Ok s) -> exists os, args = concat (map words os)).
Proof.
  intros args. split.
  - intros os ->. apply ap_settings_words.
  - intros [s H]. cbn [settings] in H. unfold ap_settings in H. destruct (ap_args _ args _) as [c|e] eqn:A; [|discriminate]. eapply ap_args_inv; eauto.
Qed.
Print Assumptions C50_access_point_settings.

Example C50_example :
  let ks := [CAdd (lit "hub") (lit "switch") [lit "managed"]; CAdd (lit "v1") (lit "vnic") [lit "1.2.3.4"];
             CConnect (lit "v1") (lit "hub"); CRouteAdd (lit "v1") (lit "1.*.*.*"); CRouteAdd (lit "v1") (lit "default");
             CAdd (lit "v2") (lit "vnic") [lit "1.2.3.5"; lit "manual"]; CConnect (lit "v2") (lit "v1")] in
  let n := net_of (runs ks config_empty) in
  Forall plain_command ks /\ Forall lasting ks /\
  t_conn n (lit "v1") = Some (lit "hub") /\ t_conn n (lit "v2") = None /\
  t_routes n = [(lit "1.*.*.*", lit "v1"); (lit "__default__", lit "v1")] /\
  t_dev n (lit "v2") = Some (lit "vnic", [(lit "playground_address", lit "1.2.3.5"); (lit "auto_enable", lit "false")]) /\
  (* a switch removed: the connection goes with it *)
  t_conn (net_of (runs (ks ++ [CRemove (lit "hub")]) config_empty)) (lit "v1") = None /\
  (* a route removed is back *)
  run (CRouteRemove (lit "v1") (lit "1.*.*.*")) (runs ks config_empty) = (Ok tt, runs ks config_empty) /\
  (* a capital letter *)
  fst (run (CAdd (lit "V3") (lit "vnic") [lit "1.2.3.6"]) (runs ks config_empty)) = Ok tt /\
  fst (run CLook (snd (run (CAdd (lit "V3") (lit "vnic") [lit "1.2.3.6"]) (runs ks config_empty)))) = Raise GenericException /\
  settings Access [lit "remote"; lit "10.0.0.1"; lit "80"; lit "manual"] =
    Ok [(lit "auto_enable", lit "false"); (lit "physical_connection_type", lit "remote"); (lit "tcp_address", lit "10.0.0.1"); (lit "tcp_port", lit "80")].
Proof.
  cbv zeta. split.
  { repeat (apply Forall_cons; [vm_compute; repeat split; try discriminate; repeat constructor; intros [A B]; now (apply A || apply B)|]). constructor. }
  split; [repeat constructor|]. vm_compute. repeat split; reflexivity.
Qed.
