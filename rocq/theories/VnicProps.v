(** * Properties of the VNIC: C31-C34 *)
From Coq Require Import List ZArith Bool Lia.
From Verif Require Import PyBase PyLemmas VnicModel VnicSpec VnicProofs VnicInv VnicSent.
Import ListNotations.
Open Scope Z_scope.

Lemma in_use_dhas s q : port_in_use s q <-> dhas (v_ports s) q = true.
Proof. unfold port_in_use, dhas. destruct (dget (v_ports s) q) as [c|]; split; intros H; eauto; try discriminate. destruct H as (c & H). discriminate. Qed.
Lemma free_dget s q : ~ port_in_use s q -> dget (v_ports s) q = None.
Proof. intros N. destruct (dget (v_ports s) q) eqn:E; [|reflexivity]. destruct N. exists n. exact E. Qed.
Lemma no_dumps_app a b : no_dumps (a ++ b) = no_dumps a ++ no_dumps b.
Proof. apply filter_app. Qed.
Lemma no_dumps_dumps (ps : list nat) k d : no_dumps (map (fun p => LDump p k d) ps) = [].
Proof. induction ps; [reflexivity|exact IHps]. Qed.

(** ** C31 *)
(** a successful connect: the port is new, in range, and the only port whose
    use changes *)
Theorem C31_connect addr s log p id dest dport s' l port :
  reachable addr s log -> v_step (VConnect p id dest dport) s = Some (s', l) -> In (LResp p id (Some port)) l ->
  2000 <= port <= 65534 /\ ~ port_in_use s port /\ forall q, port_in_use s' q <-> q = port \/ port_in_use s q.
Proof.
  intros R E Hi. apply reachable_inv in R. cbn [v_step] in E.
  destruct (nth_error (v_protos s) p) as [v|]; [|injection E as <- <-; destruct Hi].
  destruct (negb (vp_up v)); [injection E as <- <-; destruct Hi|].
  destruct (dhas (vp_table v) id); [injection E as <- <-; destruct Hi as [Hi|[]]; discriminate|].
  unfold open_connect in E. destruct (next_free (v_ports s) (v_pos s)) as [q0|] eqn:F; [|discriminate]. apply next_free_ok in F; [|apply (i_pos _ _ _ R)].
  injection E as <- <-. apply in_app_or in Hi.
  assert (q0 = port).
  { destruct Hi as [Hi|Hi].
    - destruct (dhas (v_conns s) _) in Hi; [|destruct Hi]. destruct Hi as [Hi|[]]. discriminate.
    - destruct Hi as [Hi|[Hi|[]]]; [discriminate|]. congruence. }
  subst q0. destruct F as [F1 F2]. split; [lia|]. split; [intros (c & Ec); congruence|].
  intros q. unfold port_in_use. cbn. rewrite dget_dset. destruct (eq_dec q port) as [->|N].
  - split; [auto|]. intros _. eauto.
  - split; [auto|]. intros [->|H]; [congruence|exact H].
Qed.
(** a connect request with a fresh id on a live control connection is always
    answered with a port, except that the process hangs when every port is taken *)
Theorem C31_connect_total addr s log p v id dest dport :
  reachable addr s log -> nth_error (v_protos s) p = Some v -> vp_up v = true -> dget (vp_table v) id = None ->
  (v_step (VConnect p id dest dport) s = None /\ forall q, 2000 <= q <= 65534 -> port_in_use s q) \/
  (exists s' l port, v_step (VConnect p id dest dport) s = Some (s', l) /\ In (LResp p id (Some port)) l /\ exists q, 2000 <= q <= 65534 /\ ~ port_in_use s q).
Proof.
  intros R Ev Up T. pose proof (i_pos _ _ _ (reachable_inv _ _ _ R)) as Hp. cbn [v_step]. rewrite Ev, Up. cbn [negb]. replace (dhas (vp_table v) id) with false by (symmetry; apply dhas_false; exact T).
  unfold open_connect. destruct (next_free (v_ports s) (v_pos s)) as [q|] eqn:F.
  - right. do 3 eexists. split; [reflexivity|]. split; [apply in_or_app; right; right; left; reflexivity|]. apply next_free_ok in F; [|exact Hp].
    exists q. split; [lia|]. intros (c & Ec). destruct F. congruence.
  - left. split; [reflexivity|]. intros q Hq. apply in_use_dhas. apply find_none with (x := q) in F; [|apply in_or_app; right; apply zrange_in; lia]. apply negb_false_iff. exact F.
Qed.
(** listening: granted exactly when the port is not in use; a refusal changes
    neither the ports nor the connections *)
Theorem C31_listen addr s log p v id q :
  reachable addr s log -> nth_error (v_protos s) p = Some v -> vp_up v = true -> dget (vp_table v) id = None ->
  exists s' l, v_step (VListen p id q) s = Some (s', l) /\
  (port_in_use s q -> l = [LResp p id None] /\ v_ports s' = v_ports s /\ v_conns s' = v_conns s) /\
  (~ port_in_use s q -> l = [LResp p id (Some q)] /\ v_conns s' = v_conns s /\ forall q', port_in_use s' q' <-> q' = q \/ port_in_use s q').
Proof.
  intros R Ev Up T. cbn [v_step]. rewrite Ev, Up. cbn [negb]. replace (dhas (vp_table v) id) with false by (symmetry; apply dhas_false; exact T).
  unfold open_listen. destruct (dhas (v_ports s) q) eqn:H; (do 2 eexists; split; [reflexivity|]); split.
  - intros _. auto.
  - intros N. destruct N. apply in_use_dhas. exact H.
  - intros N. apply in_use_dhas in N. congruence.
  - intros _. split; [reflexivity|]. split; [reflexivity|]. intros q'. unfold port_in_use. cbn. rewrite dget_dset. destruct (eq_dec q' q) as [->|N]; [split; [auto|eauto]|].
    split; [auto|]. intros [->|X]; [congruence|exact X].
Qed.
(** an id that is already in use is refused *)
Theorem C31_id_in_use addr s log p v id c e : reachable addr s log -> nth_error (v_protos s) p = Some v -> vp_up v = true -> dget (vp_table v) id = Some c ->
  (exists d dp, e = VConnect p id d dp) \/ (exists q, e = VListen p id q) -> v_step e s = Some (s, [LResp p id None]).
Proof.
  intros R Ev Up T [(d & dp & ->)|(q & ->)]; cbn [v_step]; rewrite Ev, Up; cbn [negb]; unfold dhas; rewrite T; reflexivity.
Qed.
(** the ports in use are exactly those of the open sockets, and no two open
    sockets have the same port *)
Theorem C31_owner addr s log q : reachable addr s log ->
  (port_in_use s q <-> exists c x, is_open s c x /\ sc_port x = Some q) /\
  (forall c x c' x', is_open s c x -> is_open s c' x' -> sc_port x = Some q -> sc_port x' = Some q -> c = c').
Proof.
  intros R. apply reachable_inv in R. destruct (i_ports _ _ _ R) as (Q1 & Q2 & _). split; [split|].
  - intros (c & Ec). destruct (i_owner _ _ _ R q c Ec) as (x & Ox). destruct (Q1 q c Ec) as (x' & Ex & Px). exists c, x. split; [exact Ox|]. destruct Ox as [Ex' _]. congruence.
  - intros (c & x & Ox & Px). exists c. eapply Q2; eauto.
  - intros c x c' x' O O' Px Px'. pose proof (Q2 c x q O Px). pose proof (Q2 c' x' q O' Px'). congruence.
Qed.

(** ** C32 *)
(** an existing connection gets the data, and nothing else changes *)
Theorem C32_existing addr s log so sp d dp data cd : reachable addr s log -> dget (v_conns s) (d, dp, so, sp) = Some cd ->
  exists s' l, v_step (VData so sp d dp data) s = Some (s', l) /\
  (forall k, k <> (d, dp, so, sp) -> dget (v_conns s') k = dget (v_conns s) k) /\
  v_ports s' = v_ports s /\ v_ctls s' = v_ctls s /\ v_protos s' = v_protos s /\ v_pending s' = v_pending s /\ v_revs s' = v_revs s /\
  match cn_writer cd with
  | None => dget (v_conns s') (d, dp, so, sp) = Some (Conn (cn_ctl cd) None (cn_buf cd ++ data)) /\ no_dumps l = [LData (d, dp, so, sp) data]
  | Some t => dget (v_conns s') (d, dp, so, sp) = Some cd /\ no_dumps l = [LData (d, dp, so, sp) data; LWrite (d, dp, so, sp) t data]
  end.
Proof.
  intros R G. cbn [v_step]. unfold v_demux. cbn [inverse]. rewrite G. unfold conn_write. destruct (cn_writer cd) as [t|] eqn:W; (do 2 eexists; split; [reflexivity|]); cbn [set_conns v_conns v_ports v_ctls v_protos v_pending v_revs];
  (split; [intros k N; apply dget_dset_other; congruence|]); (do 5 (split; [reflexivity|])); (split; [apply dget_dset_same|]); rewrite no_dumps_app, no_dumps_dumps; reflexivity.
Qed.
(** no such connection, but an open listener on the port: a new connection of
    that listener holds the data, and one reverse connection is requested *)
Theorem C32_listener addr s log so sp d dp data c x : reachable addr s log -> dget (v_conns s) (d, dp, so, sp) = None ->
  is_open s c x -> sc_listen x = true -> sc_port x = Some dp ->
  exists s' l, v_step (VData so sp d dp data) s = Some (s', l) /\
  (forall k, k <> (d, dp, so, sp) -> dget (v_conns s') k = dget (v_conns s) k) /\
  v_ports s' = v_ports s /\ v_ctls s' = v_ctls s /\ v_protos s' = v_protos s /\ v_revs s' = v_revs s /\
  v_pending s' = v_pending s ++ [(c, (d, dp, so, sp))] /\
  dget (v_conns s') (d, dp, so, sp) = Some (Conn c None data) /\ no_dumps l = [LNew (d, dp, so, sp) c; LData (d, dp, so, sp) data].
Proof.
  intros R G [Ex Ox] Lx Px. apply reachable_inv in R. destruct (i_ports _ _ _ R) as (_ & Q2 & _). cbn [v_step]. unfold v_demux. cbn [inverse local_port]. rewrite G, (Q2 c x dp (conj Ex Ox) Px), Ex, Lx.
  do 2 eexists. split; [reflexivity|]. cbn [set_conns set_pending v_conns v_ports v_ctls v_protos v_pending v_revs].
  split; [intros k N; apply dget_dset_other; congruence|]. do 5 (split; [reflexivity|]). split; [apply dget_dset_same|]. rewrite no_dumps_app, no_dumps_dumps. reflexivity.
Qed.
(** otherwise the data is dropped and the state does not change *)
Theorem C32_dropped addr s log so sp d dp data : reachable addr s log -> dget (v_conns s) (d, dp, so, sp) = None ->
  (forall c x, is_open s c x -> sc_listen x = true -> sc_port x <> Some dp) ->
  exists l, v_step (VData so sp d dp data) s = Some (s, l) /\ no_dumps l = [].
Proof.
  intros R G N. apply reachable_inv in R. destruct (i_ports _ _ _ R) as (Q1 & _). cbn [v_step]. unfold v_demux. cbn [inverse local_port]. rewrite G.
  destruct (dget (v_ports s) dp) as [c|] eqn:Gp; [|eexists; split; [reflexivity|apply no_dumps_dumps]].
  destruct (i_owner _ _ _ R dp c Gp) as (x & Ex & Ox). destruct (Q1 dp c Gp) as (x' & Ex' & Px). assert (x' = x) by congruence. subst x'. rewrite Ex.
  destruct (sc_listen x) eqn:Lx; [|eexists; split; [reflexivity|apply no_dumps_dumps]]. destruct (N c x (conj Ex Ox) Lx Px).
Qed.
(** data is only ever written to a reverse connection opened for exactly that
    key *)
Theorem C32_right_transport addr s log k t d : reachable addr s log -> In (LWrite k t d) log -> exists c, nth_error (v_revs s) t = Some (c, k).
Proof. intros R H. destruct (reachable_sents _ _ _ R) as (_ & _ & S3). eauto. Qed.
(** every control connection in dump mode, and no other, gets one copy *)
Theorem C32_dumps addr s log so sp d dp data s' l : reachable addr s log -> v_step (VData so sp d dp data) s = Some (s', l) ->
  exists ps, NoDup ps /\ (forall p, In p ps <-> exists v, nth_error (v_protos s) p = Some v /\ vp_up v = true /\ vp_dump v = true) /\
  filter (fun e => match e with LDump _ _ _ => true | _ => false end) l = map (fun p => LDump p (so, sp, d, dp) data) ps.
Proof.
  intros R E. apply reachable_inv in R. destruct (i_dumps _ _ _ R) as [D1 D2]. exists (v_dumps s). split; [exact D1|]. split; [exact D2|].
  assert (A : forall r, filter (fun e => match e with LDump _ _ _ => true | _ => false end) r = [] ->
     filter (fun e => match e with LDump _ _ _ => true | _ => false end) (map (fun p => LDump p (so, sp, d, dp) data) (v_dumps s) ++ r) = map (fun p => LDump p (so, sp, d, dp) data) (v_dumps s)).
  { intros r Hr. rewrite filter_app, Hr, app_nil_r. clear. induction (v_dumps s); [reflexivity|]. cbn. congruence. }
  cbn [v_step] in E. unfold v_demux in E. cbn [inverse local_port] in E. injection E as E.
  destruct (dget (v_conns s) (d, dp, so, sp)) as [cd|].
  - unfold conn_write in E. destruct (cn_writer cd); injection E as _ <-; apply A; reflexivity.
  - destruct (dget (v_ports s) dp) as [c|]; [destruct (nth_error (v_ctls s) c) as [x|]; [destruct (sc_listen x)|]|]; injection E as _ <-; try (apply A; reflexivity); specialize (A [] eq_refl); rewrite app_nil_r in A; exact A.
Qed.

(** ** C33 *)
(** a connection the application has attached to: what its reverse connection
    was sent is exactly what arrived for it since it was created; before that,
    what arrived is what is buffered *)
Theorem C33_in_order addr s log k cd : reachable addr s log -> dget (v_conns s) k = Some cd ->
  match cn_writer cd with
  | Some t => sent t log = arrived k log /\ cn_buf cd = []
  | None => arrived k log = cn_buf cd
  end.
Proof.
  intros R G. destruct (reachable_sents _ _ _ R) as (_ & S2 & _). pose proof (i_track _ _ _ (reachable_inv _ _ _ R) k) as T. rewrite G in T.
  unfold arrived in *. destruct (cn_writer cd) as [t|] eqn:W.
  - split; [eapply S2; eauto|]. destruct (track k log) as [[arr wr]|]; [|contradiction]. cbn [track_ok] in T. rewrite W in T. tauto.
  - destruct (track k log) as [[arr wr]|]; [|contradiction]. cbn [track_ok] in T. rewrite W in T. destruct T as [T ->]. exact T.
Qed.
(** attaching writes the buffered bytes, once, to the new reverse connection,
    and tells the application if its control connection is up *)
Theorem C33_attach addr s log n c k cd : reachable addr s log -> nth_error (v_pending s) n = Some (c, k) -> dget (v_conns s) k = Some cd -> cn_writer cd = None ->
  exists s' l t, v_step (VSpawnOk n) s = Some (s', l) /\ nth_error (v_revs s') t = Some (c, k) /\ sent t log = [] /\
  sent t l = cn_buf cd /\ dget (v_conns s') k = Some (Conn (cn_ctl cd) (Some t) []) /\
  (forall k', k' <> k -> dget (v_conns s') k' = dget (v_conns s) k' /\ about k' l = []) /\
  (forall x v, nth_error (v_ctls s) c = Some x -> nth_error (v_protos s) (sc_proto x) = Some v -> vp_up v = true -> In (LSpawned (sc_proto x) (sc_id x) t k) l).
Proof.
  intros R En G W. destruct (reachable_sents _ _ _ R) as (S1 & _). cbn [v_step]. rewrite En. unfold spawn_ok. cbn [set_pending set_ctls set_revs v_conns v_ctls v_revs v_protos].
  rewrite G, W. do 2 eexists. exists (length (v_revs s)). split; [reflexivity|]. cbn [set_conns set_pending set_ctls set_revs v_conns v_ctls v_revs v_protos].
  split; [rewrite nth_error_app2, Nat.sub_diag by lia; reflexivity|]. split; [apply S1; lia|].
  assert (Q : forall t, sent t (match nth_error (v_ctls s) c with
     | Some x => match nth_error (v_protos s) (sc_proto x) with Some v => if vp_up v then [LSpawned (sc_proto x) (sc_id x) (length (v_revs s)) k] else [] | None => [] end
     | None => [] end) = []).
  { intros t. destruct (nth_error (v_ctls s) c) as [x|]; [|reflexivity]. destruct (nth_error (v_protos s) (sc_proto x)) as [v|]; [|reflexivity]. destruct (vp_up v); reflexivity. }
  split; [|split; [|split]].
  - rewrite sent_app, Q, app_nil_r. unfold sent. destruct (cn_buf cd); cbn; [reflexivity|]. rewrite Nat.eqb_refl, app_nil_r. reflexivity.
  - apply dget_dset_same.
  - intros k' N. split; [apply dget_dset_other; congruence|]. rewrite about_app. replace (about k' _) with (@nil vlog).
    2:{ destruct (cn_buf cd); [reflexivity|]. unfold about. cbn [filter key_of]. rewrite eqb_neq by congruence. reflexivity. }
    cbn [app]. apply about_none. destruct (nth_error (v_ctls s) c) as [x|]; [|constructor]. destruct (nth_error (v_protos s) (sc_proto x)) as [v|]; [|constructor]. destruct (vp_up v); repeat constructor.
  - intros x v Ex Ev Up. rewrite Ex, Ev, Up. apply in_or_app. right. left. reflexivity.
Qed.

(** ** C34 *)
(** what closing a set of sockets means *)
Definition released (s : vnic) (l : list vlog) (s' : vnic) (mine : nat -> Prop) : Prop :=
  (forall c x', mine c -> nth_error (v_ctls s') c = Some x' -> sc_closed x' = true) /\
  (forall c x q, mine c -> is_open s c x -> sc_port x = Some q -> ~ port_in_use s' q /\ can_listen s' q) /\
  (forall c x k cd, mine c -> is_open s c x -> dget (v_conns s) k = Some cd -> cn_ctl cd = c -> ~ In (c, k) (v_pending s) ->
     dget (v_conns s') k = None /\ forall t, cn_writer cd = Some t -> In (LClose k t) l).
Lemma can_listen_free s q : ~ port_in_use s q -> can_listen s q.
Proof.
  intros N p v id Ev Up T. cbn [v_step]. rewrite Ev, Up. cbn [negb]. replace (dhas (vp_table v) id) with false by (symmetry; apply dhas_false; exact T).
  unfold open_listen. replace (dhas (v_ports s) q) with false by (symmetry; apply dhas_false, free_dget; exact N).
  eexists. split; [reflexivity|]. exists (length (v_ctls s)). cbn. apply dget_dset_same.
Qed.
Lemma released_intro s log s1 l s' (mine : nat -> Prop) : inv None s log -> closes s l s1 -> freed s s1 ->
  (forall c x', mine c -> nth_error (v_ctls s1) c = Some x' -> sc_closed x' = true) ->
  (forall c x k, mine c -> is_open s c x -> In k (sc_keys x) -> dget (v_conns s1) k = None) ->
  v_ports s' = v_ports s1 -> v_conns s' = v_conns s1 -> v_ctls s' = v_ctls s1 -> released s l s' mine.
Proof.
  intros I A F C K Ep Ec El. split; [|split].
  - intros c x' M. rewrite El. apply C. exact M.
  - intros c x q M [Ex Ox] Px. destruct (cl_ctl _ _ _ A c x Ex) as (x' & Ex' & _). pose proof (F c x x' q (conj Ex Ox) Ex' (C c x' M Ex') Px) as D.
    assert (N : ~ port_in_use s' q) by (intros (c' & E'); rewrite Ep in E'; congruence). split; [exact N|apply can_listen_free; exact N].
  - intros c x k cd M O G Ek Np. destruct (i_keys _ _ _ I c x k cd O G Ek) as [H|H]; [discriminate| |contradiction]. rewrite Ec. pose proof (K c x k M O H) as D. split; [exact D|].
    intros t W. destruct (cl_conn _ _ _ A k) as [[e _]|(cd' & e & _ & a)]; [congruence|]. rewrite G in e. injection e as <-. unfold gone_log in a. rewrite W in a.
    assert (H' : In (LClose k t) (about k l)) by (rewrite a; right; left; reflexivity). apply filter_In in H'. tauto.
Qed.
(** the tables of connection ids are dicts *)
Definition tables_ok (s : vnic) : Prop := forall p v, nth_error (v_protos s) p = Some v -> NoDup (dkeys (vp_table v)).
Lemma tables_upd s p f : tables_ok s -> (forall v, NoDup (dkeys (vp_table v)) -> NoDup (dkeys (vp_table (f v)))) -> forall q v, nth_error (upd p f (v_protos s)) q = Some v -> NoDup (dkeys (vp_table v)).
Proof.
  intros T F q v E. rewrite nth_upd in E. destruct (Nat.eqb_spec p q) as [<-|]; [|eapply T; eauto]. destruct (nth_error (v_protos s) p) as [w|] eqn:Ew; [|discriminate]. injection E as <-. apply F. eapply T; eauto.
Qed.
Lemma tables_step e s log s' l : inv None s log -> tables_ok s -> v_step e s = Some (s', l) -> tables_ok s'.
Proof.
  intros I T E. pose proof (i_ports _ _ _ I) as P.
  assert (Cl : forall a b la, closes a la b -> tables_ok a -> tables_ok b) by (intros a b la A Ta; destruct (cl_same _ _ _ A) as (_ & Sp & _); unfold tables_ok; rewrite Sp; exact Ta).
  destruct e as [|p id dest dport|p id port|p id|p on|p|n|n|t|so sp d dp data]; cbn [v_step] in E.
  - injection E as <- <-. intros p v. cbn. intros Ev. destruct (Nat.lt_ge_cases p (length (v_protos s))) as [H|H]; [rewrite nth_error_app1 in Ev by exact H; eapply T; eauto|].
    rewrite nth_error_app2 in Ev by exact H. destruct (p - length (v_protos s))%nat as [|m]; [cbn in Ev; injection Ev as <-; constructor|destruct m; discriminate].
  - destruct (nth_error (v_protos s) p) as [v|]; [|injection E as <- <-; exact T]. destruct (negb (vp_up v)); [injection E as <- <-; exact T|].
    destruct (dhas (vp_table v) id); [injection E as <- <-; exact T|]. unfold open_connect in E. destruct (next_free _ _); [|discriminate]. injection E as <- <-.
    unfold tables_ok. cbn [set_pending set_conns set_ports set_pos add_ctl set_protos v_protos]. apply tables_upd; [exact T|]. intros w Hw. apply nodup_dset. exact Hw.
  - destruct (nth_error (v_protos s) p) as [v|]; [|injection E as <- <-; exact T]. destruct (negb (vp_up v)); [injection E as <- <-; exact T|].
    destruct (dhas (vp_table v) id); [injection E as <- <-; exact T|]. unfold open_listen in E.
    destruct (dhas (v_ports s) port); injection E as <- <-; unfold tables_ok; cbn [set_ports add_ctl set_protos v_protos]; (apply tables_upd; [exact T|]); intros w Hw; apply nodup_dset; exact Hw.
  - destruct (nth_error (v_protos s) p) as [v|]; [|injection E as <- <-; exact T]. destruct (negb (vp_up v)); [injection E as <- <-; exact T|].
    destruct (dget (vp_table v) id) as [c|]; [|injection E as <- <-; exact T]. destruct (ctl_close_ok c s P) as (s1 & l1 & E1 & A1 & _). rewrite E1 in E. injection E as <- <-.
    unfold tables_ok. cbn [set_protos v_protos]. apply tables_upd; [eapply Cl; eauto|]. intros w Hw. apply nodup_ddel. exact Hw.
  - destruct (nth_error (v_protos s) p) as [v|]; [|injection E as <- <-; exact T]. destruct (negb (vp_up v)); [injection E as <- <-; exact T|].
    destruct (Bool.eqb on (vp_dump v)); injection E as <- <-; [exact T|]. unfold tables_ok. cbn [set_dumps set_protos v_protos]. apply tables_upd; auto.
  - destruct (nth_error (v_protos s) p) as [v|]; [|injection E as <- <-; exact T]. destruct (negb (vp_up v)); [injection E as <- <-; exact T|].
    set (s0 := if vp_dump v then _ else s) in E. assert (P0 : ports_ok s0) by (unfold s0; destruct (vp_dump v); exact P). assert (T0 : tables_ok s0) by (unfold s0; destruct (vp_dump v); exact T).
    destruct (close_all_ok (map snd (vp_table v)) s0 P0) as (s1 & l1 & E1 & A1 & _). rewrite E1 in E. injection E as <- <-.
    unfold tables_ok. cbn [set_protos v_protos]. apply tables_upd; [eapply Cl; eauto|]. intros w Hw. constructor.
  - destruct (nth_error (v_pending s) n) as [[c k]|]; [|injection E as <- <-; exact T]. injection E as E. unfold spawn_ok in E. cbn [set_pending set_ctls set_revs v_conns] in E.
    destruct (dget (v_conns s) k) as [cd|]; [|injection E as <- <-; exact T]. destruct (cn_writer cd); injection E as <- <-; exact T.
  - destruct (nth_error (v_pending s) n) as [[c k]|]; [|injection E as <- <-; exact T]. injection E as E.
    destruct (ctl_close_ok c (set_pending (remove_nth n (v_pending s)) s) P) as (s1 & l1 & E1 & A1 & _). rewrite E1 in E. injection E as <- <-. eapply Cl; [exact A1|exact T].
  - destruct (nth_error (v_revs s) t) as [[c k]|]; [|injection E as <- <-; exact T]. destruct (nth_error (v_ctls s) c) as [x|]; [|injection E as <- <-; exact T]. injection E as E. destruct (sc_listen x).
    + destruct (conn_close_ok k s P) as (s1 & l1 & E1 & A1 & _). rewrite E1 in E. injection E as <- <-. eapply Cl; eauto.
    + destruct (ctl_close_ok c s P) as (s1 & l1 & E1 & A1 & _). rewrite E1 in E. injection E as <- <-. eapply Cl; eauto.
  - injection E as E. unfold v_demux in E. destruct (dget (v_conns s) _) as [cd|].
    + destruct (conn_write _ _ _). injection E as <- <-. exact T.
    + destruct (dget (v_ports s) _) as [c|]; [|injection E as <- <-; exact T]. destruct (nth_error (v_ctls s) c) as [x|]; [|injection E as <- <-; exact T]. destruct (sc_listen x); injection E as <- <-; exact T.
Qed.
Lemma reachable_tables addr s log : reachable addr s log -> tables_ok s.
Proof.
  intros (es & E). assert (G : forall es s0 log0 s l, inv None s0 log0 -> tables_ok s0 -> v_run es s0 = Some (s, l) -> tables_ok s).
  { clear. induction es as [|e es IH]; intros s0 log0 s l I T E; cbn [v_run] in E; [injection E as <- <-; exact T|].
    destruct (v_step e s0) as [[s1 l1]|] eqn:E1; [|discriminate]. destruct (v_run es s1) as [[s2 l2]|] eqn:E2; [|discriminate]. injection E as <- <-.
    eapply IH; [eapply v_step_inv|eapply tables_step|]; eauto. }
  eapply G; [apply inv_new| |exact E]. intros p v Ev. destruct p; discriminate.
Qed.
(** a close packet *)
Theorem C34_close addr s log p v id c : reachable addr s log -> nth_error (v_protos s) p = Some v -> vp_up v = true -> dget (vp_table v) id = Some c ->
  exists s' l, v_step (VClose p id) s = Some (s', l) /\ released s l s' (fun c' => c' = c) /\
  exists v', nth_error (v_protos s') p = Some v' /\ vp_up v' = true /\ dget (vp_table v') id = None.
Proof.
  intros R Ev Up T. pose proof (reachable_tables _ _ _ R p v Ev) as Nt. apply reachable_inv in R. cbn [v_step]. rewrite Ev, Up, T. cbn [negb].
  destruct (ctl_close_ok c s (i_ports _ _ _ R)) as (s1 & l1 & E1 & A1 & P1 & F1 & C1 & K1). rewrite E1. do 2 eexists. split; [reflexivity|]. split.
  - eapply released_intro with (1 := R) (2 := A1); try reflexivity; auto.
    + intros c' x' ->. apply C1.
    + intros c' x k ->. apply K1.
  - destruct (cl_same _ _ _ A1) as (_ & Sp & _). cbn [set_protos v_protos]. rewrite Sp, (nth_upd_same _ _ _ _ Ev). eexists. split; [reflexivity|]. cbn [table_del vp_up vp_table]. split; [exact Up|rewrite dget_ddel by exact Nt; destruct (eq_dec id id); congruence].
Qed.
(** losing a control connection closes every socket it opened *)
Theorem C34_lost addr s log p v : reachable addr s log -> nth_error (v_protos s) p = Some v -> vp_up v = true ->
  exists s' l, v_step (VLost p) s = Some (s', l) /\ released s l s' (fun c => exists x, is_open s c x /\ sc_proto x = p) /\
  (forall c x, is_open s' c x -> sc_proto x <> p) /\ ~ In p (v_dumps s').
Proof.
  intros R Ev Up. pose proof (reachable_inv _ _ _ R) as I.
  destruct (v_step (VLost p) s) as [[s' l]|] eqn:E.
  2:{ exfalso. cbn [v_step] in E. rewrite Ev, Up in E. cbn [negb] in E. destruct (close_all _ _). discriminate. }
  exists s', l. split; [reflexivity|]. pose proof (v_step_inv _ _ _ _ _ I E) as I'.
  assert (Ev' : nth_error (v_protos s') p = Some (Vproto false [] false)).
  { cbn [v_step] in E. rewrite Ev, Up in E. cbn [negb] in E. set (s0 := if vp_dump v then _ else s) in E. assert (P0 : ports_ok s0) by (unfold s0; destruct (vp_dump v); exact (i_ports _ _ _ I)).
    destruct (close_all_ok (map snd (vp_table v)) s0 P0) as (s1 & l1 & E1 & A1 & _). rewrite E1 in E. injection E as <- <-. destruct (cl_same _ _ _ A1) as (_ & Sp & _).
    cbn [set_protos v_protos]. rewrite Sp. apply (nth_upd_same p (fun _ => Vproto false [] false) (v_protos s0) v). unfold s0. destruct (vp_dump v); exact Ev. }
  split; [|split].
  - cbn [v_step] in E. rewrite Ev, Up in E. cbn [negb] in E.
    set (ds := if vp_dump v then (if smem (v_dumps s) p then sremove (v_dumps s) p else v_dumps s) else v_dumps s).
    assert (Hs : (if vp_dump v then set_dumps (if smem (v_dumps s) p then sremove (v_dumps s) p else v_dumps s) s else s) = set_dumps ds s) by (unfold ds; destruct (vp_dump v); [reflexivity|symmetry; apply set_dumps_id]).
    rewrite Hs in E. clear Hs. assert (Ps : ports_ok (set_dumps ds s)) by exact (i_ports _ _ _ I).
    destruct (close_all_ok (map snd (vp_table v)) _ Ps) as (s1 & l1 & E1 & A1 & P1 & F1 & C1 & K1). rewrite E1 in E. injection E as <- <-.
    assert (A2 : closes s l1 (set_dumps (v_dumps s) s1)) by (destruct A1 as [(B1 & B2 & B3 & B4 & B5 & B6)]; constructor; vsimpl; auto 10).
    assert (Mi : forall c x, is_open s c x -> sc_proto x = p -> In c (map snd (vp_table v))).
    { intros c x O Px. destruct (i_table _ _ _ I c x O) as (w & Ew & _ & Tw). assert (w = v) by congruence. subst w. apply dget_in in Tw. apply in_map_iff. exists (sc_id x, c). auto. }
    eapply released_intro with (1 := I) (2 := A2); try reflexivity.
    + exact F1.
    + intros c x' (x & O & Px). vsimpl. apply C1. eapply Mi; eauto.
    + intros c x k (x0 & O0 & Px) O Hk. vsimpl. apply (K1 c x k); auto. apply (Mi c x0); auto.
  - intros c x O Px. destruct (i_table _ _ _ I' c x O) as (w & Ew & Uw & _). rewrite Px, Ev' in Ew. injection Ew as <-. discriminate.
  - intros H. apply (i_dumps _ _ _ I') in H. destruct H as (w & Ew & Uw & _). rewrite Ev' in Ew. injection Ew as <-. discriminate.
Qed.

(** closing a socket whose spawned connections are its own touches nothing
    else: other connections, ports and sockets stay as they are *)
Lemma conns_exact f c ks : forall s, NoDup (dkeys (v_conns s)) -> (exists x, nth_error (v_ctls s) c = Some x /\ sc_closed x = true /\ sc_keys x = []) ->
  (forall k cd, In k ks -> dget (v_conns s) k = Some cd -> cn_ctl cd = c) ->
  exists s' l, close_connections f ks s = (s', l) /\ v_ports s' = v_ports s /\ v_ctls s' = v_ctls s /\
    (forall k, dget (v_conns s') k = if smem ks k then None else dget (v_conns s) k).
Proof.
  induction ks as [|k ks IH]; intros s N (x & Ex & Cx & Kx) H; cbn [close_connections].
  - exists s, []. auto.
  - assert (D : exists s1 l1, close_connection f k s = (s1, l1) /\ v_ports s1 = v_ports s /\ v_ctls s1 = v_ctls s /\ v_conns s1 = ddel (v_conns s) k).
    { unfold close_connection. destruct (dget (v_conns s) k) as [cd|] eqn:G.
      - rewrite (H k cd (or_introl eq_refl) G). cbn [set_conns v_ctls set_ctls]. rewrite (nth_upd_same _ _ _ _ Ex). cbn [sc_drop_key sc_closed]. rewrite Cx. cbn [negb andb].
        do 2 eexists. split; [reflexivity|]. split; [reflexivity|]. split; [|reflexivity]. cbn [v_ctls set_ctls]. unfold upd. rewrite Ex.
        replace (sc_drop_key k x) with x by (destruct x; cbn in *; subst; reflexivity).
        apply nth_error_split in Ex. destruct Ex as (a & b & -> & <-). rewrite firstn_app, firstn_all, Nat.sub_diag. cbn [firstn]. rewrite app_nil_r. f_equal. f_equal.
        clear. induction a as [|z a IH]; [reflexivity|exact IH].
      - do 2 eexists. split; [reflexivity|]. split; [reflexivity|]. split; [reflexivity|]. symmetry. apply ddel_absent, dget_none. exact G. }
    destruct D as (s1 & l1 & -> & P1 & C1 & D1). destruct (IH s1) as (s2 & l2 & -> & P2 & C2 & D2).
    + rewrite D1. apply nodup_ddel. exact N.
    + rewrite C1. eauto.
    + intros k' cd Hk G. apply (H k' cd); [right; exact Hk|]. rewrite D1, dget_ddel in G by exact N. destruct (eq_dec k' k); [discriminate|exact G].
    + do 2 eexists. split; [reflexivity|]. split; [congruence|]. split; [congruence|]. intros k'. rewrite D2, D1, dget_ddel by exact N. 
      destruct (smem (k :: ks) k') eqn:M.
      * apply smem_true in M. destruct (smem ks k') eqn:M'; [reflexivity|]. destruct (eq_dec k' k) as [->|Nk]; [reflexivity|]. destruct M as [M|M]; [congruence|]. apply smem_true in M. congruence.
      * destruct (smem ks k') eqn:M'; [apply smem_true in M'; assert (M2 : smem (k :: ks) k' = true) by (apply smem_true; right; exact M'); congruence|].
        destruct (eq_dec k' k) as [->|Nk]; [|reflexivity]. assert (M2 : smem (k :: ks) k = true) by (apply smem_true; left; reflexivity). congruence.
Qed.
Theorem C34_close_frame addr s log p v id c x : reachable addr s log -> nth_error (v_protos s) p = Some v -> vp_up v = true -> dget (vp_table v) id = Some c -> is_open s c x ->
  (forall k cd, In k (sc_keys x) -> dget (v_conns s) k = Some cd -> cn_ctl cd = c) ->
  exists s' l, v_step (VClose p id) s = Some (s', l) /\
  (forall k, ~ In k (sc_keys x) -> dget (v_conns s') k = dget (v_conns s) k) /\
  (forall q, sc_port x <> Some q -> dget (v_ports s') q = dget (v_ports s) q) /\
  (forall c', c' <> c -> nth_error (v_ctls s') c' = nth_error (v_ctls s) c').
Proof.
  intros R Ev Up T [Ex Ox] Own. apply reachable_inv in R. destruct (i_ports _ _ _ R) as (Q1 & Q2 & Q3 & Q4). cbn [v_step]. rewrite Ev, Up, T. cbn [negb]. unfold ctl_close.
  destruct (length (v_ctls s)) as [|f] eqn:Lf; [assert (c < length (v_ctls s))%nat by (apply nth_error_Some; congruence); lia|].
  cbn [close_ctl]. rewrite Ex, Ox. destruct (conns_exact (close_ctl f) c (sc_keys x) (set_ctls (upd c sc_shut (v_ctls s)) s)) as (s2 & l2 & E2 & P2 & C2 & D2).
  - exact Q4.
  - exists (sc_shut x). split; [apply nth_upd_same; exact Ex|]. auto.
  - exact Own.
  - rewrite E2. cbn [set_ctls v_ports v_ctls v_conns] in *.
    assert (M : forall k, ~ In k (sc_keys x) -> dget (v_conns s2) k = dget (v_conns s) k).
    { intros k Nk. rewrite D2. destruct (smem (sc_keys x) k) eqn:Sk; [apply smem_true in Sk; contradiction|reflexivity]. }
    assert (O : forall c', c' <> c -> nth_error (v_ctls s2) c' = nth_error (v_ctls s) c') by (intros c' Nc; rewrite C2; apply nth_upd_other; congruence).
    destruct (sc_port x) as [q|] eqn:Px.
    + rewrite P2, (Q2 c x q (conj Ex Ox) Px).
      assert (Cl : close_ctl f c (set_ports (ddel (v_ports s) q) s2) = (set_ports (ddel (v_ports s) q) s2, [])).
      { destruct f; cbn [close_ctl]; [reflexivity|]. cbn [set_ports v_ctls]. rewrite C2, (nth_upd_same _ _ _ _ Ex). reflexivity. }
      rewrite Cl. do 2 eexists. split; [reflexivity|]. cbn [set_protos set_ports v_conns v_ports v_ctls]. split; [exact M|]. split; [|exact O]. intros q' Nq. apply dget_ddel_other. congruence.
    + do 2 eexists. split; [reflexivity|]. cbn [set_protos v_conns v_ports v_ctls]. split; [exact M|]. split; [|exact O]. intros q' _. congruence.
Qed.

(** ** Concrete runs *)
Definition A : pystr := [49].
Definition B : pystr := [50].
(* a listener on 80; two packets before the reverse connection is up, one
   after; a connect; close *)
Definition run1 := [VMade; VListen 0 7 80; VData B 5000 A 80 [1;2]; VData B 5000 A 80 [3]; VSpawnOk 0; VData B 5000 A 80 [4]; VConnect 0 8 B 90].
Example run1_ok : exists s log, v_run run1 (vnic_new A) = Some (s, log) /\ sent 0 log = [1;2;3;4] /\ arrived (A, 80, B, 5000) log = [1;2;3;4] /\
  port_in_use s 80 /\ port_in_use s 2000 /\ dget (v_conns s) (A, 80, B, 5000) = Some (Conn 0 (Some 0%nat) []) /\
  dget (v_conns s) (A, 2000, B, 90) = Some (Conn 1 None []) /\ v_pending s = [(1%nat, (A, 2000, B, 90))].
Proof.
  do 2 eexists. split; [vm_compute; reflexivity|].
  split; [reflexivity|]. split; [reflexivity|]. split; [eexists; reflexivity|]. split; [eexists; reflexivity|]. auto.
Qed.
Example run1_close : exists s log s' l, v_run run1 (vnic_new A) = Some (s, log) /\ v_step (VClose 0 7) s = Some (s', l) /\ l = [LGone (A, 80, B, 5000); LClose (A, 80, B, 5000) 0] /\
  dget (v_ports s') 80 = None /\ dget (v_ports s') 2000 = Some 1%nat /\ dget (v_conns s') (A, 80, B, 5000) = None /\ dget (v_conns s') (A, 2000, B, 90) = Some (Conn 1 None []).
Proof.
  do 4 eexists. split; [vm_compute; reflexivity|]. split; [vm_compute; reflexivity|]. repeat split.
Qed.
(** Refuted: "closing a port closes all connections spawned from it" -- one
    whose reverse connection is still being opened stays in the table.  A new
    listener on the same port never gets data from that peer until the old
    reverse connection is made, and then the data goes to the old owner. *)
Definition run2 := [VMade; VListen 0 7 80; VData B 5000 A 80 [1]; VClose 0 7; VListen 0 9 80; VData B 5000 A 80 [2]; VSpawnOk 0].
Example C34_pending_leaks : exists s log, v_run run2 (vnic_new A) = Some (s, log) /\
  dget (v_ports s) 80 = Some 1%nat /\ dget (v_conns s) (A, 80, B, 5000) = Some (Conn 0 (Some 0%nat) []) /\ sent 0 log = [1;2] /\
  In (LSpawned 0 7 0 (A, 80, B, 5000)) log.
Proof.
  do 2 eexists. split; [vm_compute; reflexivity|].
  split; [reflexivity|]. split; [reflexivity|]. split; [reflexivity|]. cbn. tauto.
Qed.
(** Refuted likewise: a failed reverse connection closes the socket but leaves
    the connection itself in the table *)
Example C34_failed_spawn_leaks : exists s log, v_run [VMade; VListen 0 7 80; VData B 5000 A 80 [1]; VSpawnFail 0] (vnic_new A) = Some (s, log) /\
  dget (v_ports s) 80 = None /\ dget (v_conns s) (A, 80, B, 5000) = Some (Conn 0 None [1]).
Proof. do 2 eexists. split; [vm_compute; reflexivity|]. split; reflexivity. Qed.
(** Refuted: "a refused listen leaves nothing behind" -- the connection id
    stays taken until the client closes it *)
Example C31_refused_listen_keeps_id : exists s log, v_run [VMade; VListen 0 7 80; VListen 0 8 80; VListen 0 8 81] (vnic_new A) = Some (s, log) /\
  log = [LResp 0 7 (Some 80); LResp 0 8 None; LResp 0 8 None] /\ dget (v_ports s) 81 = None.
Proof. do 2 eexists. split; [vm_compute; reflexivity|]. split; reflexivity. Qed.

Print Assumptions C31_connect.
Print Assumptions C31_connect_total.
Print Assumptions C31_owner.
Print Assumptions C32_dropped.
Print Assumptions C32_right_transport.
Print Assumptions C33_in_order.
Print Assumptions C33_attach.
Print Assumptions C34_close.
Print Assumptions C34_lost.
Print Assumptions C34_close_frame.
