(** * Proofs about the VNIC, part 3: what was written to each reverse
    connection *)
From Coq Require Import List ZArith Bool Lia.
From Verif Require Import PyBase PyLemmas VnicModel VnicSpec VnicProofs VnicInv.
Import ListNotations.
Open Scope Z_scope.

Lemma sent_app t l1 l2 : sent t (l1 ++ l2) = sent t l1 ++ sent t l2.
Proof. unfold sent. rewrite map_app, concat_app. reflexivity. Qed.
Definition no_write (l : list vlog) : Prop := Forall (fun e => match e with LWrite _ _ _ => False | _ => True end) l.
Lemma sent_none t l : no_write l -> sent t l = [].
Proof. induction 1 as [|e l H F IH]; [reflexivity|]. unfold sent in *. cbn [map concat]. rewrite IH, app_nil_r. destruct e; tauto. Qed.

Definition sents (s : vnic) (log : list vlog) : Prop :=
  (forall t, (length (v_revs s) <= t)%nat -> sent t log = []) /\
  (forall k cd t, dget (v_conns s) k = Some cd -> cn_writer cd = Some t -> sent t log = arrived k log) /\
  (forall k t d, In (LWrite k t d) log -> exists c, nth_error (v_revs s) t = Some (c, k)).

(** a step that writes nothing and keeps the attached connections *)
Lemma sents_quiet s log s' l : sents s log -> no_write l -> v_revs s' = v_revs s ->
  (forall k cd t, dget (v_conns s') k = Some cd -> cn_writer cd = Some t -> dget (v_conns s) k = Some cd /\ arrived k (log ++ l) = arrived k log) ->
  sents s' (log ++ l).
Proof.
  intros (S1 & S2 & S3) N R H. split; [|split].
  - intros t Ht. rewrite sent_app, sent_none with (l := l), app_nil_r by exact N. apply S1. rewrite <- R. exact Ht.
  - intros k cd t E W. destruct (H k cd t E W) as [E' A]. rewrite sent_app, sent_none with (l := l), app_nil_r, A by exact N. eapply S2; eauto.
  - intros k t d Hi. apply in_app_or in Hi. rewrite R. destruct Hi as [Hi|Hi]; [eauto|]. unfold no_write in N. rewrite Forall_forall in N. destruct (N _ Hi).
Qed.
Lemma arrived_about k log l : about k l = [] -> arrived k (log ++ l) = arrived k log.
Proof. intros E. unfold arrived. rewrite track_app, track_about, E. reflexivity. Qed.
Lemma about_none k l : Forall (fun e => key_of e = None) l -> about k l = [].
Proof.
  induction 1 as [|e l H F IH]; [reflexivity|]. unfold about in *. cbn [filter]. rewrite H, IH. reflexivity.
Qed.
Lemma closes_nowrite s l s' : closes s l s' -> no_write l.
Proof. intros A. apply Forall_impl with (2 := cl_log _ _ _ A). intros e (k & [->|(t & ->)]); exact I. Qed.
Lemma sents_closes s log s' l : sents s log -> closes s l s' -> sents s' (log ++ l).
Proof.
  intros S A. destruct (cl_same _ _ _ A) as (_ & _ & _ & _ & R & _). apply sents_quiet with (s := s); auto.
  - eapply closes_nowrite; eauto.
  - intros k cd t E W. destruct (cl_conn _ _ _ A k) as [[e a]|(cd' & _ & e & _)]; [|congruence]. split; [congruence|apply arrived_about; exact a].
Qed.
Lemma sents_log s log s' l : sents s log -> Forall (fun e => key_of e = None) l -> v_revs s' = v_revs s -> v_conns s' = v_conns s -> sents s' (log ++ l).
Proof.
  intros S F R C. apply sents_quiet with (s := s); auto.
  - apply Forall_impl with (2 := F). intros e He. destruct e; try exact I. discriminate.
  - intros k cd t E W. rewrite C in E. split; [exact E|apply arrived_about, about_none; exact F].
Qed.
Lemma sents_state s log s' : sents s log -> v_revs s' = v_revs s -> v_conns s' = v_conns s -> sents s' log.
Proof. intros S R C. rewrite <- (app_nil_r log). apply sents_log with (s := s); auto. Qed.
(** a new connection *)
Lemma sents_new s log s' k c cd l : sents s log -> v_revs s' = v_revs s -> v_conns s' = dset (v_conns s) k (Conn c None cd) ->
  no_write l -> (forall k', k' <> k -> about k' l = []) -> sents s' (log ++ l).
Proof.
  intros S R C N A. apply sents_quiet with (s := s); auto. intros k' cd' t E W. rewrite C, dget_dset in E. destruct (eq_dec k' k) as [->|Nk].
  - injection E as <-. discriminate.
  - split; [exact E|apply arrived_about, A; exact Nk].
Qed.

Lemma v_step_sents e s log s' l : inv None s log -> sents s log -> v_step e s = Some (s', l) -> sents s' (log ++ l).
Proof.
  intros I S E. pose proof (i_ports _ _ _ I) as P.
  destruct e as [|p id dest dport|p id port|p id|p on|p|n|n|t|so sp d dp data]; cbn [v_step] in E.
  - injection E as <- <-. rewrite app_nil_r. apply sents_state with (s := s); auto.
  - destruct (nth_error (v_protos s) p) as [v|]; [|injection E as <- <-; rewrite app_nil_r; exact S].
    destruct (negb (vp_up v)); [injection E as <- <-; rewrite app_nil_r; exact S|].
    destruct (dhas (vp_table v) id); [injection E as <- <-; apply sents_log with (s := s); auto; repeat constructor|].
    unfold open_connect in E. destruct (next_free (v_ports s) (v_pos s)) as [port|]; [|discriminate]. injection E as <- <-.
    set (k := (v_addr s, port, dest, dport)). eapply sents_new with (s := s) (k := k); vsimpl; try reflexivity; auto.
    + apply Forall_app. split; [destruct (dhas (v_conns s) k); repeat constructor|repeat constructor].
    + intros k' N. rewrite about_app. unfold about. cbn [filter key_of app]. rewrite (eqb_neq (Some k)) by congruence. cbn. destruct (dhas (v_conns s) k); cbn [filter key_of]; [rewrite (eqb_neq (Some k)) by congruence|]; reflexivity.
  - destruct (nth_error (v_protos s) p) as [v|]; [|injection E as <- <-; rewrite app_nil_r; exact S].
    destruct (negb (vp_up v)); [injection E as <- <-; rewrite app_nil_r; exact S|].
    destruct (dhas (vp_table v) id); [injection E as <- <-; apply sents_log with (s := s); auto; repeat constructor|].
    unfold open_listen in E. destruct (dhas (v_ports s) port); injection E as <- <-; apply sents_log with (s := s); auto; repeat constructor.
  - destruct (nth_error (v_protos s) p) as [v|]; [|injection E as <- <-; rewrite app_nil_r; exact S].
    destruct (negb (vp_up v)); [injection E as <- <-; rewrite app_nil_r; exact S|].
    destruct (dget (vp_table v) id) as [c|]; [|injection E as <- <-; rewrite app_nil_r; exact S].
    destruct (ctl_close_ok c s P) as (s1 & l1 & E1 & A1 & _). rewrite E1 in E. injection E as <- <-.
    apply sents_state with (s := s1); auto. eapply sents_closes; eauto.
  - destruct (nth_error (v_protos s) p) as [v|]; [|injection E as <- <-; rewrite app_nil_r; exact S].
    destruct (negb (vp_up v)); [injection E as <- <-; rewrite app_nil_r; exact S|].
    destruct (Bool.eqb on (vp_dump v)); injection E as <- <-; rewrite app_nil_r; apply sents_state with (s := s); auto.
  - destruct (nth_error (v_protos s) p) as [v|]; [|injection E as <- <-; rewrite app_nil_r; exact S].
    destruct (negb (vp_up v)); [injection E as <- <-; rewrite app_nil_r; exact S|].
    set (s0 := if vp_dump v then _ else s) in E. assert (P0 : ports_ok s0) by (unfold s0; destruct (vp_dump v); exact P).
    destruct (close_all_ok (map snd (vp_table v)) s0 P0) as (s1 & l1 & E1 & A1 & _). rewrite E1 in E. injection E as <- <-.
    apply sents_state with (s := s1); auto. apply sents_closes with (s := s0); auto. apply sents_state with (s := s); auto; unfold s0; destruct (vp_dump v); reflexivity.
  - destruct (nth_error (v_pending s) n) as [[c k]|]; [|injection E as <- <-; rewrite app_nil_r; exact S]. injection E as E.
    unfold spawn_ok in E. vsimpl. pose proof S as (S1 & S2 & S3).
    assert (Sr : sents (set_revs (v_revs s ++ [(c, k)]) (set_ctls (upd c (sc_add_key k) (v_ctls s)) (set_pending (remove_nth n (v_pending s)) s))) log).
    { split; [|split]; vsimpl.
      - intros t Ht. apply S1. rewrite app_length in Ht. lia.
      - exact S2.
      - intros k' t d Hi. destruct (S3 k' t d Hi) as (c' & Ec). exists c'. rewrite nth_error_app1; [exact Ec|apply nth_error_Some; congruence]. }
    destruct (dget (v_conns s) k) as [cd|] eqn:G; [|injection E as <- <-; rewrite app_nil_r; exact Sr].
    destruct (cn_writer cd) as [t0|] eqn:W; [injection E as <- <-; rewrite app_nil_r; exact Sr|].
    match type of E with (?a, ?b ++ ?d) = _ => set (l2 := b) in E; set (l3 := d) in E end. injection E as <- <-.
    rewrite app_assoc. apply sents_log with (s := set_conns (dset (v_conns s) k (Conn (cn_ctl cd) (Some (length (v_revs s))) [])) (set_revs (v_revs s ++ [(c, k)]) (set_ctls (upd c (sc_add_key k) (v_ctls s)) (set_pending (remove_nth n (v_pending s)) s)))); try reflexivity.
    2:{ unfold l3. clear. destruct (nth_error (v_ctls s) c) as [x|]; [|constructor]. destruct (nth_error (v_protos s) (sc_proto x)) as [v|]; [|constructor]. destruct (vp_up v); repeat constructor. }
    assert (L2 : forall t, sent t l2 = if Nat.eqb t (length (v_revs s)) then cn_buf cd else []).
    { intros t. unfold l2, sent. destruct (cn_buf cd); cbn; [destruct (Nat.eqb _ _); reflexivity|]. rewrite Nat.eqb_sym. destruct (Nat.eqb _ _); [apply app_nil_r|reflexivity]. }
    assert (Ab : forall k', k' <> k -> about k' l2 = []).
    { intros k' N. unfold l2, about. destruct (cn_buf cd); cbn [filter key_of]; [reflexivity|]. rewrite eqb_neq by congruence. reflexivity. }
    split; [|split]; vsimpl.
    + intros t Ht. rewrite app_length in Ht. cbn in Ht. rewrite sent_app, L2. destruct (Nat.eqb_spec t (length (v_revs s))); [lia|]. rewrite app_nil_r. apply S1. lia.
    + intros k' cd' t E' W'. rewrite dget_dset in E'. rewrite sent_app, L2. destruct (eq_dec k' k) as [->|N].
      * injection E' as <-. cbn in W'. injection W' as <-. rewrite Nat.eqb_refl, S1 by lia. cbn [app].
        pose proof (i_track _ _ _ I k) as T. rewrite G in T. unfold arrived. rewrite track_app. destruct (track k log) as [[arr wr]|]; [|contradiction]. cbn [track_ok] in T. rewrite W in T. destruct T as [T ->]. cbn in T. subst arr.
        unfold l2. destruct (cn_buf cd); cbn [fold_left]; [reflexivity|]. rewrite step_same by reflexivity. reflexivity.
      * rewrite arrived_about by (apply Ab; exact N). destruct (i_revs _ _ _ I k' cd' t E' W') as (c' & Ec). assert (t < length (v_revs s))%nat by (apply nth_error_Some; congruence).
        destruct (Nat.eqb_spec t (length (v_revs s))); [lia|]. rewrite app_nil_r. eauto.
    + intros k' t d Hi. apply in_app_or in Hi. destruct Hi as [Hi|Hi].
      * destruct (S3 k' t d Hi) as (c' & Ec). exists c'. rewrite nth_error_app1; [exact Ec|apply nth_error_Some; congruence].
      * unfold l2 in Hi. destruct (cn_buf cd); [destruct Hi|]. destruct Hi as [Hi|[]]. injection Hi as <- <- <-. exists c. rewrite nth_error_app2, Nat.sub_diag by lia. reflexivity.
  - destruct (nth_error (v_pending s) n) as [[c k]|]; [|injection E as <- <-; rewrite app_nil_r; exact S]. injection E as E.
    destruct (ctl_close_ok c (set_pending (remove_nth n (v_pending s)) s) P) as (s1 & l1 & E1 & A1 & _). rewrite E1 in E. injection E as <- <-.
    apply sents_closes with (2 := A1). apply sents_state with (s := s); auto.
  - destruct (nth_error (v_revs s) t) as [[c k]|]; [|injection E as <- <-; rewrite app_nil_r; exact S].
    destruct (nth_error (v_ctls s) c) as [x|]; [|injection E as <- <-; rewrite app_nil_r; exact S]. injection E as E. destruct (sc_listen x).
    + destruct (conn_close_ok k s P) as (s1 & l1 & E1 & A1 & _). rewrite E1 in E. injection E as <- <-. eapply sents_closes; eauto.
    + destruct (ctl_close_ok c s P) as (s1 & l1 & E1 & A1 & _). rewrite E1 in E. injection E as <- <-. eapply sents_closes; eauto.
  - injection E as E. unfold v_demux in E. set (k := inverse (so, sp, d, dp)) in *.
    set (dumps := map (fun p => LDump p (so, sp, d, dp) data) (v_dumps s)) in *.
    assert (Fd : Forall (fun e => key_of e = None) dumps) by (unfold dumps; apply Forall_forall; intros e H; apply in_map_iff in H; destruct H as (q & <- & _); reflexivity).
    pose proof (sents_log s log s dumps S Fd eq_refl eq_refl) as Sd. pose proof (inv_log _ _ _ _ I Fd) as Id.
    destruct (dget (v_conns s) k) as [cd|] eqn:G.
    + unfold conn_write in E. destruct (cn_writer cd) as [t|] eqn:W; injection E as <- <-; rewrite app_assoc; destruct Sd as (S1 & S2 & S3).
      * destruct (i_revs _ _ _ I k cd t G W) as (c & Ec). assert (Lt : (t < length (v_revs s))%nat) by (apply nth_error_Some; congruence).
        assert (Sn : forall t', sent t' [LData k data; LWrite k t data] = if Nat.eqb t' t then data else []).
        { intros t'. unfold sent. cbn. rewrite Nat.eqb_sym. destruct (Nat.eqb _ _); [apply app_nil_r|reflexivity]. }
        split; [|split]; vsimpl.
        -- intros t' Ht. rewrite sent_app, Sn, S1 by exact Ht. destruct (Nat.eqb_spec t' t); [lia|reflexivity].
        -- intros k' cd' t' E' W'. rewrite dget_dset in E'. rewrite sent_app, Sn. destruct (eq_dec k' k) as [->|N].
           ++ injection E' as <-. rewrite W in W'. injection W' as <-. rewrite Nat.eqb_refl, (S2 k cd t G W). unfold arrived. rewrite (track_app k (log ++ dumps)).
              pose proof (i_track _ _ _ Id k) as T. rewrite G in T. destruct (track k (log ++ dumps)) as [[arr wr]|]; [|contradiction]. cbn [fold_left]. rewrite !step_same by reflexivity. reflexivity.
           ++ destruct (i_revs _ _ _ I k' cd' t' E' W') as (c' & Ec'). destruct (Nat.eqb_spec t' t) as [->|]; [congruence|]. rewrite app_nil_r, (S2 k' cd' t' E' W').
              symmetry. apply arrived_about. unfold about. cbn [filter key_of]. change (key_of (LData k data)) with (Some k). rewrite !(eqb_neq (Some k)) by congruence. reflexivity.
        -- intros k' t' d' Hi. apply in_app_or in Hi. destruct Hi as [Hi|[Hi|[Hi|[]]]]; [eauto|discriminate|]. injection Hi as <- <- <-. eauto.
      * eapply sents_new with (s := s) (k := k); try reflexivity.
        -- split; [|split]; eauto.
        -- repeat constructor.
        -- intros k' N. unfold about. cbn [filter key_of]. rewrite eqb_neq by congruence. reflexivity.
    + destruct (dget (v_ports s) (local_port k)) as [c|]; [|injection E as <- <-; exact Sd].
      destruct (nth_error (v_ctls s) c) as [x|]; [|injection E as <- <-; exact Sd].
      destruct (sc_listen x); [|injection E as <- <-; exact Sd]. injection E as <- <-. rewrite app_assoc.
      eapply sents_new with (s := s) (k := k); try reflexivity; auto.
      * repeat constructor.
      * intros k' N. unfold about. cbn [filter key_of]. rewrite !(eqb_neq (Some k)) by congruence. reflexivity.
Qed.
Lemma v_run_sents es : forall s log s' l, inv None s log -> sents s log -> v_run es s = Some (s', l) -> sents s' (log ++ l).
Proof.
  induction es as [|e es IH]; intros s log s' l I S E; cbn [v_run] in E.
  - injection E as <- <-. rewrite app_nil_r. exact S.
  - destruct (v_step e s) as [[s1 l1]|] eqn:E1; [|discriminate]. destruct (v_run es s1) as [[s2 l2]|] eqn:E2; [|discriminate]. injection E as <- <-.
    rewrite app_assoc. eapply IH; [| |exact E2]; [eapply v_step_inv|eapply v_step_sents]; eauto.
Qed.
Lemma reachable_sents addr s log : reachable addr s log -> sents s log.
Proof.
  intros (es & E). apply (v_run_sents es (vnic_new addr) [] s log (inv_new addr)); [|exact E]. split; [|split]; cbn; [reflexivity|discriminate|contradiction].
Qed.
