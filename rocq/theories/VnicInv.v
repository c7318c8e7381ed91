(** * Proofs about the VNIC, part 2: what holds in every reachable state *)
From Coq Require Import List ZArith Bool Lia.
From Verif Require Import PyBase PyLemmas VnicModel VnicSpec VnicProofs.
Import ListNotations.
Open Scope Z_scope.

(** ** observations about one key *)
Lemma track_app k l1 l2 : track k (l1 ++ l2) = fold_left (track_step k) l2 (track k l1).
Proof. unfold track. apply fold_left_app. Qed.
Lemma track_about k l : forall a, fold_left (track_step k) l a = fold_left (track_step k) (about k l) a.
Proof.
  induction l as [|e l IH]; intros a; [reflexivity|]. unfold about. cbn [fold_left filter]. destruct (eqb (key_of e) (Some k)) eqn:E.
  - cbn [fold_left]. apply IH.
  - assert (X : track_step k a e = a) by (unfold track_step; rewrite E; reflexivity). rewrite X. apply IH.
Qed.
Definition track_ok (o : option conn) (tr : option (bytes * list (nat * bytes))) : Prop :=
  match o, tr with
  | None, None => True
  | Some cd, Some (arr, wr) =>
      arr = concat (map snd wr) ++ cn_buf cd /\
      match cn_writer cd with None => wr = [] | Some t => cn_buf cd = [] /\ Forall (fun x => fst x = t) wr end
  | _, _ => False
  end.
Lemma eqb_refl {A} `{EqDec A} (x : A) : eqb x x = true.
Proof. unfold eqb. destruct (eq_dec x x); congruence. Qed.
Lemma eqb_neq {A} `{EqDec A} (x y : A) : x <> y -> eqb x y = false.
Proof. unfold eqb. destruct (eq_dec x y); congruence. Qed.
Lemma step_same k a e : key_of e = Some k -> track_step k a e =
  match e, a with
  | LNew _ _, _ => Some ([], []) | LGone _, _ => None
  | LData _ d, Some (arr, wr) => Some (arr ++ d, wr)
  | LWrite _ t d, Some (arr, wr) => Some (arr, wr ++ [(t, d)])
  | _, _ => a end.
Proof. intros E. unfold track_step. rewrite E, eqb_refl. reflexivity. Qed.
Lemma step_other k a e : key_of e <> Some k -> track_step k a e = a.
Proof. intros N. unfold track_step. rewrite eqb_neq by exact N. reflexivity. Qed.
Lemma tracks_other k l : Forall (fun e => key_of e <> Some k) l -> forall a, fold_left (track_step k) l a = a.
Proof. induction 1 as [|e l N F IH]; intros a; [reflexivity|]. cbn [fold_left]. rewrite step_other by exact N. apply IH. Qed.

(** ** the invariant; [ex] is a control about to be closed *)
Record inv (ex : option nat) (s : vnic) (log : list vlog) : Prop := {
  i_ports : ports_ok s;
  i_owner : forall p c, dget (v_ports s) p = Some c -> exists x, is_open s c x;
  i_table : forall c x, is_open s c x -> exists v, nth_error (v_protos s) (sc_proto x) = Some v /\ vp_up v = true /\ dget (vp_table v) (sc_id x) = Some c;
  i_conn : forall k cd, dget (v_conns s) k = Some cd -> (cn_ctl cd < length (v_ctls s))%nat;
  i_pend : forall c k, In (c, k) (v_pending s) -> (c < length (v_ctls s))%nat;
  i_keys : forall c x k cd, is_open s c x -> dget (v_conns s) k = Some cd -> cn_ctl cd = c -> ex <> Some c ->
     In k (sc_keys x) \/ In (c, k) (v_pending s);
  i_pos : 2000 <= v_pos s <= 65535;
  i_track : forall k, track_ok (dget (v_conns s) k) (track k log);
  i_revs : forall k cd t, dget (v_conns s) k = Some cd -> cn_writer cd = Some t -> exists c, nth_error (v_revs s) t = Some (c, k);
  i_dumps : NoDup (v_dumps s) /\ forall p, In p (v_dumps s) <-> exists v, nth_error (v_protos s) p = Some v /\ vp_up v = true /\ vp_dump v = true }.

Lemma inv_new addr : inv None (vnic_new addr) [].
Proof.
  constructor; cbn; try discriminate; try contradiction; try lia; auto.
  - repeat split; cbn; try discriminate; try constructor. intros c x p [E _]. destruct c; discriminate.
  - intros c x [E _]. destruct c; discriminate.
  - split; [constructor|]. intros p. split; [contradiction|]. intros (v & E & _). destruct p; discriminate.
Qed.
Lemma inv_closes ex s log l s' : inv ex s log -> closes s l s' -> ports_ok s' -> freed s s' -> inv ex s' (log ++ l).
Proof.
  intros I A P F. destruct (cl_same _ _ _ A) as (S1 & S2 & S3 & S4 & S5 & S6).
  assert (Back : forall c x', is_open s' c x' -> exists x, is_open s c x /\ static x x' /\ incl (sc_keys x') (sc_keys x) /\ (forall k, In k (sc_keys x) -> ~ In k (sc_keys x') -> dget (v_conns s') k = None)).
  { intros c x' [E O]. destruct (nth_error (v_ctls s) c) as [x|] eqn:Ex.
    - destruct (cl_ctl _ _ _ A c x Ex) as (y & Ey & Sy & Cy & Iy & Dy). rewrite E in Ey. injection Ey as <-.
      destruct (sc_closed x) eqn:Cx; [rewrite Cy in O by reflexivity; discriminate|]. exists x. split; [split; auto|]. split; [exact Sy|]. split; [exact Iy|]. apply (Dy eq_refl).
    - apply nth_error_None in Ex. rewrite <- (cl_len _ _ _ A) in Ex. apply nth_error_None in Ex. congruence. }
  constructor.
  - exact P.
  - intros p c E. assert (E0 : dget (v_ports s) p = Some c) by (destruct (cl_port _ _ _ A p) as [e|(e & _)]; congruence).
    destruct (i_owner _ _ _ I p c E0) as (x & Ox). destruct Ox as [Ex Ox]. destruct (cl_ctl _ _ _ A c x Ex) as (y & Ey & Sy & _). exists y. split; [exact Ey|].
    destruct (sc_closed y) eqn:Cy; [|reflexivity]. destruct (i_ports _ _ _ I) as (Q1 & _). destruct (Q1 p c E0) as (x0 & Ex0 & Px). rewrite Ex in Ex0. injection Ex0 as <-.
    pose proof (F c x y p (conj Ex Ox) Ey Cy Px). congruence.
  - intros c x' O. destruct (Back c x' O) as (x & Ox & Sx & _). rewrite S2, (st_proto _ _ Sx), (st_id _ _ Sx). apply (i_table _ _ _ I c x Ox).
  - intros k cd E. rewrite (cl_len _ _ _ A). destruct (cl_conn _ _ _ A k) as [[e _]|(cd' & _ & e & _)]; [|congruence]. apply (i_conn _ _ _ I k cd). congruence.
  - rewrite S4, (cl_len _ _ _ A). apply (i_pend _ _ _ I).
  - intros c x' k cd O E Ec Ne. destruct (Back c x' O) as (x & Ox & Sx & Ix & Dx). rewrite S4.
    assert (E0 : dget (v_conns s) k = Some cd) by (destruct (cl_conn _ _ _ A k) as [[e _]|(cd' & _ & e & _)]; congruence).
    destruct (i_keys _ _ _ I c x k cd Ox E0 Ec Ne) as [H|H]; [|right; exact H]. left. destruct (in_dec eq_dec k (sc_keys x')) as [H'|H']; [exact H'|]. rewrite (Dx k H H') in E. discriminate.
  - rewrite S3. apply (i_pos _ _ _ I).
  - intros k. rewrite track_app, track_about. pose proof (i_track _ _ _ I k) as T. destruct (cl_conn _ _ _ A k) as [[e a]|(cd & e & e' & a)]; rewrite a.
    + rewrite e. exact T.
    + rewrite e'. unfold gone_log. cbn [fold_left]. rewrite step_same by reflexivity. destruct (cn_writer cd); cbn [fold_left]; [rewrite step_same by reflexivity|]; exact Logic.I.
  - rewrite S5. intros k cd t E. apply (i_revs _ _ _ I). destruct (cl_conn _ _ _ A k) as [[e _]|(cd' & _ & e & _)]; congruence.
  - rewrite S6, S2. apply (i_dumps _ _ _ I).
Qed.
(** nothing is exempt any more once the control is closed *)
Lemma inv_exempt c s log : inv (Some c) s log -> (forall x, nth_error (v_ctls s) c = Some x -> sc_closed x = true) -> inv None s log.
Proof.
  intros I C. destruct I. constructor; auto. intros c' x k cd [E O] G Ec _. apply (i_keys0 c' x k cd); auto; [split; auto|]. intros X. injection X as <-. rewrite (C x E) in O. discriminate.
Qed.
Lemma inv_unexempt ex s log : inv None s log -> inv ex s log.
Proof. intros I. destruct I. constructor; auto. intros c x k cd O G E _. apply (i_keys0 c x k cd); auto. discriminate. Qed.

Ltac vsimpl := cbn [v_addr v_ports v_conns v_ctls v_protos v_pos v_pending v_revs v_dumps set_ports set_conns set_ctls set_protos set_pos set_pending set_revs set_dumps add_ctl] in *.

(** changing the control connections *)
Lemma inv_protos ex s log ps ds : inv ex s log ->
  (forall c x, is_open s c x -> exists v, nth_error ps (sc_proto x) = Some v /\ vp_up v = true /\ dget (vp_table v) (sc_id x) = Some c) ->
  NoDup ds -> (forall p, In p ds <-> exists v, nth_error ps p = Some v /\ vp_up v = true /\ vp_dump v = true) ->
  inv ex (set_dumps ds (set_protos ps s)) log.
Proof. intros I T D1 D2. destruct I. constructor; vsimpl; auto. Qed.
Lemma set_dumps_id s : set_dumps (v_dumps s) s = s.
Proof. destruct s. reflexivity. Qed.

(** a new control that may own a free port *)
Lemma inv_add s log p id listen port v : inv None s log -> nth_error (v_protos s) p = Some v -> vp_up v = true -> dget (vp_table v) id = None ->
  (forall q, port = Some q -> dget (v_ports s) q = None) ->
  inv None (let s1 := add_ctl p id (Sctl p id listen port [] false) s in
            match port with Some q => set_ports (dset (v_ports s1) q (length (v_ctls s))) s1 | None => s1 end) log.
Proof.
  intros I Ev Up Tn Fp. set (n := length (v_ctls s)). set (x0 := Sctl p id listen port [] false).
  assert (Nn : forall c, nth_error (v_ctls s ++ [x0]) c = if Nat.eqb c n then Some x0 else nth_error (v_ctls s) c).
  { intros c. destruct (Nat.eqb_spec c n) as [->|N].
    - unfold n. rewrite nth_error_app2, Nat.sub_diag by lia. reflexivity.
    - destruct (Nat.lt_ge_cases c n); [apply nth_error_app1; exact H|]. rewrite nth_error_app2 by (unfold n in *; lia).
      destruct (c - length (v_ctls s))%nat eqn:D; [unfold n in *; lia|]. cbn. destruct n0; symmetry; apply nth_error_None; unfold n in *; lia. }
  assert (Op : forall c x, nth_error (v_ctls s) c = Some x -> (c < n)%nat) by (intros c x E; apply nth_error_Some; congruence).
  set (s1 := add_ctl p id x0 s).
  assert (Main : inv None (set_ports (match port with Some q => dset (v_ports s) q n | None => v_ports s end) s1) log).
  { destruct (i_ports _ _ _ I) as (Q1 & Q2 & Q3 & Q4).
    assert (Gp : forall q c, dget (match port with Some q => dset (v_ports s) q n | None => v_ports s end) q = Some c <-> (port = Some q /\ c = n) \/ dget (v_ports s) q = Some c).
    { intros q c. destruct port as [q0|].
      - rewrite dget_dset. destruct (eq_dec q q0) as [->|N].
        + rewrite (Fp q0 eq_refl). split; [intros X; injection X as <-; auto|]. intros [[_ ->]|X]; [reflexivity|discriminate].
        + split; [auto|]. intros [[X _]|X]; [congruence|exact X].
      - split; [auto|]. intros [[X _]|X]; [discriminate|exact X]. }
    constructor; unfold s1, add_ctl; vsimpl; fold n.
    - split; [|split; [|split]]; vsimpl.
      + intros q c E. apply Gp in E. rewrite Nn. destruct E as [[E ->]|E]; [rewrite Nat.eqb_refl; exists x0; auto|].
        destruct (Q1 q c E) as (x & Ex & Px). destruct (Nat.eqb_spec c n) as [->|]; [specialize (Op _ _ Ex); lia|eauto].
      + intros c x q [E O] Px. vsimpl. rewrite Nn in E. apply Gp. destruct (Nat.eqb_spec c n) as [->|N]; [injection E as <-; left; auto|]. right. apply (Q2 c x q); [split; auto|exact Px].
      + destruct port; [apply nodup_dset|]; exact Q3.
      + exact Q4.
    - intros q c E. apply Gp in E. unfold is_open; vsimpl. setoid_rewrite Nn. destruct E as [[E ->]|E]; [rewrite Nat.eqb_refl; exists x0; auto|].
      destruct (i_owner _ _ _ I q c E) as (x & Ex & Ox). destruct (Nat.eqb_spec c n) as [->|]; [specialize (Op _ _ Ex); lia|]. exists x. auto.
    - intros c x [E O]. vsimpl. rewrite Nn in E. destruct (Nat.eqb_spec c n) as [->|N].
      + injection E as <-. cbn [sc_proto sc_id x0]. rewrite (nth_upd_same _ _ _ _ Ev). eexists. split; [reflexivity|]. cbn [vp_up vp_table]. split; [exact Up|apply dget_dset_same].
      + destruct (i_table _ _ _ I c x (conj E O)) as (w & Ew & Uw & Tw). rewrite nth_upd. destruct (Nat.eqb_spec p (sc_proto x)) as [Ep|].
        * rewrite Ev. cbn [option_map]. rewrite <- Ep, Ev in Ew. injection Ew as <-. eexists. split; [reflexivity|]. cbn [vp_up vp_table]. split; [exact Up|].
          rewrite dget_dset. destruct (eq_dec (sc_id x) id) as [Ei|]; [congruence|exact Tw].
        * eauto.
    - intros k cd E. rewrite app_length. pose proof (i_conn _ _ _ I k cd E). lia.
    - intros c k E. rewrite app_length. pose proof (i_pend _ _ _ I c k E). lia.
    - intros c x k cd [E O] G Ec Ne. vsimpl. rewrite Nn in E. destruct (Nat.eqb_spec c n) as [->|].
      + pose proof (i_conn _ _ _ I k cd G). unfold n in *. lia.
      + apply (i_keys _ _ _ I c x k cd); auto. split; auto.
    - apply (i_pos _ _ _ I).
    - apply (i_track _ _ _ I).
    - apply (i_revs _ _ _ I).
    - destruct (i_dumps _ _ _ I) as [D1 D2]. split; [exact D1|]. intros q. rewrite D2, nth_upd. destruct (Nat.eqb_spec p q) as [<-|]; [|reflexivity].
      rewrite Ev. cbn [option_map]. split; intros (w & Ew & A & B); injection Ew as <-; eexists; (split; [reflexivity|]); cbn [vp_up vp_dump] in *; auto. }
  cbv zeta. fold n. fold x0. fold s1. destruct port as [q|].
  - replace (v_ports s1) with (v_ports s) by reflexivity. exact Main.
  - replace s1 with (set_ports (v_ports s) s1) by (unfold s1, add_ctl; destruct s; reflexivity). exact Main.
Qed.

(** a new connection of an existing control, with its reverse connection on
    the way *)
Lemma inv_conn s log k c d extra : inv None s log -> (c < length (v_ctls s))%nat ->
  extra = (match dget (v_conns s) k with Some _ => [LGone k] | None => [] end) ->
  inv None (set_pending (v_pending s ++ [(c, k)]) (set_conns (dset (v_conns s) k (Conn c None d)) s)) (log ++ extra ++ LNew k c :: match d with [] => [] | _ => [LData k d] end).
Proof.
  intros I Lc Ee. destruct (i_ports _ _ _ I) as (Q1 & Q2 & Q3 & Q4).
  constructor; vsimpl.
  - split; [exact Q1|]. split; [exact Q2|]. split; [exact Q3|]. apply nodup_dset. exact Q4.
  - apply (i_owner _ _ _ I).
  - apply (i_table _ _ _ I).
  - intros k' cd E. rewrite dget_dset in E. destruct (eq_dec k' k); [injection E as <-; exact Lc|]. apply (i_conn _ _ _ I k' cd E).
  - intros c' k' H. apply in_app_or in H. destruct H as [H|[H|[]]]; [apply (i_pend _ _ _ I c' k' H)|congruence].
  - intros c' x k' cd O E Ec Ne. rewrite dget_dset in E. destruct (eq_dec k' k) as [->|].
    + injection E as <-. cbn in Ec. subst c'. right. apply in_or_app. right. left. reflexivity.
    + destruct (i_keys _ _ _ I c' x k' cd O E Ec Ne) as [H|H]; [left; exact H|right; apply in_or_app; left; exact H].
  - apply (i_pos _ _ _ I).
  - intros k'. rewrite track_app. pose proof (i_track _ _ _ I k') as T. rewrite dget_dset. destruct (eq_dec k' k) as [->|N].
    + assert (X : forall a, fold_left (track_step k) (extra ++ LNew k c :: match d with [] => [] | _ => [LData k d] end) a = Some (d, [])).
      { intros a. rewrite fold_left_app. cbn [fold_left]. rewrite step_same by reflexivity. destruct d; cbn [fold_left]; [reflexivity|]. rewrite step_same by reflexivity. reflexivity. }
      rewrite X. cbn. auto.
    + rewrite tracks_other; [exact T|]. subst extra. apply Forall_app. split.
      * destruct (dget (v_conns s) k); repeat constructor; cbn; congruence.
      * constructor; [cbn; congruence|]. destruct d; repeat constructor; cbn; congruence.
  - intros k' cd t E. rewrite dget_dset in E. destruct (eq_dec k' k); [injection E as <-; discriminate|]. apply (i_revs _ _ _ I k' cd t E).
  - apply (i_dumps _ _ _ I).
Qed.
(** observations that are not about connections do not matter *)
Lemma inv_log ex s log l : inv ex s log -> Forall (fun e => key_of e = None) l -> inv ex s (log ++ l).
Proof.
  intros I F. destruct I. constructor; auto. intros k. rewrite track_app, tracks_other; [apply i_track0|]. apply Forall_impl with (2 := F). intros e ->. discriminate.
Qed.
Lemma zseq_in n : forall a i, In i (zseq a n) <-> a <= i < a + Z.of_nat n.
Proof.
  induction n as [|n IH]; intros a i; cbn [zseq]; [cbn; lia|]. cbn [In]. rewrite IH. lia.
Qed.
Lemma zrange_in a b i : In i (zrange a b) <-> a <= i < b.
Proof. unfold zrange. rewrite zseq_in. lia. Qed.
Lemma next_free_ok ports pos port : 2000 <= pos <= 65535 -> next_free ports pos = Some port -> dget ports port = None /\ 2000 <= port < 65535.
Proof.
  intros Hp E. apply find_some in E. destruct E as [E1 E2]. apply negb_true_iff, dhas_false in E2. split; [exact E2|].
  apply in_app_or in E1. rewrite !zrange_in in E1. lia.
Qed.
Lemma inv_set_pos ex s log q : inv ex s log -> 2000 <= q <= 65535 -> inv ex (set_pos q s) log.
Proof. intros I Hq. destruct I. constructor; vsimpl; auto. Qed.

Lemma in_remove_nth {A} n (l : list A) x y : nth_error l n = Some x -> In y l -> y = x \/ In y (remove_nth n l).
Proof.
  unfold remove_nth. intros E H. apply nth_error_split in E. destruct E as (l1 & l2 & -> & <-).
  assert (S1 : firstn (length l1) (l1 ++ x :: l2) = l1) by (rewrite firstn_app, firstn_all, Nat.sub_diag; apply app_nil_r).
  assert (S2 : skipn (S (length l1)) (l1 ++ x :: l2) = l2) by (clear; induction l1 as [|z l1 IH]; [reflexivity|exact IH]).
  rewrite S1, S2. rewrite in_app_iff in *. destruct H as [H|[H|H]]; auto.
Qed.
Lemma remove_nth_in {A} n (l : list A) y : In y (remove_nth n l) -> In y l.
Proof.
  unfold remove_nth. intros H. apply in_app_or in H. rewrite <- (firstn_skipn n l). apply in_or_app. destruct H as [H|H]; [auto|]. right.
  clear -H. revert l H. induction n as [|n IH]; intros [|z l] H; cbn [skipn] in *; auto. right; auto.
Qed.
Lemma inv_unpend s log n c k : inv None s log -> nth_error (v_pending s) n = Some (c, k) -> inv (Some c) (set_pending (remove_nth n (v_pending s)) s) log.
Proof.
  intros I E. destruct I. constructor; vsimpl; auto.
  - intros c' k' H. apply (i_pend0 c' k'). eapply remove_nth_in; eauto.
  - intros c' x k' cd O G Ec Ne. destruct (i_keys0 c' x k' cd O G Ec) as [H|H]; [discriminate|left; exact H|].
    destruct (in_remove_nth _ _ _ _ E H) as [X|X]; [|right; exact X]. injection X as -> ->. congruence.
Qed.
Lemma inv_spawn s log n c k : inv None s log -> nth_error (v_pending s) n = Some (c, k) ->
  forall s' l, spawn_ok c k (set_pending (remove_nth n (v_pending s)) s) = (s', l) -> inv None s' (log ++ l).
Proof.
  intros I E s' l Es.
  set (s0 := set_pending (remove_nth n (v_pending s)) s) in *.
  set (s1 := set_revs (v_revs s ++ [(c, k)]) (set_ctls (upd c (sc_add_key k) (v_ctls s)) s0)).
  assert (Op : forall c' x', is_open s1 c' x' -> exists x, is_open s c' x /\ static x x' /\ incl (sc_keys x) (sc_keys x') /\ (c' = c -> In k (sc_keys x'))).
  { intros c' x' [E' O']. unfold s1, s0 in E'. vsimpl. rewrite nth_upd in E'. destruct (Nat.eqb_spec c c') as [<-|N].
    - destruct (nth_error (v_ctls s) c) as [x|] eqn:Ex; [|discriminate]. cbn in E'. injection E' as <-. exists x. split; [split; auto|]. split; [constructor; reflexivity|]. split.
      + intros k' Hk. cbn. apply in_sadd. auto.
      + intros _. cbn. apply in_sadd. auto.
    - exists x'. split; [split; auto|]. split; [constructor; reflexivity|]. split; [apply incl_refl|]. congruence. }
  assert (I1 : inv None s1 log).
  { destruct (i_ports _ _ _ I) as (Q1 & Q2 & Q3 & Q4). constructor; unfold s1, s0; vsimpl.
    - split; [|split; [|split]]; vsimpl; auto.
      + intros p c' E'. destruct (Q1 p c' E') as (x & Ex & Px). rewrite nth_upd. destruct (Nat.eqb_spec c c') as [<-|]; [rewrite Ex; cbn; eauto|eauto].
      + intros c' x' p O Px. destruct (Op c' x' O) as (x & Ox & Sx & _). rewrite (st_port _ _ Sx) in Px. eapply Q2; eauto.
    - intros p c' E'. destruct (i_owner _ _ _ I p c' E') as (x & Ex & Ox). unfold is_open; vsimpl. setoid_rewrite nth_upd. destruct (Nat.eqb_spec c c') as [<-|]; [rewrite Ex; cbn|]; eauto.
    - intros c' x' O. destruct (Op c' x' O) as (x & Ox & Sx & _). rewrite (st_proto _ _ Sx), (st_id _ _ Sx). apply (i_table _ _ _ I c' x Ox).
    - rewrite length_upd. apply (i_conn _ _ _ I).
    - rewrite length_upd. intros c' k' H. apply (i_pend _ _ _ I c' k'). eapply remove_nth_in; eauto.
    - intros c' x' k' cd O G Ec Ne. destruct (Op c' x' O) as (x & Ox & Sx & Ix & Kx). destruct (i_keys _ _ _ I c' x k' cd Ox G Ec Ne) as [H|H]; [left; apply Ix; exact H|].
      destruct (in_remove_nth _ _ _ _ E H) as [X|X]; [|right; exact X]. injection X as -> ->. left. apply Kx. reflexivity.
    - apply (i_pos _ _ _ I).
    - apply (i_track _ _ _ I).
    - intros k' cd t G W. destruct (i_revs _ _ _ I k' cd t G W) as (c' & E'). exists c'. rewrite nth_error_app1; [exact E'|]. apply nth_error_Some. congruence.
    - apply (i_dumps _ _ _ I). }
  unfold spawn_ok in Es. change (set_revs (v_revs s0 ++ [(c, k)]) (set_ctls (upd c (sc_add_key k) (v_ctls s0)) s0)) with s1 in Es.
  destruct (dget (v_conns s1) k) as [cd|] eqn:G; [|injection Es as <- <-; rewrite app_nil_r; exact I1].
  destruct (cn_writer cd) as [t0|] eqn:W; [injection Es as <- <-; rewrite app_nil_r; exact I1|].
  assert (G0 : dget (v_conns s) k = Some cd) by exact G.
  injection Es as <- <-. rewrite app_assoc. apply inv_log.
  2:{ clear. destruct (nth_error (v_ctls s) c) as [x|]; [|constructor]. destruct (nth_error (v_protos s) (sc_proto x)) as [v|]; [|constructor]. destruct (vp_up v); repeat constructor. }
  set (t := length (v_revs s)). destruct I1. destruct i_ports0 as (Q1 & Q2 & Q3 & Q4). constructor; vsimpl; auto.
  - split; [exact Q1|]. split; [exact Q2|]. split; [exact Q3|]. apply nodup_dset. exact Q4.
  - intros k' cd' E'. rewrite dget_dset in E'. destruct (eq_dec k' k) as [->|]; [injection E' as <-; cbn; apply (i_conn0 k cd G)|apply (i_conn0 k' cd' E')].
  - intros c' x k' cd' O E' Ec Ne. rewrite dget_dset in E'. destruct (eq_dec k' k) as [->|]; [injection E' as <-; cbn in Ec; apply (i_keys0 c' x k cd O G Ec Ne)|apply (i_keys0 c' x k' cd' O E' Ec Ne)].
  - intros k'. rewrite track_app, dget_dset. specialize (i_track0 k'). destruct (eq_dec k' k) as [->|N].
    + rewrite G in i_track0. destruct (track k log) as [[arr wr]|]; [|contradiction]. cbn [track_ok] in i_track0. rewrite W in i_track0. destruct i_track0 as [Ea ->]. cbn in Ea. subst arr.
      destruct (cn_buf cd) as [|b bs]; cbn [fold_left].
      * cbn. auto.
      * rewrite step_same by reflexivity. cbn [track_ok cn_writer cn_buf app map snd concat]. rewrite !app_nil_r. split; [reflexivity|]. split; [reflexivity|]. repeat constructor.
    + rewrite tracks_other; [exact i_track0|]. destruct (cn_buf cd); repeat constructor; cbn; congruence.
  - intros k' cd' t' E' W'. rewrite dget_dset in E'. destruct (eq_dec k' k) as [->|]; [|apply (i_revs0 k' cd' t' E' W')]. injection E' as <-. cbn in W'. injection W' as <-.
    exists c. unfold s1. vsimpl. unfold t, s0. vsimpl. rewrite nth_error_app2, Nat.sub_diag by lia. reflexivity.
Qed.

Lemma v_step_inv e s log s' l : inv None s log -> v_step e s = Some (s', l) -> inv None s' (log ++ l).
Proof.
  intros I E. pose proof (i_ports _ _ _ I) as P.
  destruct e as [|p id dest dport|p id port|p id|p on|p|n|n|t|so sp d dp data]; cbn [v_step] in E.
  - injection E as <- <-. rewrite app_nil_r. rewrite <- (set_dumps_id (set_protos _ s)). vsimpl. destruct (i_dumps _ _ _ I) as [D1 D2].
    assert (N : forall q v, nth_error (v_protos s) q = Some v -> nth_error (v_protos s ++ [Vproto true [] false]) q = Some v) by (intros q v Eq; rewrite nth_error_app1; [exact Eq|apply nth_error_Some; congruence]).
    apply inv_protos; auto.
    + intros c x O. destruct (i_table _ _ _ I c x O) as (v & Ev & Hv). eauto.
    + intros q. rewrite D2. split; intros (v & Ev & A & B); [eauto|]. exists v. split; [|auto].
      destruct (Nat.lt_ge_cases q (length (v_protos s))); [rewrite nth_error_app1 in Ev by exact H; exact Ev|].
      rewrite nth_error_app2 in Ev by exact H. destruct (q - length (v_protos s))%nat as [|m]; [cbn in Ev; injection Ev as <-; discriminate|destruct m; discriminate].
  - destruct (nth_error (v_protos s) p) as [v|] eqn:Ev; [|injection E as <- <-; rewrite app_nil_r; exact I].
    destruct (vp_up v) eqn:Up; cbn [negb] in E; [|injection E as <- <-; rewrite app_nil_r; exact I].
    destruct (dhas (vp_table v) id) eqn:T; [injection E as <- <-; apply inv_log; [exact I|repeat constructor]|]. apply dhas_false in T.
    unfold open_connect in E. destruct (next_free (v_ports s) (v_pos s)) as [port|] eqn:F; [|discriminate]. apply next_free_ok in F; [|apply (i_pos _ _ _ I)]. destruct F as [F1 F2].
    injection E as <- <-.
    assert (I1 := inv_add s log p id false (Some port) v I Ev Up T ltac:(intros q Hq; injection Hq as <-; exact F1)). cbv zeta in I1.
    apply (inv_set_pos _ _ _ (port + 1)) in I1; [|lia].
    set (k := (v_addr s, port, dest, dport)).
    apply (inv_conn _ _ k (length (v_ctls s)) [] (if dhas (v_conns s) k then [LGone k] else [])) in I1.
    + rewrite app_assoc in I1 |- *. change [LNew k (length (v_ctls s)); LResp p id (Some port)] with ([LNew k (length (v_ctls s))] ++ [LResp p id (Some port)]).
      rewrite app_assoc. apply inv_log; [|repeat constructor]. exact I1.
    + vsimpl. unfold add_ctl. vsimpl. rewrite app_length. cbn. lia.
    + vsimpl. unfold add_ctl. vsimpl. unfold dhas. destruct (dget (v_conns s) k); reflexivity.
  - destruct (nth_error (v_protos s) p) as [v|] eqn:Ev; [|injection E as <- <-; rewrite app_nil_r; exact I].
    destruct (vp_up v) eqn:Up; cbn [negb] in E; [|injection E as <- <-; rewrite app_nil_r; exact I].
    destruct (dhas (vp_table v) id) eqn:T; [injection E as <- <-; apply inv_log; [exact I|repeat constructor]|]. apply dhas_false in T.
    unfold open_listen in E. destruct (dhas (v_ports s) port) eqn:Hp; injection E as <- <-; (apply inv_log; [|repeat constructor]).
    + apply (inv_add s log p id true None v I Ev Up T). discriminate.
    + apply dhas_false in Hp. apply (inv_add s log p id true (Some port) v I Ev Up T). intros q Hq. injection Hq as <-. exact Hp.
  - destruct (nth_error (v_protos s) p) as [v|] eqn:Ev; [|injection E as <- <-; rewrite app_nil_r; exact I].
    destruct (vp_up v) eqn:Up; cbn [negb] in E; [|injection E as <- <-; rewrite app_nil_r; exact I].
    destruct (dget (vp_table v) id) as [c|] eqn:T; [|injection E as <- <-; rewrite app_nil_r; exact I].
    destruct (ctl_close_ok c s P) as (s1 & l1 & E1 & A1 & P1 & F1 & C1 & _). rewrite E1 in E. injection E as <- <-.
    pose proof (inv_closes _ _ _ _ _ I A1 P1 F1) as I1. destruct (cl_same _ _ _ A1) as (_ & Sp & _). destruct (i_dumps _ _ _ I1) as [D1 D2].
    rewrite <- (set_dumps_id (set_protos _ s1)). vsimpl. apply inv_protos; auto.
    + intros c' x O. destruct (i_table _ _ _ I1 c' x O) as (w & Ew & Uw & Tw). rewrite nth_upd. destruct (Nat.eqb_spec p (sc_proto x)) as [Ep|]; [|eauto].
      rewrite Ep, Ew. cbn [option_map]. eexists. split; [reflexivity|]. cbn [vp_up vp_table table_del]. split; [exact Uw|].
      rewrite dget_ddel_other; [exact Tw|]. intros Ei. assert (w = v) by (rewrite Sp, <- Ep, Ev in Ew; congruence). subst w. rewrite Ei, T in Tw. injection Tw as <-.
      destruct O as [Ex Ox]. rewrite (C1 x Ex) in Ox. discriminate.
    + intros q. rewrite D2, nth_upd. destruct (Nat.eqb_spec p q) as [<-|]; [|reflexivity]. rewrite Sp, Ev. cbn [option_map].
      split; intros (w & Ew & A & B); injection Ew as <-; eexists; (split; [reflexivity|]); cbn [vp_up vp_dump table_del] in *; auto.
  - destruct (nth_error (v_protos s) p) as [v|] eqn:Ev; [|injection E as <- <-; rewrite app_nil_r; exact I].
    destruct (vp_up v) eqn:Up; cbn [negb] in E; [|injection E as <- <-; rewrite app_nil_r; exact I].
    destruct (Bool.eqb on (vp_dump v)) eqn:Eo; [injection E as <- <-; rewrite app_nil_r; exact I|]. injection E as <- <-. rewrite app_nil_r.
    destruct (i_dumps _ _ _ I) as [D1 D2]. apply inv_protos; auto.
    + intros c x O. destruct (i_table _ _ _ I c x O) as (w & Ew & Uw & Tw). rewrite nth_upd. destruct (Nat.eqb_spec p (sc_proto x)) as [Ep|]; [|eauto].
      rewrite Ep, Ew. cbn [option_map]. eexists. split; [reflexivity|]. auto.
    + destruct on; [apply nodup_sadd; exact D1|]. destruct (smem (v_dumps s) p); [apply nodup_sremove|]; exact D1.
    + intros q. rewrite nth_upd. destruct (Nat.eqb_spec p q) as [<-|N].
      * rewrite Ev. cbn [option_map]. transitivity (on = true).
        -- destruct on; [rewrite in_sadd; tauto|]. split; [|discriminate]. destruct (smem (v_dumps s) p) eqn:M; [intros H; apply in_sremove in H; [tauto|exact D1]|]. intros H. apply smem_true in H. congruence.
        -- split; [intros ->; eexists; split; [reflexivity|]; auto|]. intros (w & Ew & A & B). injection Ew as <-. exact B.
      * rewrite <- D2. destruct on; [rewrite in_sadd; intuition congruence|]. destruct (smem (v_dumps s) p); [rewrite in_sremove by exact D1; intuition congruence|reflexivity].
  - destruct (nth_error (v_protos s) p) as [v|] eqn:Ev; [|injection E as <- <-; rewrite app_nil_r; exact I].
    destruct (vp_up v) eqn:Up; cbn [negb] in E; [|injection E as <- <-; rewrite app_nil_r; exact I].
    set (ds := if vp_dump v then (if smem (v_dumps s) p then sremove (v_dumps s) p else v_dumps s) else v_dumps s).
    assert (Hs : (if vp_dump v then set_dumps (if smem (v_dumps s) p then sremove (v_dumps s) p else v_dumps s) s else s) = set_dumps ds s) by (unfold ds; destruct (vp_dump v); [reflexivity|symmetry; apply set_dumps_id]).
    rewrite Hs in E. clear Hs.
    assert (Ps : ports_ok (set_dumps ds s)) by exact P.
    destruct (close_all_ok (map snd (vp_table v)) _ Ps) as (s1 & l1 & E1 & A1 & P1 & F1 & C1 & _). rewrite E1 in E. injection E as <- <-.
    destruct (cl_same _ _ _ A1) as (B1 & B2 & B3 & B4 & B5 & B6). vsimpl.
    (* the invariant without its part about dumps *)
    assert (A2 : closes s l1 (set_dumps (v_dumps s) s1)) by (destruct A1; constructor; vsimpl; auto 10).
    pose proof (inv_closes _ _ _ _ _ I A2 P1 F1) as I1. destruct (i_dumps _ _ _ I) as [D1 D2].
    rewrite <- (set_dumps_id (set_protos _ s1)). vsimpl. rewrite B6.
    change (set_dumps ds (set_protos (upd p (fun _ => Vproto false [] false) (v_protos s1)) s1)) with
      (set_dumps ds (set_protos (upd p (fun _ => Vproto false [] false) (v_protos s1)) (set_dumps (v_dumps s) s1))).
    apply inv_protos; auto.
    + intros c x O. destruct (i_table _ _ _ I1 c x O) as (w & Ew & Uw & Tw). vsimpl. rewrite nth_upd. destruct (Nat.eqb_spec p (sc_proto x)) as [Ep|]; [|eauto].
      exfalso. assert (w = v) by (rewrite B2, <- Ep, Ev in Ew; congruence). subst w. destruct O as [Ex Ox]. vsimpl.
      rewrite (C1 c x) in Ox; [discriminate| |exact Ex]. apply dget_in in Tw. apply in_map_iff. exists (sc_id x, c). auto.
    + unfold ds. destruct (vp_dump v); [destruct (smem (v_dumps s) p); [apply nodup_sremove|]|]; exact D1.
    + intros q. rewrite nth_upd, B2. destruct (Nat.eqb_spec p q) as [<-|N].
      * rewrite Ev. cbn [option_map]. split; [|intros (w & Ew & A & _); injection Ew as <-; discriminate]. intros H. exfalso. unfold ds in H.
        destruct (vp_dump v) eqn:Dv; [destruct (smem (v_dumps s) p) eqn:M; [apply in_sremove in H; [tauto|exact D1]|apply smem_true in H; congruence]|].
        apply D2 in H. destruct H as (w & Ew & _ & Hw). congruence.
      * rewrite <- D2. unfold ds. destruct (vp_dump v); [destruct (smem (v_dumps s) p); [rewrite in_sremove by exact D1; intuition congruence|reflexivity]|reflexivity].
  - destruct (nth_error (v_pending s) n) as [[c k]|] eqn:En; [|injection E as <- <-; rewrite app_nil_r; exact I]. injection E as E.
    eapply inv_spawn; eauto.
  - destruct (nth_error (v_pending s) n) as [[c k]|] eqn:En; [|injection E as <- <-; rewrite app_nil_r; exact I]. injection E as E.
    pose proof (inv_unpend s log n c k I En) as I1. destruct (ctl_close_ok c _ (i_ports _ _ _ I1)) as (s1 & l1 & E1 & A1 & P1 & F1 & C1 & _). rewrite E1 in E. injection E as <- <-.
    apply inv_exempt with (c := c); [|exact C1]. eapply inv_closes; eauto.
  - destruct (nth_error (v_revs s) t) as [[c k]|]; [|injection E as <- <-; rewrite app_nil_r; exact I].
    destruct (nth_error (v_ctls s) c) as [x|]; [|injection E as <- <-; rewrite app_nil_r; exact I]. injection E as E. destruct (sc_listen x).
    + destruct (conn_close_ok k s P) as (s1 & l1 & E1 & A1 & P1 & F1 & _). rewrite E1 in E. injection E as <- <-. eapply inv_closes; eauto.
    + destruct (ctl_close_ok c s P) as (s1 & l1 & E1 & A1 & P1 & F1 & _). rewrite E1 in E. injection E as <- <-. eapply inv_closes; eauto.
  - injection E as E. unfold v_demux in E. set (k := inverse (so, sp, d, dp)) in *.
    set (dumps := map (fun p => LDump p (so, sp, d, dp) data) (v_dumps s)) in *.
    assert (Id : inv None s (log ++ dumps)) by (apply inv_log; [exact I|unfold dumps; apply Forall_forall; intros e H; apply in_map_iff in H; destruct H as (q & <- & _); reflexivity]).
    destruct (dget (v_conns s) k) as [cd|] eqn:G.
    + destruct (conn_write k data cd) as [cd' l'] eqn:Ew. injection E as <- <-. rewrite app_assoc. clear I. rename Id into I.
      assert (Ck : cn_ctl cd' = cn_ctl cd /\ cn_writer cd' = cn_writer cd) by (unfold conn_write in Ew; destruct (cn_writer cd) eqn:W; injection Ew as <- _; auto).
      destruct Ck as [Ck1 Ck2]. destruct I. destruct P as (Q1 & Q2 & Q3 & Q4). constructor; vsimpl; auto.
      * split; [exact Q1|]. split; [exact Q2|]. split; [exact Q3|]. apply nodup_dset. exact Q4.
      * intros k' x E'. rewrite dget_dset in E'. destruct (eq_dec k' k) as [->|]; [injection E' as <-; rewrite Ck1; eauto|eauto].
      * intros c x k' x' O E' Ec Ne. rewrite dget_dset in E'. destruct (eq_dec k' k) as [->|]; [injection E' as <-; rewrite Ck1 in Ec; eauto|eauto].
      * intros k'. rewrite track_app, dget_dset. specialize (i_track0 k'). destruct (eq_dec k' k) as [->|N].
        -- rewrite G in i_track0. destruct (track k (log ++ dumps)) as [[arr wr]|]; [|contradiction]. cbn [track_ok] in i_track0. destruct i_track0 as [Ea Ew'].
           unfold conn_write in Ew. destruct (cn_writer cd) as [t|] eqn:W; injection Ew as <- <-; cbn [fold_left]; rewrite !step_same by reflexivity; cbn [track_ok cn_writer cn_buf].
           ++ destruct Ew' as [Eb Ef]. rewrite Eb in *. rewrite W. rewrite app_nil_r in *. subst arr. split.
              ** rewrite map_app, concat_app. cbn. rewrite app_nil_r. reflexivity.
              ** split; [reflexivity|]. apply Forall_app. split; [exact Ef|]. repeat constructor.
           ++ subst wr. cbn in *. subst arr. auto.
        -- rewrite tracks_other; [exact i_track0|]. unfold conn_write in Ew. assert (K : forall e, In e l' -> key_of e = Some k) by (destruct (cn_writer cd); injection Ew as _ El; rewrite <- El; intros e He; cbn in He; intuition (subst; reflexivity)). apply Forall_forall. intros e He. rewrite (K e He). congruence.
      * intros k' x t E' W'. rewrite dget_dset in E'. destruct (eq_dec k' k) as [->|]; [injection E' as <-; rewrite Ck2 in W'; eauto|eauto].
    + destruct (dget (v_ports s) (local_port k)) as [c|] eqn:Gp; [|injection E as <- <-; exact Id].
      destruct (nth_error (v_ctls s) c) as [x|] eqn:Ex; [|injection E as <- <-; exact Id].
      destruct (sc_listen x); [|injection E as <- <-; exact Id]. injection E as <- <-. rewrite app_assoc.
      pose proof (inv_conn s (log ++ dumps) k c data [] Id ltac:(apply nth_error_Some; congruence) ltac:(rewrite G; reflexivity)) as I1. cbn [app] in I1.
      destruct data as [|b data]; [|exact I1].
      change [LNew k c; LData k []] with ([LNew k c] ++ [LData k []]). rewrite app_assoc. destruct I1. constructor; auto.
      intros k'. rewrite track_app. specialize (i_track0 k'). cbn [fold_left]. destruct (eq_dec k' k) as [->|N].
      * rewrite step_same by reflexivity. destruct (track k ((log ++ dumps) ++ [LNew k c])) as [[arr wr]|]; [|exact i_track0]. rewrite app_nil_r. exact i_track0.
      * rewrite step_other by (change (Some k <> Some k'); congruence). exact i_track0.
Qed.
Lemma v_run_inv es : forall s log s' l, inv None s log -> v_run es s = Some (s', l) -> inv None s' (log ++ l).
Proof.
  induction es as [|e es IH]; intros s log s' l I E; cbn [v_run] in E.
  - injection E as <- <-. rewrite app_nil_r. exact I.
  - destruct (v_step e s) as [[s1 l1]|] eqn:E1; [|discriminate]. destruct (v_run es s1) as [[s2 l2]|] eqn:E2; [|discriminate]. injection E as <- <-.
    rewrite app_assoc. eapply IH; [|exact E2]. eapply v_step_inv; eauto.
Qed.
Lemma reachable_inv addr s log : reachable addr s log -> inv None s log.
Proof. intros (es & E). apply (v_run_inv es (vnic_new addr) [] s log (inv_new addr) E). Qed.
