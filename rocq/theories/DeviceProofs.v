From Coq Require Import String.
From Coq Require Import List ZArith Bool Lia.
From Verif Require Import PyBase PyLemmas DeviceModel DeviceSpec.
Import ListNotations.
Open Scope nat_scope.

Record sim (s s' : dst) : Prop := { sm_run : forall x, running s' x = running s x; sm_st : s_status s' = s_status s }.
Lemma sim_refl s : sim s s. Proof. split; auto. Qed.
Lemma sim_trans a b c : sim a b -> sim b c -> sim a c.
Proof. intros [A1 A2] [B1 B2]. split; [intros; now rewrite B1|congruence]. Qed.
Lemma sim_status s s' x : sim s s' -> status_of s' x = status_of s x.
Proof. intros [_ E]. unfold status_of. now rewrite E. Qed.
Lemma run_set_os s d o x : running (set_os s d o) x = if eq_dec x d then os_running o else running s x.
Proof. unfold running, set_os. cbn. now destruct (eq_dec x d). Qed.
Lemma sim_unlink s d : running s d = false -> sim s (unlink s d).
Proof.
  intros H. split; [|reflexivity]. intros x. unfold unlink. rewrite run_set_os. destruct (eq_dec x d) as [->|]; [|reflexivity]. rewrite H. reflexivity.
Qed.
Lemma status_set s d v x : status_of (set_status s d v) x = if eq_dec x d then v else status_of s x.
Proof. unfold status_of, set_status. cbn. rewrite dget_dset. now destruct (eq_dec x d). Qed.
Lemma st_set s d v : s_status (set_status s d v) = dset (s_status s) d v. Proof. reflexivity. Qed.
Lemma run_set s d v x : running (set_status s d v) x = running s x.
Proof. reflexivity. Qed.
Definition tr1 (s : dst) (x : pystr) : Prop := is_on (status_of s x) = running s x.
Lemma tr1_sim s s' x : sim s s' -> tr1 s x -> tr1 s' x.
Proof. intros S T. unfold tr1. now rewrite (sim_status _ _ _ S), (sm_run _ _ S). Qed.
(** the device now runs or not, and has this status; nothing else changed *)
Record eff (d : pystr) (s s' : dst) (b : bool) (v : status) : Prop := {
  e_run : forall x, running s' x = if eq_dec x d then b else running s x;
  e_st : s_status s' = dset (s_status s) d v
}.
Lemma eff_sim d s s1 s' b v : sim s s1 -> eff d s1 s' b v -> eff d s s' b v.
Proof. intros [A B] [C D]. split; [intros x; rewrite C; destruct (eq_dec x d); auto|congruence]. Qed.
Lemma eff_status d s s' b v x : eff d s s' b v -> status_of s' x = if eq_dec x d then v else status_of s x.
Proof. intros [_ E]. unfold status_of. rewrite E, dget_dset. now destruct (eq_dec x d). Qed.
Lemma eff_set s d v b : running s d = b -> eff d s (set_status s d v) b v.
Proof. intros H. split; [|reflexivity]. intros x. rewrite run_set. destruct (eq_dec x d) as [->|]; auto. Qed.
Lemma on_iff v : is_on v = true <-> v = Enabled.
Proof. destruct v; split; try discriminate; reflexivity. Qed.

Section P.
  Context (n : dnet) (w : world) (G : good_net n).

  Lemma usable_eq r d : usable n r d = (remote n d || r d)%bool.
  Proof. unfold usable, remote, kind. destruct (dget n d) as [[[[]|c] a]|]; reflexivity. Qed.
  Lemma enabled_sp d s : tr1 s d -> exists s', enabled n d s = (usable n (running s) d, s') /\ sim s s'.
  Proof.
    intros T. rewrite usable_eq. unfold enabled. destruct (remote n d); [exists s; split; [reflexivity|apply sim_refl]|]. cbn [orb].
    unfold tr1 in T. destruct (is_on (status_of s d)); rewrite <- T.
    - exists s. split; [reflexivity|apply sim_refl].
    - exists (unlink s d). split; [reflexivity|]. now apply sim_unlink.
  Qed.
  Lemma needs_kind d c : needs n d c -> kind n d = DIface (Some c).
  Proof. intros [a H]. unfold kind. now rewrite H. Qed.
  Lemma needs_access d c : needs n d c -> exists b a, dget n c = Some (Dev (DAccess b) a).
  Proof. intros [a H]. eapply (gn_conn n G); eauto. Qed.
  Lemma needs_ready r d c : needs n d c -> ready n r d = usable n r c.
  Proof. intros [a H]. unfold ready. now rewrite H. Qed.
  Lemma needs_has d c : needs n d c -> dhas n c = true.
  Proof. intros H. destruct (needs_access d c H) as (b & a & E). apply dhas_true. eauto. Qed.
  Lemma dev_cases d : dhas n d = true -> (exists b a, dget n d = Some (Dev (DAccess b) a)) \/ (exists a, dget n d = Some (Dev (DIface None) a)) \/ exists c, needs n d c.
  Proof.
    intros H. apply dhas_true in H as [[[b|[c|]] a] H]; [left; eauto|right; right; exists c; exists a; exact H|right; left; eauto].
  Qed.
  Lemma deps_sp d s : dhas n d = true -> (forall c, needs n d c -> tr1 s c) -> exists s', deps_enabled n d s = (ready n (running s) d, s') /\ sim s s'.
  Proof.
    intros H T. destruct (dev_cases d H) as [(b & a & E)|[(a & E)|(c & N)]].
    - exists s. split; [|apply sim_refl]. unfold deps_enabled, kind, ready. now rewrite E.
    - exists s. split; [|apply sim_refl]. unfold deps_enabled, kind, ready. now rewrite E.
    - rewrite (needs_ready _ _ _ N). unfold deps_enabled. rewrite (needs_kind _ _ N), (needs_has _ _ N). apply enabled_sp. now apply T.
  Qed.
  Lemma usable_ext r r' d : (forall x, r x = r' x) -> usable n r d = usable n r' d.
  Proof. intros H. rewrite !usable_eq. now rewrite H. Qed.
  Lemma ready_ext r r' d : (forall x, r x = r' x) -> ready n r d = ready n r' d.
  Proof. intros H. unfold ready. destruct (dget n d) as [[[b|[c|]] a]|]; auto. now apply usable_ext. Qed.

  Definition kill_fails := exists k, w_kill w k = false.
  Definition launch_fails := exists k, os_running (w_launch w k) = false.
  Definition launch_dies := exists k, w_launch w k = Osd true false.
  Lemma stop_sp v d s : running s d = true ->
    exists r s', stop_to w v d s = (r, s') /\ ((r = DOk /\ eff d s s' false v) \/ (r = DErr CouldNotShutDown /\ kill_fails)).
  Proof.
    intros R. unfold running, os_running in R. apply andb_true_iff in R as [R1 R2]. unfold stop_to, shutdown. rewrite R1, R2. destruct (w_kill w (s_kills s)) eqn:K.
    - eexists _, _. split; [reflexivity|]. left. split; [reflexivity|]. split; [|reflexivity]. intros x. rewrite run_set, run_set_os. destruct (eq_dec x d); reflexivity.
    - eexists _, _. split; [reflexivity|]. right. split; [reflexivity|]. exists (s_kills s). exact K.
  Qed.
  Lemma try_launch_sp d s : dhas n d = true -> (forall c, needs n d c -> tr1 s c /\ c <> d) -> ready n (running s) d = true ->
    exists r s', try_launch n w d s = (r, s') /\
      ((r = DOk /\ eff d s s' true Enabled) \/ (r = DOk /\ eff d s s' false Abnormal /\ launch_fails) \/ (r = DErr ProcessLookupError /\ launch_dies)).
  Proof.
    intros H T Rd. destruct (deps_sp d s H) as (s1 & E & S); [intros c N; now apply T|]. rewrite Rd in E. unfold try_launch, launch. rewrite E. cbn [negb].
    set (o := w_launch w (s_launches s1)). set (s2 := set_os _ d o).
    assert (R2 : forall x, running s2 x = if eq_dec x d then os_running o else running s x).
    { intros x. unfold s2. rewrite run_set_os. destruct (eq_dec x d); [reflexivity|]. apply (sm_run _ _ S). }
    assert (St : s_status s2 = s_status s) by apply (sm_st _ _ S).
    assert (Rd2 : running s2 d = os_running o) by (rewrite R2; destruct (eq_dec d d); congruence).
    rewrite Rd2. destruct (os_running o) eqn:O.
    - rewrite Rd2. eexists _, _. split; [reflexivity|]. left. split; [reflexivity|]. split; [|now rewrite st_set, St]. intros x. rewrite run_set, R2. reflexivity.
    - unfold shutdown. assert (Eo : s_os s2 d = o). { unfold s2. cbn. destruct (eq_dec d d); congruence. } rewrite Eo.
      destruct o as [[] []] eqn:Ho; try discriminate; cbn [o_files o_alive].
      + eexists _, _. split; [reflexivity|]. right. right. split; [reflexivity|]. exists (s_launches s1). exact Ho.
      + rewrite Rd2. eexists _, _. split; [reflexivity|]. right. left. split; [reflexivity|]. split.
        * split; [|now rewrite st_set, St]. intros x. rewrite run_set, R2. reflexivity.
        * exists (s_launches s1). fold o. rewrite Ho. exact O.
      + rewrite Rd2. eexists _, _. split; [reflexivity|]. right. left. split; [reflexivity|]. split.
        * split; [|now rewrite st_set, St]. intros x. rewrite run_set, R2. reflexivity.
        * exists (s_launches s1). fold o. rewrite Ho. exact O.
  Qed.

  (** ** The machine *)
  Definition access (c : pystr) : Prop := exists b a, dget n c = Some (Dev (DAccess b) a).
  Lemma access_facts c : access c -> dhas n c = true /\ (forall x, ~ needs n c x) /\ (forall r, ready n r c = true) /\ is_iface n c = false /\ (exists b, kind n c = DAccess b).
  Proof.
    intros (b & a & E). split; [apply dhas_true; eauto|]. split; [intros x [a' X]; congruence|]. split; [intros r; unfold ready; now rewrite E|].
    split; [unfold is_iface; now rewrite E|exists b; unfold kind; now rewrite E].
  Qed.
  Lemma needs_neq d c : needs n d c -> c <> d.
  Proof. intros N ->. pose proof N as [a E]. destruct (needs_access _ _ N) as (b & a' & E'). congruence. Qed.
  Lemma ap_load f c s : access c -> status_of s c = Disabled ->
    machine n w (S f) false c s = (DOk, set_status s c (if running s c then Enabled else Disabled)).
  Proof.
    intros A St. destruct (access_facts c A) as (_ & _ & _ & _ & b & K). cbn [machine]. rewrite K, St. unfold deps_enabled. rewrite K. destruct (running s c); reflexivity.
  Qed.
  Definition starts_or_not (d : pystr) (s : dst) (r : dres) (s' : dst) : Prop :=
    (r = DOk /\ eff d s s' true Enabled) \/ (r = DOk /\ eff d s s' false Abnormal /\ launch_fails) \/ (r = DErr ProcessLookupError /\ launch_dies).
  Lemma ap_on f c s : access c -> tr1 s c -> running s c = false -> status_of s c <> Waiting ->
    exists r s', machine n w (S f) true c s = (r, s') /\ starts_or_not c s r s'.
  Proof.
    intros A T R W. destruct (access_facts c A) as (Hc & Nn & Rdy & _ & b & K). cbn [machine]. rewrite K.
    unfold tr1 in T. rewrite R in T. destruct (status_of s c) eqn:St; try discriminate; try congruence.
    all: rewrite R; destruct (deps_sp c s Hc) as (s2 & E & S); [intros x N; exfalso; eapply Nn; eauto|]; rewrite E, Rdy.
    all: destruct (try_launch_sp c s2 Hc) as (r & s' & E' & P); [intros x N; exfalso; eapply Nn; eauto|apply Rdy|]; rewrite E'; exists r, s'; (split; [reflexivity|]).
    all: destruct P as [(P1 & P2)|[(P1 & P2 & P3)|P]]; [left|right; left|right; right; exact P].
    all: repeat split; auto; eapply eff_sim; eauto.
  Qed.
  Lemma off_sp f d s : dhas n d = true -> status_of s d = Enabled -> running s d = true ->
    exists r s', machine n w (S f) true d s = (r, s') /\ ((r = DOk /\ eff d s s' false Disabled) \/ (r = DErr CouldNotShutDown /\ kill_fails)).
  Proof.
    intros H St R. cbn [machine]. rewrite St. cbn [is_on negb andb].
    assert (X : (match kind n d with DIface (Some _) => (DOk, s) | _ => (DOk, s) end) = (DOk, s)) by (destruct (kind n d) as [|[|]]; reflexivity).
    rewrite X, St. now apply stop_sp.
  Qed.
  Lemma iface_load f d s : dhas n d = true -> is_iface n d = true -> (forall c, needs n d c -> tr1 s c) -> status_of s d = Disabled ->
    exists r s', machine n w (S f) false d s = (r, s') /\
      ((r = DErr CouldNotShutDown /\ kill_fails /\ running s d = true /\ ready n (running s) d = false) \/
       (r = DOk /\ eff d s s' (running s d && ready n (running s) d) (if running s d then if ready n (running s) d then Enabled else Waiting else Disabled))).
  Proof.
    intros H I T St. cbn [machine]. rewrite St. cbn [is_on negb andb].
    assert (X : (match kind n d with DIface (Some _) => (DOk, s) | _ => (DOk, s) end) = (DOk, s)) by (destruct (kind n d) as [|[|]]; reflexivity).
    rewrite X, St. destruct (running s d) eqn:R.
    - destruct (deps_sp d s H T) as (s2 & E & S). rewrite E. destruct (ready n (running s) d) eqn:Rd.
      + eexists _, _. split; [reflexivity|]. right. split; [reflexivity|]. apply (eff_sim d s s2); [exact S|]. apply eff_set. cbn [andb]. now rewrite (sm_run _ _ S).
      + destruct (stop_sp Waiting d s2) as (r & s' & E' & P); [now rewrite (sm_run _ _ S)|]. rewrite E'. exists r, s'. split; [reflexivity|].
        destruct P as [(P1 & P2)|P]; [right; split; [exact P1|]; cbn [andb]; eapply eff_sim; eauto|left; tauto].
    - eexists _, _. split; [reflexivity|]. right. split; [reflexivity|]. cbn [andb]. now apply eff_set.
  Qed.
  (** what has been done about the device needed *)
  Definition dep_step (c : pystr) (s s1 : dst) : Prop :=
    (usable n (running s) c = true /\ sim s s1) \/
    (usable n (running s) c = false /\ (eff c s s1 true Enabled \/ (eff c s s1 false Abnormal /\ launch_fails))).
  Lemma iface_on d c s : needs n d c -> tr1 s d -> tr1 s c -> status_of s c <> Waiting -> running s d = false ->
    exists r s', machine n w 2 true d s = (r, s') /\
      ((r = DErr ProcessLookupError /\ launch_dies) \/
       (r = DOk /\ exists s1, dep_step c s s1 /\
         ((status_of s d = Waiting /\ eff d s1 s' false Disabled) \/
          (status_of s d <> Waiting /\ usable n (running s1) c = false /\ eff d s1 s' false Waiting) \/
          (status_of s d <> Waiting /\ usable n (running s1) c = true /\ (eff d s1 s' true Enabled \/ (eff d s1 s' false Abnormal /\ launch_fails)))))).
  Proof.
    intros N T Tc Wc R. pose proof (needs_neq _ _ N) as NE. pose proof (needs_has _ _ N) as Hc. pose proof (needs_access _ _ N) as A.
    assert (Hd : dhas n d = true) by (destruct N as [a E]; apply dhas_true; eauto).
    cbn [machine]. rewrite (needs_kind _ _ N), Hc.
    assert (On : is_on (status_of s d) = false) by (rewrite T; exact R). rewrite On. cbn [negb andb].
    destruct (enabled_sp c s Tc) as (sa & Ea & Sa). rewrite Ea.
    assert (D : exists r1 s1, (if usable n (running s) c then (DOk, sa) else let (b2, sb) := enabled n c sa in if b2 then (DOk, sb) else machine n w 1 true c sb) = (r1, s1) /\
                ((r1 = DOk /\ dep_step c s s1) \/ (r1 = DErr ProcessLookupError /\ launch_dies))).
    { destruct (usable n (running s) c) eqn:U.
      - exists DOk, sa. split; [reflexivity|]. left. split; [reflexivity|]. left. auto.
      - destruct (enabled_sp c sa) as (sb & Eb & Sb); [eapply tr1_sim; eauto|]. rewrite Eb.
        assert (U' : usable n (running sa) c = false) by (rewrite <- U; apply usable_ext; apply (sm_run _ _ Sa)). rewrite U'.
        pose proof (sim_trans _ _ _ Sa Sb) as Sab.
        assert (Rc : running sb c = false). { rewrite (sm_run _ _ Sab). rewrite usable_eq in U. apply orb_false_iff in U. apply U. }
        destruct (ap_on 0 c sb A) as (r1 & s1 & E1 & P1); [eapply tr1_sim; eauto|exact Rc|now rewrite (sim_status _ _ _ Sab)|].
        rewrite E1. exists r1, s1. split; [reflexivity|]. destruct P1 as [(-> & P)|[(-> & P & Q)|P]]; [left|left|right; exact P].
        + split; [reflexivity|]. right. split; [exact U|]. left. eapply eff_sim; eauto.
        + split; [reflexivity|]. right. split; [exact U|]. right. split; [eapply eff_sim; eauto|exact Q]. }
    destruct D as (r1 & s1 & E1 & P1). cbn [machine] in E1 |- *. rewrite E1. destruct P1 as [(-> & P1)|(-> & P1)].
    2:{ eexists _, _. split; [reflexivity|]. left. auto. }
    assert (S1 : status_of s1 d = status_of s d /\ running s1 d = false /\ tr1 s1 c).
    { destruct P1 as [(_ & S)|(_ & [F|(F & _)])].
      - split; [now apply sim_status|]. split; [now rewrite (sm_run _ _ S)|eapply tr1_sim; eauto].
      - rewrite (eff_status _ _ _ _ _ d F), (e_run _ _ _ _ _ F). unfold tr1. rewrite (eff_status _ _ _ _ _ c F), (e_run _ _ _ _ _ F).
        destruct (eq_dec d c); [congruence|]. destruct (eq_dec c c); [auto|congruence].
      - rewrite (eff_status _ _ _ _ _ d F), (e_run _ _ _ _ _ F). unfold tr1. rewrite (eff_status _ _ _ _ _ c F), (e_run _ _ _ _ _ F).
        destruct (eq_dec d c); [congruence|]. destruct (eq_dec c c); [auto|congruence]. }
    destruct S1 as (Sd & Rd & Tc1). rewrite Sd.
    assert (Go : status_of s d = Disabled \/ status_of s d = Abnormal ->
       exists r s', (let (b, s2) := deps_enabled n d s1 in if b then try_launch n w d s2 else (DOk, set_status s2 d Waiting)) = (r, s') /\
       ((r = DErr ProcessLookupError /\ launch_dies) \/
        (r = DOk /\ ((usable n (running s1) c = false /\ eff d s1 s' false Waiting) \/
          (usable n (running s1) c = true /\ (eff d s1 s' true Enabled \/ (eff d s1 s' false Abnormal /\ launch_fails))))))).
    { intros _. assert (Un : forall x, needs n d x -> x = c) by (intros x [a X]; destruct N as [a' N]; congruence).
      destruct (deps_sp d s1 Hd) as (s2 & E2 & S2); [intros x X; now rewrite (Un x X)|]. rewrite E2, (needs_ready _ _ _ N).
      destruct (usable n (running s1) c) eqn:U.
      - destruct (try_launch_sp d s2 Hd) as (r & s' & E' & P).
        + intros x X. rewrite (Un x X). split; [eapply tr1_sim; eauto|exact NE].
        + rewrite (needs_ready _ _ _ N), <- U. apply usable_ext, (sm_run _ _ S2).
        + rewrite E'. exists r, s'. split; [reflexivity|]. destruct P as [(P1' & P2)|[(P1' & P2 & P3)|P]]; [right|right|left; exact P].
          * split; [exact P1'|]. right. split; [reflexivity|]. left. eapply eff_sim; eauto.
          * split; [exact P1'|]. right. split; [reflexivity|]. right. split; [eapply eff_sim; eauto|exact P3].
      - eexists _, _. split; [reflexivity|]. right. split; [reflexivity|]. left. split; [reflexivity|]. eapply eff_sim; [exact S2|]. apply eff_set. now rewrite (sm_run _ _ S2). }
    destruct (status_of s d) eqn:St; try (unfold tr1 in T; rewrite St, R in T; discriminate).
    - rewrite Rd. destruct (Go (or_introl eq_refl)) as (r & s' & E' & P). rewrite E'. exists r, s'. split; [reflexivity|]. destruct P as [P|(P1' & P2)]; [left; exact P|right].
      split; [exact P1'|]. exists s1. split; [exact P1|]. right. destruct P2 as [P2|P2]; [left|right]; (split; [discriminate|exact P2]).
    - eexists _, _. split; [reflexivity|]. right. split; [reflexivity|]. exists s1. split; [exact P1|]. left. split; [reflexivity|]. now apply eff_set.
    - rewrite Rd. destruct (Go (or_intror eq_refl)) as (r & s' & E' & P). rewrite E'. exists r, s'. split; [reflexivity|]. destruct P as [P|(P1' & P2)]; [left; exact P|right].
      split; [exact P1'|]. exists s1. split; [exact P1|]. right. destruct P2 as [P2|P2]; [left|right]; (split; [discriminate|exact P2]).
  Qed.
  (** an interface that is not connected *)
  Lemma alone_on d s : unconnected n d = true -> tr1 s d -> running s d = false ->
    exists s', machine n w 2 true d s = (DOk, s') /\ eff d s s' false (match status_of s d with Waiting => Disabled | _ => Waiting end).
  Proof.
    intros U T R. assert (K : kind n d = DIface None). { unfold unconnected in U. unfold kind. destruct (dget n d) as [[[|[|]] a]|]; try discriminate. reflexivity. }
    cbn [machine]. rewrite K. unfold deps_enabled. rewrite K. unfold tr1 in T. rewrite R in T.
    destruct (status_of s d) eqn:St; try discriminate; rewrite ?R; eexists; (split; [reflexivity|]); now apply eff_set.
  Qed.
End P.
