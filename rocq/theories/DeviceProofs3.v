From Coq Require Import String.
From Coq Require Import List ZArith Bool Lia.
From Verif Require Import PyBase PyLemmas DeviceModel DeviceSpec DeviceProofs DeviceProofs2.
Import ListNotations.
Open Scope nat_scope.

Section P.
  Context (n : dnet) (w : world) (G : good_net n) (os : pystr -> osd).
  Definition lup (x : pystr) : bool := up os x && negb (stranded n os x).
  Definition lst (x : pystr) : status := if lup x then Enabled else if up os x then Waiting else Disabled.
  Record LI (s : dst) : Prop := {
    l_nd : NoDup (dkeys (s_status s));
    l_sub : forall x, dhas (s_status s) x = true -> dhas n x = true;
    l_in : forall x v, dget (s_status s) x = Some v -> v = lst x /\ running s x = lup x;
    l_out : forall x, dget (s_status s) x = None -> running s x = up os x
  }.
  Lemma lup_ap x : is_iface n x = false -> lup x = up os x.
  Proof. intros H. unfold lup, stranded. rewrite H. cbn. now rewrite andb_true_r. Qed.
  Lemma lup_if x : is_iface n x = true -> lup x = up os x && ready n (up os) x.
  Proof. intros H. unfold lup, stranded. rewrite H. cbn. destruct (up os x), (ready n (up os) x); reflexivity. Qed.
  Lemma lst_on x : is_on (lst x) = lup x.
  Proof. unfold lst. destruct (lup x), (up os x); reflexivity. Qed.
  Lemma dget_has_false (m : dict pystr status) x : dhas m x = false <-> dget m x = None.
  Proof.
    destruct (dhas m x) eqn:E; [apply dhas_true in E as [v E]|]; [rewrite E|]; split; intros X; try discriminate; auto.
    destruct (dget m x) eqn:D; [|reflexivity]. assert (dhas m x = true) by (apply dhas_true; eauto). congruence.
  Qed.
  Lemma li_tr s x : LI s -> dget (s_status s) x <> None -> tr1 s x.
  Proof.
    intros I H. destruct (dget (s_status s) x) as [v|] eqn:E; [|congruence]. destruct (l_in _ I _ _ E) as [-> R]. unfold tr1, status_of. rewrite E, lst_on. now rewrite R.
  Qed.
  Lemma li_ready s x : LI s -> ready n (running s) x = ready n (up os) x.
  Proof.
    intros I. unfold ready. destruct (dget n x) as [[[b|[c|]] a]|] eqn:E; auto.
    destruct (gn_conn n G _ _ c E eq_refl) as (b & a' & Ec). rewrite !usable_eq. f_equal. destruct (dget (s_status s) c) as [v|] eqn:Es.
    - destruct (l_in _ I _ _ Es) as [_ R]. rewrite R. apply lup_ap. unfold is_iface. now rewrite Ec.
    - now apply (l_out _ I).
  Qed.
  Lemma li_step s s' : LI s -> NoDup (dkeys (s_status s')) ->
    (forall x, (dget (s_status s') x = dget (s_status s) x /\ running s' x = running s x) \/ (dhas n x = true /\ dget (s_status s') x = Some (lst x) /\ running s' x = lup x)) -> LI s'.
  Proof.
    intros I ND P. constructor; [exact ND| | |]; intros x.
    - intros X. destruct (P x) as [[E _]|[E _]]; [|exact E]. apply (l_sub _ I). apply dhas_true. rewrite <- E. now apply dhas_true.
    - intros v X. destruct (P x) as [[E R]|(_ & E & R)]; [rewrite R; apply (l_in _ I); congruence|]. split; [congruence|exact R].
    - intros X. destruct (P x) as [[E R]|(_ & E & R)]; [rewrite R; apply (l_out _ I); congruence|congruence].
  Qed.
  Lemma install_sp c s   : access n c -> NoDup (dkeys (s_status s)) ->
    (forall v, dget (s_status s) c = Some v -> v = lst c /\ running s c = lup c) -> (dget (s_status s) c = None -> running s c = up os c) ->
    exists s', install n w c s = (DOk, s') /\ (forall x, running s' x = running s x) /\ NoDup (dkeys (s_status s')) /\
      (forall x, dget (s_status s') x = if eq_dec x c then Some (lst c) else dget (s_status s) x).
  Proof.
    intros A ND I O. unfold install. destruct (dhas (s_status s) c) eqn:H.
    - exists s. split; [reflexivity|]. split; [auto|]. split; [exact ND|]. intros x. destruct (eq_dec x c) as [->|]; [|reflexivity].
      apply dhas_true in H as [v H]. rewrite H. f_equal. now apply I.
    - apply dget_has_false in H. unfold depth. rewrite (ap_load n w 1 c); [|exact A|rewrite status_set; destruct (eq_dec c c); congruence].
      eexists. split; [reflexivity|]. split; [intros x; rewrite !run_set; reflexivity|]. split; [rewrite !st_set; now apply nodup_dset, nodup_dset|].
      intros x. rewrite !st_set, !dget_dset. destruct (eq_dec x c) as [->|]; [|reflexivity]. f_equal. rewrite run_set, (O H). destruct (access_facts n c A) as (_ & _ & _ & F & _).
      unfold lst. rewrite (lup_ap c F). now destruct (up os c).
  Qed.
  Lemma load_one_sp d s : LI s -> dhas n d = true ->
    exists r s', load_one n w d s = (r, s') /\
      ((r = DErr CouldNotShutDown /\ kill_fails w /\ stranded n os d = true) \/
       (r = DOk /\ LI s' /\ dhas (s_status s') d = true /\ forall x, dhas (s_status s) x = true -> dhas (s_status s') x = true)).
  Proof.
    intros I H. unfold load_one. destruct (dhas (s_status s) d) eqn:Hd.
    { exists DOk, s. split; [reflexivity|]. right. auto. }
    apply dget_has_false in Hd. set (s0 := set_status s d Disabled).
    assert (D : exists s1, (match kind n d with DIface (Some c) => if dhas n c then install n w c s0 else (DOk, s0) | _ => (DOk, s0) end) = (DOk, s1) /\
       (forall x, running s1 x = running s x) /\ NoDup (dkeys (s_status s1)) /\ dget (s_status s1) d = Some Disabled /\
       (forall x, x <> d -> (needs n d x /\ dget (s_status s1) x = Some (lst x)) \/ (~ needs n d x /\ dget (s_status s1) x = dget (s_status s) x))).
    { assert (N0 : NoDup (dkeys (s_status s0))) by (unfold s0; rewrite st_set; apply nodup_dset, (l_nd _ I)).
      assert (G0 : forall x, dget (s_status s0) x = if eq_dec x d then Some Disabled else dget (s_status s) x) by (intros x; unfold s0; rewrite st_set; apply dget_dset).
      assert (Triv : (forall x, ~ needs n d x) -> exists s1, (DOk, s0) = (DOk, s1) /\ (forall x, running s1 x = running s x) /\ NoDup (dkeys (s_status s1)) /\ dget (s_status s1) d = Some Disabled /\
       (forall x, x <> d -> (needs n d x /\ dget (s_status s1) x = Some (lst x)) \/ (~ needs n d x /\ dget (s_status s1) x = dget (s_status s) x))).
      { intros Nn. exists s0. split; [reflexivity|]. split; [reflexivity|]. split; [exact N0|]. split; [rewrite G0; destruct (eq_dec d d); congruence|].
        intros x Nx. right. split; [apply Nn|]. rewrite G0. destruct (eq_dec x d); congruence. }
      destruct (dev_cases n d H) as [(b & a & E)|[(a & E)|(c & N)]].
      - unfold kind. rewrite E. apply Triv. intros x [a' X]. congruence.
      - unfold kind. rewrite E. apply Triv. intros x [a' X]. congruence.
      - rewrite (needs_kind n _ _ N), (needs_has n G _ _ N). pose proof (needs_neq n G _ _ N) as NE.
        destruct (install_sp c s0) as (s1 & E1 & R1 & N1 & G1).
        + exact (needs_access n G _ _ N).
        + exact N0.
        + intros v. rewrite G0. destruct (eq_dec c d); [congruence|]. apply (l_in _ I).
        + rewrite G0. destruct (eq_dec c d); [congruence|]. apply (l_out _ I).
        + exists s1. split; [exact E1|]. split; [intros x; now rewrite R1|]. split; [exact N1|]. split.
          * rewrite G1, G0. destruct (eq_dec d c); [congruence|]. destruct (eq_dec d d); congruence.
          * intros x Nx. rewrite G1, G0. destruct (eq_dec x c) as [->|Nc]; [left; auto|]. destruct (eq_dec x d); [congruence|]. right. split; [|reflexivity].
            intros [a' X]. destruct N as [a E]. congruence. }
    destruct D as (s1 & E1 & R1 & N1 & Gd & G1). rewrite E1.
    assert (St : status_of s1 d = Disabled) by (unfold status_of; now rewrite Gd).
    assert (Rd : running s1 d = up os d) by (rewrite R1; now apply (l_out _ I)).
    assert (Apr : forall c, access n c -> running s c = lup c).
    { intros c A. destruct (access_facts n c A) as (_ & _ & _ & F & _). destruct (dget (s_status s) c) as [v|] eqn:Es; [apply (l_in _ I _ _ Es)|]. rewrite (lup_ap c F). now apply (l_out _ I). }
    assert (Fin : forall s', eff d s1 s' (lup d) (lst d) -> LI s' /\ dhas (s_status s') d = true /\ forall x, dhas (s_status s) x = true -> dhas (s_status s') x = true).
    { intros s' [F1 F2]. assert (P : forall x, (dget (s_status s') x = dget (s_status s) x /\ running s' x = running s x) \/ (dhas n x = true /\ dget (s_status s') x = Some (lst x) /\ running s' x = lup x)).
      { intros x. rewrite F2, dget_dset, F1, R1. destruct (eq_dec x d) as [->|Nx]; [right; auto|]. destruct (G1 x Nx) as [[N X]|[N X]]; rewrite X; [right|left; auto].
        split; [eapply needs_has; eauto|]. split; [reflexivity|]. apply Apr. exact (needs_access n G _ _ N). }
      split; [|split].
      - apply (li_step s); [exact I| |exact P]. rewrite F2. now apply nodup_dset.
      - apply dhas_true. rewrite F2, dget_dset. destruct (eq_dec d d); [eauto|congruence].
      - intros x X. apply dhas_true. apply dhas_true in X as [v X]. destruct (P x) as [[-> _]|(_ & -> & _)]; eauto. }
    destruct (is_iface n d) eqn:Fi.
    - assert (Tc : forall c, needs n d c -> tr1 s1 c).
      { intros c N. pose proof (needs_neq n G _ _ N) as NE. destruct (G1 c NE) as [[_ X]|[X _]]; [|contradiction]. unfold tr1, status_of. rewrite X, lst_on, R1. symmetry. apply Apr. exact (needs_access n G _ _ N). }
      destruct (iface_load n w G 1 d s1 H Fi Tc St) as (r & s' & E' & P). unfold depth. rewrite E'. exists r, s'. split; [reflexivity|].
      assert (Rdy : ready n (running s1) d = ready n (up os) d) by (rewrite <- (li_ready s d I); apply ready_ext; exact R1).
      rewrite Rd, Rdy in P. destruct P as [(-> & P1 & P2 & P3)|(-> & P)].
      + left. split; [reflexivity|]. split; [exact P1|]. unfold stranded. now rewrite Fi, P2, P3.
      + right. split; [reflexivity|]. apply Fin. rewrite (lup_if d Fi). replace (lst d) with (if up os d then if ready n (up os) d then Enabled else Waiting else Disabled); [exact P|].
        unfold lst. rewrite (lup_if d Fi). now destruct (up os d), (ready n (up os) d).
    - assert (A : access n d) by (apply dhas_true in H as [[[b|c] a] H]; [exists b, a; exact H|unfold is_iface in Fi; rewrite H in Fi; discriminate]).
      unfold depth. rewrite (ap_load n w 1 d s1 A St). eexists _, _. split; [reflexivity|]. right. split; [reflexivity|]. apply Fin.
      rewrite Rd. replace (lst d) with (if up os d then Enabled else Disabled) by (unfold lst; rewrite (lup_ap d Fi); now destruct (up os d)).
      apply eff_set. now rewrite Rd, (lup_ap d Fi).
  Qed.
  Lemma load_loop : forall l s, LI s -> (forall x, In x l -> dhas n x = true) ->
    exists r s', each (load_one n w) l s = (r, s') /\
      ((r = DErr CouldNotShutDown /\ kill_fails w /\ exists d, In d l /\ stranded n os d = true) \/
       (r = DOk /\ LI s' /\ (forall x, In x l -> dhas (s_status s') x = true) /\ forall x, dhas (s_status s) x = true -> dhas (s_status s') x = true)).
  Proof.
    induction l as [|d l IH]; intros s I Hl.
    - exists DOk, s. split; [reflexivity|]. right. split; [reflexivity|]. split; [exact I|]. split; [intros x []|auto].
    - cbn [each]. destruct (load_one_sp d s I) as (r & s1 & E & P); [apply Hl; now left|]. rewrite E. destruct P as [(-> & P1 & P2)|(-> & I1 & K1 & M1)].
      + eexists _, _. split; [reflexivity|]. left. split; [reflexivity|]. split; [exact P1|]. exists d. split; [now left|exact P2].
      + destruct (IH s1 I1) as (r' & s' & E' & P'); [intros x X; apply Hl; now right|]. rewrite E'. exists r', s'. split; [reflexivity|].
        destruct P' as [(-> & Q1 & z & Q2 & Q3)|(-> & I' & K' & M')]; [left|right].
        * split; [reflexivity|]. split; [exact Q1|]. exists z. split; [now right|exact Q3].
        * split; [reflexivity|]. split; [exact I'|]. split; [|auto]. intros x [<-|X]; auto.
  Qed.
  (** what loading leads to *)
  Lemma load_sp : exists r s, load_all n w os = (r, s) /\
    ((r = DErr CouldNotShutDown /\ kill_fails w /\ exists d, dhas n d = true /\ stranded n os d = true) \/
     (r = DOk /\ Inv n s /\ (forall x, running s x = lup x \/ dhas n x = false) /\ (forall x, dhas n x = true -> status_of s x = lst x) /\ forall x, dhas n x = false -> running s x = up os x)).
  Proof.
    unfold load_all. destruct (load_loop (dkeys n) (fresh os)) as (r & s & E & P).
    - constructor; cbn; try discriminate; auto. constructor.
    - intros x X. now apply dhas_in.
    - rewrite E. exists r, s. split; [reflexivity|]. destruct P as [(-> & P1 & d & P2 & P3)|(-> & I & K & _)]; [left|right].
      + split; [reflexivity|]. split; [exact P1|]. exists d. split; [now apply dhas_in|exact P3].
      + assert (Get : forall x, dhas n x = true -> dget (s_status s) x = Some (lst x) /\ running s x = lup x).
        { intros x X. apply dhas_in in X. apply K in X. apply dhas_true in X as [v X]. destruct (l_in _ I _ _ X) as [-> R]. auto. }
        split; [reflexivity|]. split; [|split; [|split]].
        * constructor.
          -- intros x. rewrite <- !dhas_in. split; [apply (l_sub _ I)|]. intros X. apply dhas_true. destruct (Get x X) as [Z _]. eauto.
          -- apply (l_nd _ I).
          -- intros x X. destruct (Get x X) as [Z R]. unfold tr1, status_of. rewrite Z, lst_on. now rewrite R.
          -- intros x X F. destruct (Get x X) as [Z R]. unfold status_of. rewrite Z. unfold lst. rewrite (lup_ap x F). destruct (up os x); discriminate.
        * intros x. destruct (dhas n x) eqn:X; [left; now apply Get|now right].
        * intros x X. unfold status_of. destruct (Get x X) as [-> _]. reflexivity.
        * intros x X. apply (l_out _ I). destruct (dget (s_status s) x) eqn:Z; [|reflexivity]. assert (dhas n x = true) by (apply (l_sub _ I), dhas_true; eauto). congruence.
  Qed.
End P.
