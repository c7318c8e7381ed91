From Coq Require Import String.
From Coq Require Import List ZArith Bool Lia.
From Verif Require Import PyBase PyLemmas DeviceModel DeviceSpec DeviceProofs.
Import ListNotations.
Open Scope nat_scope.

Section P.
  Context (n : dnet) (w : world) (G : good_net n).
  Record Inv (s : dst) : Prop := {
    i_keys : forall x, In x (dkeys (s_status s)) <-> In x (dkeys n);
    i_nd : NoDup (dkeys (s_status s));
    i_tr : forall x, dhas n x = true -> tr1 s x;
    i_w : forall x, dhas n x = true -> is_iface n x = false -> status_of s x <> Waiting
  }.
  Lemma inv_sim s s' : sim s s' -> Inv s -> Inv s'.
  Proof.
    intros S [A B C D]. constructor; rewrite ?(sm_st _ _ S); auto.
    - intros x H. eapply tr1_sim; eauto.
    - intros x H I. rewrite (sim_status _ _ _ S). auto.
  Qed.
  Lemma eff_keys d s s' b v : eff d s s' b v -> In d (dkeys (s_status s)) -> dkeys (s_status s') = dkeys (s_status s).
  Proof. intros [_ E] I. rewrite E. now apply dkeys_dset_has. Qed.
  Lemma has_key x s : Inv s -> dhas n x = true -> In x (dkeys (s_status s)).
  Proof. intros I H. apply (i_keys _ I). now apply dhas_in. Qed.
  Lemma inv_eff d s s' b v : Inv s -> dhas n d = true -> eff d s s' b v -> is_on v = b -> (is_iface n d = false -> v <> Waiting) -> Inv s'.
  Proof.
    intros I H E O W. pose proof (eff_keys _ _ _ _ _ E (has_key d s I H)) as K. constructor.
    - intros x. rewrite K. apply (i_keys _ I).
    - rewrite K. apply (i_nd _ I).
    - intros x Hx. unfold tr1. rewrite (eff_status _ _ _ _ _ x E), (e_run _ _ _ _ _ E). destruct (eq_dec x d); [exact O|]. now apply (i_tr _ I).
    - intros x Hx F. rewrite (eff_status _ _ _ _ _ x E). destruct (eq_dec x d) as [->|]; [auto|]. now apply (i_w _ I).
  Qed.

  (** ** Enabling *)
  Record En (d : pystr) (s s' : dst) : Prop := {
    n_inv : Inv s';
    n_keys : dkeys (s_status s') = dkeys (s_status s);
    n_mono : forall x, running s x = true -> running s' x = true;
    n_frame : forall x, x <> d -> ~ needs n d x -> running s' x = running s x /\ status_of s' x = status_of s x;
    n_dep : running s' d = true -> running s d = true \/ ready n (running s') d = true;
    n_ok : starts_work w -> unconnected n d = false -> status_of s d <> Waiting -> usable n (running s') d = true /\ (running s d = false -> ready n (running s') d = true);
    n_wait : status_of s d = Waiting -> running s' d = false /\ status_of s' d = Disabled /\ (starts_work w -> unconnected n d = false -> ready n (running s') d = true)
  }.
  Lemma no_fail : starts_work w -> ~ launch_fails w.
  Proof. intros S [k K]. specialize (S k). congruence. Qed.
  Lemma unconn_none d : unconnected n d = true -> forall x, ~ needs n d x.
  Proof. unfold unconnected. intros U x [a E]. rewrite E in U. discriminate. Qed.
  Lemma needs_conn d c : needs n d c -> unconnected n d = false.
  Proof. intros [a E]. unfold unconnected. now rewrite E. Qed.
  Lemma needs_self d c : needs n d c -> dhas n d = true /\ is_iface n d = true /\ is_remote n d = false.
  Proof. intros [a E]. unfold is_iface, is_remote. rewrite E. split; [apply dhas_true; eauto|auto]. Qed.
  Lemma usable_run r d : usable n r d = true -> is_remote n d = false -> r d = true.
  Proof. unfold usable, is_remote. destruct (dget n d) as [[[[]|] a]|]; congruence. Qed.
  Lemma run_usable r d : r d = true -> usable n r d = true.
  Proof. unfold usable. intros H. destruct (dget n d) as [[[[]|] a]|]; auto. Qed.
  Lemma remote_eq d : remote n d = is_remote n d.
  Proof. unfold remote, kind, is_remote. destruct (dget n d) as [[[[]|] a]|]; reflexivity. Qed.
  Lemma enable_sp d s : Inv s -> dhas n d = true ->
    exists r s', enable n w d s = (r, s') /\ ((r = DErr ProcessLookupError /\ launch_dies w /\ running s d = false) \/ (r = DOk /\ En d s s')).
  Proof.
    intros I H. unfold enable. rewrite remote_eq. destruct (is_remote n d) eqn:Rm.
    { exists DOk, s. split; [reflexivity|]. right. split; [reflexivity|]. constructor; auto.
      - intros St U W. split; [unfold usable, is_remote in *; destruct (dget n d) as [[[[]|] a]|]; congruence|].
        intros _. unfold ready, is_remote in *. destruct (dget n d) as [[[[]|] a]|]; congruence.
      - intros W. exfalso. apply (i_w _ I d H); [|exact W]. unfold is_iface, is_remote in *. destruct (dget n d) as [[[[]|] a]|]; congruence. }
    pose proof (i_tr _ I d H) as T. destruct (enabled_sp n d s T) as (s1 & E1 & S1). rewrite E1. rewrite (usable_eq n), remote_eq, Rm. cbn [orb].
    destruct (running s d) eqn:R.
    { exists DOk, s1. split; [reflexivity|]. right. split; [reflexivity|]. constructor.
      - eapply inv_sim; eauto.
      - now rewrite (sm_st _ _ S1).
      - intros x X. now rewrite (sm_run _ _ S1).
      - intros x _ _. split; [apply (sm_run _ _ S1)|now apply sim_status].
      - auto.
      - intros _ _ _. split; [apply run_usable; now rewrite (sm_run _ _ S1)|congruence].
      - intros W. unfold tr1 in T. rewrite W, R in T. discriminate.
      }
    pose proof (inv_sim _ _ S1 I) as I1. pose proof (i_tr _ I1 d H) as T1. assert (R1 : running s1 d = false) by now rewrite (sm_run _ _ S1).
    pose proof (sim_status _ _ d S1) as Ss. unfold depth.
    destruct (dev_cases n d H) as [A|[(a & E)|(c & N)]].
    - (* an access point *)
      destruct (access_facts n d A) as (_ & Nn & Rdy & Fi & _).
      destruct (ap_on n w G 1 d s1 A T1 R1 (i_w _ I1 d H Fi)) as (r & s' & E' & P). rewrite E'. exists r, s'. split; [reflexivity|].
      assert (X : forall b v, eff d s1 s' b v -> is_on v = b -> v <> Waiting -> (b = false -> launch_fails w) -> En d s s').
      { intros b v F O NW Bad. pose proof (eff_sim _ _ _ _ _ _ S1 F) as F'. constructor.
        - apply (inv_eff d s s' b v); auto.
        - apply (eff_keys _ _ _ _ _ F'). now apply has_key.
        - intros x X. rewrite (e_run _ _ _ _ _ F'). destruct (eq_dec x d); [congruence|exact X].
        - intros x Nx _. rewrite (e_run _ _ _ _ _ F'), (eff_status _ _ _ _ _ x F'). destruct (eq_dec x d); [congruence|auto].
        - intros _. right. apply Rdy.
        - intros St _ _. split; [|intros _; apply Rdy]. apply run_usable. rewrite (e_run _ _ _ _ _ F'). destruct (eq_dec d d); [|congruence].
          destruct b; [reflexivity|]. exfalso. now apply (no_fail St), Bad.
        - intros W. exfalso. now apply (i_w _ I d H Fi). }
      destruct P as [(-> & P)|[(-> & P & Q)|P]]; [right|right|left; tauto].
      + split; [reflexivity|]. eapply X; eauto; discriminate.
      + split; [reflexivity|]. eapply X; eauto; discriminate.
    - (* an interface that is not connected *)
      assert (U : unconnected n d = true) by (unfold unconnected; now rewrite E).
      destruct (alone_on n w d s1 U T1 R1) as (s' & E' & F). rewrite E'. exists DOk, s'. split; [reflexivity|]. right. split; [reflexivity|].
      pose proof (eff_sim _ _ _ _ _ _ S1 F) as F'. rewrite Ss in F'. constructor.
      + apply (inv_eff d s s' _ _ I H F'); [destruct (status_of s d); reflexivity|]. unfold is_iface. rewrite E. discriminate.
      + apply (eff_keys _ _ _ _ _ F'). now apply has_key.
      + intros x X. rewrite (e_run _ _ _ _ _ F'). destruct (eq_dec x d); [congruence|exact X].
      + intros x Nx _. rewrite (e_run _ _ _ _ _ F'), (eff_status _ _ _ _ _ x F'). destruct (eq_dec x d); [congruence|auto].
      + rewrite (e_run _ _ _ _ _ F'). destruct (eq_dec d d); congruence.
      + congruence.
      + intros W. rewrite (e_run _ _ _ _ _ F'), (eff_status _ _ _ _ _ d F'), W. destruct (eq_dec d d); [|congruence]. repeat split. congruence.
    - (* a connected interface *)
      pose proof (needs_neq n G _ _ N) as NE. pose proof (needs_has n G _ _ N) as Hc. destruct (needs_access n G _ _ N) as (b & a & Ec).
      assert (Ac : access n c) by (exists b, a; exact Ec). destruct (access_facts n c Ac) as (_ & Nc & _ & Fc & _). destruct (needs_self _ _ N) as (_ & Fi & _).
      destruct (iface_on n w G d c s1 N T1 (i_tr _ I1 c Hc) (i_w _ I1 c Hc Fc) R1) as (r & s' & E' & P). rewrite E'. exists r, s'. split; [reflexivity|].
      destruct P as [P|(-> & s2 & Dp & P)]; [left; tauto|right]. split; [reflexivity|].
      assert (D2 : Inv s2 /\ dkeys (s_status s2) = dkeys (s_status s) /\ (forall x, running s x = true -> running s2 x = true) /\
                   (forall x, x <> c -> running s2 x = running s x /\ status_of s2 x = status_of s x) /\ (starts_work w -> usable n (running s2) c = true)).
      { destruct Dp as [(Uc & Sc)|(Uc & [F|(F & Bad)])].
        - pose proof (sim_trans _ _ _ S1 Sc) as S2. repeat split.
          + apply (inv_sim _ _ S2 I). + apply (inv_sim _ _ S2 I). + apply (inv_sim _ _ S2 I). + apply (inv_sim _ _ S2 I). + apply (inv_sim _ _ S2 I).
          + now rewrite (sm_st _ _ S2). + intros x X. now rewrite (sm_run _ _ S2). + apply (sm_run _ _ S2). + now apply sim_status.
          + intros _. rewrite <- Uc. apply usable_ext, (sm_run _ _ Sc).
        - pose proof (eff_sim _ _ _ _ _ _ S1 F) as F'. assert (I2 : Inv s2) by (apply (inv_eff c s s2 _ _ I Hc F'); [reflexivity|discriminate]). split; [exact I2|].
          split; [apply (eff_keys _ _ _ _ _ F'); now apply has_key|]. split; [|split].
          + intros x X. rewrite (e_run _ _ _ _ _ F'). now destruct (eq_dec x c).
          + intros x Nx. rewrite (e_run _ _ _ _ _ F'), (eff_status _ _ _ _ _ x F'). destruct (eq_dec x c); [congruence|auto].
          + intros _. apply run_usable. rewrite (e_run _ _ _ _ _ F'). destruct (eq_dec c c); congruence.
        - pose proof (eff_sim _ _ _ _ _ _ S1 F) as F'. assert (I2 : Inv s2) by (apply (inv_eff c s s2 _ _ I Hc F'); [reflexivity|discriminate]). split; [exact I2|].
          assert (Rc : running s c = false). { rewrite usable_eq in Uc. apply orb_false_iff in Uc as [_ Uc]. now rewrite (sm_run _ _ S1) in Uc. }
          split; [apply (eff_keys _ _ _ _ _ F'); now apply has_key|]. split; [|split].
          + intros x X. rewrite (e_run _ _ _ _ _ F'). destruct (eq_dec x c); [congruence|exact X].
          + intros x Nx. rewrite (e_run _ _ _ _ _ F'), (eff_status _ _ _ _ _ x F'). destruct (eq_dec x c); [congruence|auto].
          + intros St. exfalso. now apply (no_fail St). }
      destruct D2 as (I2 & K2 & M2 & Fr2 & Ok2).
      assert (Fin : forall b v, eff d s2 s' b v -> is_on v = b -> (b = true -> usable n (running s2) c = true) ->
         (starts_work w -> status_of s d <> Waiting -> b = true) -> (status_of s d = Waiting -> b = false /\ v = Disabled) -> En d s s').
      { intros b' v F O Dep Ok Wt.
        assert (Re : ready n (running s') d = usable n (running s2) c).
        { rewrite (needs_ready n _ _ _ N), !usable_eq. f_equal. rewrite (e_run _ _ _ _ _ F). destruct (eq_dec c d); [congruence|reflexivity]. }
        assert (Rd : running s' d = b') by (rewrite (e_run _ _ _ _ _ F); destruct (eq_dec d d); congruence).
        constructor.
        - apply (inv_eff d s2 s' _ _ I2 H F O). congruence.
        - rewrite (eff_keys _ _ _ _ _ F); [exact K2|now apply has_key].
        - intros x X. rewrite (e_run _ _ _ _ _ F). destruct (eq_dec x d); [congruence|now apply M2].
        - intros x Nx Nn. rewrite (e_run _ _ _ _ _ F), (eff_status _ _ _ _ _ x F). destruct (eq_dec x d); [congruence|]. apply Fr2. intros ->. contradiction.
        - rewrite Rd, Re. auto.
        - intros St _ W. rewrite Re. split; [|intros _; now apply Ok2]. apply run_usable. rewrite Rd. now apply Ok.
        - intros W. destruct (Wt W) as [-> ->]. rewrite (eff_status _ _ _ _ _ d F). destruct (eq_dec d d); [|congruence]. split; [exact Rd|]. split; [reflexivity|].
          intros St _. rewrite Re. now apply Ok2. }
      rewrite Ss in P. destruct P as [(W & F)|[(W & U & F)|(W & U & [F|(F & Bad)])]].
      + apply (Fin _ _ F); auto; try congruence.
      + apply (Fin _ _ F); auto; try congruence; try discriminate. intros St _. rewrite (Ok2 St) in U. discriminate.
      + apply (Fin _ _ F); auto; try congruence.
      + apply (Fin _ _ F); auto; try congruence; try discriminate. intros St. exfalso. now apply (no_fail St).
  Qed.

  (** ** Disabling *)
  Lemma disable_sp d s : Inv s -> dhas n d = true -> is_remote n d = false ->
    exists r s', disable n w d s = (r, s') /\
      ((r = DOk /\ Inv s' /\ dkeys (s_status s') = dkeys (s_status s) /\ running s' d = false /\ status_of s' d <> Enabled /\
        forall x, x <> d -> running s' x = running s x /\ status_of s' x = status_of s x) \/
       (r = DErr CouldNotShutDown /\ kill_fails w)).
  Proof.
    intros I H Rm. unfold disable. rewrite remote_eq, Rm. pose proof (i_tr _ I d H) as T. destruct (enabled_sp n d s T) as (s1 & E1 & S1). rewrite E1.
    rewrite (usable_eq n), remote_eq, Rm. cbn [orb]. destruct (running s d) eqn:R.
    - assert (St : status_of s1 d = Enabled). { rewrite (sim_status _ _ _ S1). apply on_iff. rewrite T. exact R. }
      destruct (off_sp n w 1 d s1 H St) as (r & s' & E' & P); [now rewrite (sm_run _ _ S1)|]. unfold depth. rewrite E'. exists r, s'. split; [reflexivity|].
      destruct P as [(-> & F)|P]; [left|right; exact P]. pose proof (eff_sim _ _ _ _ _ _ S1 F) as F'. split; [reflexivity|].
      split; [apply (inv_eff d s s' _ _ I H F'); [reflexivity|discriminate]|]. split; [apply (eff_keys _ _ _ _ _ F'); now apply has_key|].
      rewrite (e_run _ _ _ _ _ F'), (eff_status _ _ _ _ _ d F'). destruct (eq_dec d d); [|congruence]. split; [reflexivity|]. split; [discriminate|].
      intros x Nx. rewrite (e_run _ _ _ _ _ F'), (eff_status _ _ _ _ _ x F'). destruct (eq_dec x d); [congruence|auto].
    - exists DOk, s1. split; [reflexivity|]. left. split; [reflexivity|]. split; [eapply inv_sim; eauto|]. split; [now rewrite (sm_st _ _ S1)|]. split; [now rewrite (sm_run _ _ S1)|].
      split; [|intros x _; split; [apply (sm_run _ _ S1)|now apply sim_status]]. rewrite (sim_status _ _ _ S1). intros X. unfold tr1 in T. rewrite X, R in T. discriminate.
  Qed.

  (** ** off *)
  Lemma off_loop : forall l s, Inv s -> (forall x, In x l -> dhas n x = true) ->
    exists r s', each (fun d s => let (b, s1) := enabled n d s in if b then disable n w d s1 else (DOk, s1)) l s = (r, s') /\
      ((r = DOk /\ Inv s' /\ (forall x, In x l -> is_remote n x = false -> running s' x = false) /\ forall x, running s' x = true -> running s x = true) \/
       (r = DErr CouldNotShutDown /\ kill_fails w)).
  Proof.
    induction l as [|d l IH]; intros s I Hl.
    - exists DOk, s. split; [reflexivity|]. left. repeat split; auto; try apply I. intros x [].
    - cbn [each]. assert (H : dhas n d = true) by (apply Hl; now left).
      destruct (enabled_sp n d s (i_tr _ I d H)) as (s1 & E1 & S1). rewrite E1. pose proof (inv_sim _ _ S1 I) as I1.
      assert (D : exists r s2, (if usable n (running s) d then disable n w d s1 else (DOk, s1)) = (r, s2) /\
      ((r = DOk /\ Inv s2 /\ (is_remote n d = false -> running s2 d = false) /\ forall x, running s2 x = true -> running s x = true) \/ (r = DErr CouldNotShutDown /\ kill_fails w))).
      { destruct (is_remote n d) eqn:Rm.
        - rewrite usable_eq, remote_eq, Rm. cbn [orb]. unfold disable. rewrite remote_eq, Rm. exists DOk, s1. split; [reflexivity|]. left. split; [reflexivity|]. split; [exact I1|]. split; [discriminate|]. intros x. now rewrite (sm_run _ _ S1).
        - rewrite usable_eq, remote_eq, Rm. cbn [orb]. destruct (running s d) eqn:R.
          + destruct (disable_sp d s1 I1 H Rm) as (r & s2 & E2 & P). rewrite E2. exists r, s2. split; [reflexivity|]. destruct P as [(-> & I2 & _ & R2 & _ & F)|P]; [left|right; exact P].
            split; [reflexivity|]. split; [exact I2|]. split; [auto|]. intros x X. destruct (eq_dec x d) as [->|Nx]; [congruence|]. destruct (F x Nx) as [F1 _]. rewrite F1, (sm_run _ _ S1) in X. exact X.
          + exists DOk, s1. split; [reflexivity|]. left. split; [reflexivity|]. split; [exact I1|]. split; [intros _; now rewrite (sm_run _ _ S1)|]. intros x. now rewrite (sm_run _ _ S1). }
      destruct D as (r & s2 & E2 & P). rewrite E2. destruct P as [(-> & I2 & R2 & M2)|(-> & P)].
      2:{ eexists _, _. split; [reflexivity|]. right. auto. }
      destruct (IH s2 I2) as (r' & s' & E' & P'); [intros x X; apply Hl; now right|]. rewrite E'. exists r', s'. split; [reflexivity|].
      destruct P' as [(-> & I' & R' & M')|P']; [left|right; exact P']. split; [reflexivity|]. split; [exact I'|]. split; [|intros x X; now apply M2, M'].
      intros x [<-|X] Rm; [|now apply R']. destruct (running s' d) eqn:Z; [|reflexivity]. apply M' in Z. rewrite (R2 Rm) in Z. discriminate.
  Qed.

  (** ** on *)
  Lemma on_loop : forall l s, Inv s -> NoDup l -> (forall x, In x l -> dhas n x = true) ->
    exists r s', each (fun d s => if match dget n d with Some v => v_auto v | None => false end
                     then let (b, s1) := enabled n d s in if b then (DOk, s1) else enable n w d s1
                     else (DOk, s)) l s = (r, s') /\
      ((r = DErr ProcessLookupError /\ launch_dies w) \/
       (r = DOk /\ Inv s' /\ (forall x, running s x = true -> running s' x = true) /\
      (forall x, (forall d, In d l -> autos n d = true -> x <> d /\ ~ needs n d x) -> running s' x = running s x) /\
      (forall x, running s' x = true -> is_iface n x = true -> running s x = true \/ ready n (running s') x = true) /\
      (starts_work w -> forall d, In d l -> autos n d = true -> unconnected n d = false -> status_of s d <> Waiting -> usable n (running s') d = true))).
  Proof.
    induction l as [|d l IH]; intros s I ND Hl.
    - exists DOk, s. split; [reflexivity|]. right. repeat split; auto; try apply I. all: intros; contradiction.
    - cbn [each]. assert (H : dhas n d = true) by (apply Hl; now left). inversion ND as [|? ? NI ND']; subst.
      assert (D : exists r s2, (if match dget n d with Some v => v_auto v | None => false end then let (b, s1) := enabled n d s in if b then (DOk, s1) else enable n w d s1 else (DOk, s)) = (r, s2) /\
      ((r = DErr ProcessLookupError /\ launch_dies w) \/
          (r = DOk /\ Inv s2 /\ (forall x, running s x = true -> running s2 x = true) /\
      (forall x, (autos n d = true -> x <> d /\ ~ needs n d x) -> running s2 x = running s x) /\
      (forall x, x <> d -> is_iface n x = true -> running s2 x = running s x /\ status_of s2 x = status_of s x) /\
      (running s2 d = true -> running s d = true \/ ready n (running s2) d = true) /\
      (starts_work w -> autos n d = true -> unconnected n d = false -> status_of s d <> Waiting -> usable n (running s2) d = true)))).
      { fold (autos n d). destruct (autos n d) eqn:Au.
        2:{ exists DOk, s. split; [reflexivity|]. right. repeat split; auto; try apply I. discriminate. }
        destruct (enabled_sp n d s (i_tr _ I d H)) as (s1 & E1 & S1). rewrite E1. pose proof (inv_sim _ _ S1 I) as I1.
        destruct (usable n (running s) d) eqn:U.
        - exists DOk, s1. split; [reflexivity|]. right. split; [reflexivity|]. split; [exact I1|]. split; [intros x; now rewrite (sm_run _ _ S1)|].
          split; [intros x _; apply (sm_run _ _ S1)|]. split; [intros x _ _; split; [apply (sm_run _ _ S1)|now apply sim_status]|].
          split; [rewrite (sm_run _ _ S1); auto|]. intros _ _ _ _. rewrite <- U. apply usable_ext, (sm_run _ _ S1).
        - destruct (enable_sp d s1 I1 H) as (r & s2 & E2 & P). rewrite E2. exists r, s2. split; [reflexivity|]. destruct P as [P|(-> & [N1 N2 N3 N4 N5 N6 N7])]; [left; tauto|right].
          split; [reflexivity|]. split; [exact N1|]. split; [intros x X; apply N3; now rewrite (sm_run _ _ S1)|]. split; [|split; [|split]].
          + intros x X. destruct (X eq_refl) as [X1 X2]. destruct (N4 x X1 X2) as [Z _]. rewrite Z. apply (sm_run _ _ S1).
          + intros x X1 X2. assert (NN : ~ needs n d x). { intros N. destruct (needs_access n G _ _ N) as (b & a & E). unfold is_iface in X2. rewrite E in X2. discriminate. }
            destruct (N4 x X1 NN) as [Z1 Z2]. rewrite Z1, Z2. split; [apply (sm_run _ _ S1)|now apply sim_status].
          + intros X. destruct (N5 X) as [Z|Z]; [left|right; exact Z]. now rewrite (sm_run _ _ S1) in Z.
          + intros St _ Un W. apply N6; auto. now rewrite (sim_status _ _ _ S1). }
      destruct D as (r & s2 & E2 & P). rewrite E2. destruct P as [(-> & P)|(-> & I2 & M2 & F2 & Fi2 & Dp2 & Ok2)].
      { eexists _, _. split; [reflexivity|]. left. auto. }
      destruct (IH s2 I2 ND') as (r' & s' & E' & P'); [intros x X; apply Hl; now right|]. rewrite E'. exists r', s'. split; [reflexivity|].
      destruct P' as [P'|(-> & I' & M' & F' & D' & Ok')]; [left; exact P'|right]. split; [reflexivity|]. split; [exact I'|]. split; [auto|]. split; [|split].
      + intros x X. rewrite F' by (intros z Z; apply X; now right). apply F2. apply X. now left.
      + intros x X Fi. destruct (D' x X Fi) as [Z|Z]; [|right; exact Z]. destruct (eq_dec x d) as [->|Nx].
        * destruct (Dp2 Z) as [Y|Y]; [left; exact Y|right]. clear - Y M'. unfold ready, usable in *. destruct (dget n d) as [[[b|[c|]] a]|]; auto. destruct (dget n c) as [[[[]|] a']|]; auto.
        * left. destruct (Fi2 x Nx Fi) as [Q _]. congruence.
      + intros St x [<-|X] Au Un W.
        * pose proof (Ok2 St Au Un W) as Z. rewrite usable_eq in *. destruct (remote n d); [reflexivity|]. cbn [orb] in *. now apply M'.
        * apply Ok'; auto. destruct (is_iface n x) eqn:Fi.
          -- assert (Nx : x <> d) by (intros ->; contradiction). destruct (Fi2 x Nx Fi) as [_ Q]. now rewrite Q.
          -- apply (i_w _ I2); auto. apply Hl. now right.
  Qed.
End P.
