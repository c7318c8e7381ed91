(** * C51: enabling and disabling devices *)
From Coq Require Import String.
From Coq Require Import List ZArith Bool Lia.
From Verif Require Import PyBase PyLemmas DeviceModel DeviceSpec DeviceProofs DeviceProofs2 DeviceProofs3.
Import ListNotations.
Open Scope nat_scope.

(** What runs after pnetworking has looked at the devices: what ran, except the
    interfaces whose access point does not *)
Definition kept (n : dnet) (os : pystr -> osd) (x : pystr) : bool := up os x && negb (stranded n os x).
Definition valid (n : dnet) (k : dcommand) : Prop := match k with DEnable d | DDisable d => dhas n d = true | _ => True end.

Lemma ready_mono n r r' d : (forall x, r x = true -> r' x = true) -> ready n r d = true -> ready n r' d = true.
Proof. intros M. unfold ready, usable. destruct (dget n d) as [[[b|[c|]] a]|]; auto. destruct (dget n c) as [[[[]|] a']|]; auto. Qed.
Lemma kept_ready n os s : good_net n -> (forall x, dhas n x = true -> running s x = lup n os x) ->
  forall d, running s d = true -> is_iface n d = true -> ready n (running s) d = true.
Proof.
  intros G R d H I. assert (Hd : dhas n d = true). { apply dhas_true. unfold is_iface in I. destruct (dget n d); [eauto|discriminate]. }
  rewrite R in H by auto. rewrite (lup_if n os d I) in H. apply andb_true_iff in H as [_ H]. unfold ready in *. destruct (dget n d) as [[[b|[c|]] a]|] eqn:E; auto.
  destruct (gn_conn n G _ _ c E eq_refl) as (b & a' & Ec). rewrite usable_eq in *. rewrite R by (apply dhas_true; eauto). rewrite lup_ap; [exact H|]. unfold is_iface. now rewrite Ec.
Qed.
Lemma run_cases n w k os : good_net n ->
  exists r0 s0, load_all n w os = (r0, s0) /\
   ((r0 = DErr CouldNotShutDown /\ kill_fails w /\ (exists d, dhas n d = true /\ stranded n os d = true) /\ drun n w k os = (r0, s0)) \/
    (r0 = DOk /\ drun n w k os = dexec n w k s0 /\ Inv n s0 /\ (forall x, dhas n x = true -> running s0 x = lup n os x) /\ (forall x, dhas n x = true -> status_of s0 x = lst n os x))).
Proof.
  intros G. destruct (load_sp n w G os) as (r & s & E & P). exists r, s. split; [exact E|]. unfold drun. rewrite E. destruct P as [(-> & P)|(-> & I & R & S & _)]; [left; tauto|right].
  split; [reflexivity|]. split; [reflexivity|]. split; [exact I|]. split; [|exact S]. intros x X. destruct (R x) as [Z|Z]; [exact Z|congruence].
Qed.
Lemma keys_in n s : Inv n s -> forall x, In x (dkeys (s_status s)) -> dhas n x = true.
Proof. intros I x X. apply dhas_in, (i_keys _ _ I), X. Qed.
Lemma exec_inv n w k s : good_net n -> valid n k -> Inv n s ->
  exists r s', dexec n w k s = (r, s') /\ ((r = DErr CouldNotShutDown /\ kill_fails w) \/ (r = DErr ProcessLookupError /\ launch_dies w) \/ (r = DOk /\ Inv n s')).
Proof.
  intros G V I. destruct k as [d|d| | |]; cbn [dexec].
  - destruct (enable_sp n w G d s I V) as (r & s' & E & P). exists r, s'. split; [exact E|]. destruct P as [P|(-> & P)]; [tauto|]. right. right. split; [reflexivity|apply P].
  - destruct (is_remote n d) eqn:Rm.
    + unfold disable. rewrite (remote_eq n), Rm. exists DOk, s. split; [reflexivity|]. auto.
    + destruct (disable_sp n w d s I V Rm) as (r & s' & E & P). exists r, s'. split; [exact E|]. tauto.
  - unfold turn_on. destruct (on_loop n w G (dkeys (s_status s)) s I (i_nd _ _ I) (keys_in n s I)) as (r & s' & E & P). exists r, s'. split; [exact E|]. tauto.
  - unfold turn_off. destruct (off_loop n w (dkeys (s_status s)) s I (keys_in n s I)) as (r & s' & E & P). exists r, s'. split; [exact E|]. tauto.
  - exists DOk, s. split; [reflexivity|]. auto.
Qed.

(** Looking at the devices (any command does that first): nothing is started;
    the interfaces that run without a usable access point are stopped and
    reported as waiting; everything else goes on as it was.  It fails only if
    such an interface does not stop in time. *)
Theorem C51_status n w os r s : good_net n -> drun n w DStatus os = (r, s) ->
  (r = DOk /\ forall d, dhas n d = true ->
     running s d = kept n os d /\
     status_of s d = (if kept n os d then Enabled else if up os d then Waiting else Disabled)) \/
  (r = DErr CouldNotShutDown /\ (exists k, w_kill w k = false) /\ exists d, dhas n d = true /\ stranded n os d = true).
Proof.
  intros G H. destruct (run_cases n w DStatus os G) as (r0 & s0 & E0 & [(-> & K & St & E)|(-> & E & I & R & S)]); rewrite E in H; inversion H; subst; [right; auto|left].
  split; [reflexivity|]. intros d Hd. split; [now apply R|now apply S].
Qed.

(** Whatever command was run, if it ended normally a device is reported as
    enabled exactly if it is remote or its process is there *)
Theorem C51_truthful n w k os s d : good_net n -> valid n k -> drun n w k os = (DOk, s) -> dhas n d = true ->
  fst (enabled n d s) = usable n (running s) d /\ (status_of s d = Enabled <-> running s d = true).
Proof.
  intros G V H Hd. destruct (run_cases n w k os G) as (r0 & s0 & E0 & [(-> & _ & _ & E)|(-> & E & I & _)]); rewrite E in H; [discriminate|].
  destruct (exec_inv n w k s0 G V I) as (r & s' & E' & P). rewrite E' in H. inversion H; subst. destruct P as [[P _]|[[P _]|[_ I']]]; try discriminate.
  pose proof (i_tr _ _ I' d Hd) as T. split; [destruct (enabled_sp n d s T) as (s2 & -> & _); reflexivity|]. unfold tr1 in T. rewrite <- T. symmetry. apply on_iff.
Qed.

(** No command raises if processes told to stop do so in time and none is
    started that leaves its run files and dies *)
Theorem C51_no_error n w k os : good_net n -> valid n k -> stops_work w -> (forall j, w_launch w j <> Osd true false) ->
  exists s, drun n w k os = (DOk, s).
Proof.
  intros G V K L. destruct (run_cases n w k os G) as (r0 & s0 & E0 & [(-> & [j J] & _)|(-> & E & I & _)]); [rewrite K in J; discriminate|]. rewrite E.
  destruct (exec_inv n w k s0 G V I) as (r & s' & E' & [(_ & [j J])|[(_ & [j J])|(-> & _)]]); [rewrite K in J; discriminate|destruct (L j J)|]. exists s'. exact E'.
Qed.
(** ... otherwise these are the two ways it can *)
Theorem C51_errors n w k os e s : good_net n -> valid n k -> drun n w k os = (DErr e, s) ->
  (e = CouldNotShutDown /\ exists j, w_kill w j = false) \/ (e = ProcessLookupError /\ exists j, w_launch w j = Osd true false).
Proof.
  intros G V H. destruct (run_cases n w k os G) as (r0 & s0 & E0 & [(-> & K & _ & E)|(-> & E & I & _)]); rewrite E in H; [inversion H; subst; auto|].
  destruct (exec_inv n w k s0 G V I) as (r & s' & E' & P). rewrite E' in H. inversion H; subst. destruct P as [[[= <-] P]|[[[= <-] P]|[P _]]]; try discriminate; auto.
Qed.

(** After looking, enabling or switching on, every interface that runs has a
    usable access point *)
Theorem C51_usable n w k os s d : good_net n -> valid n k -> (k = DStatus \/ k = DOn \/ exists x, k = DEnable x) ->
  drun n w k os = (DOk, s) -> is_iface n d = true -> running s d = true -> ready n (running s) d = true.
Proof.
  intros G V Kk H Hi Hr. destruct (run_cases n w k os G) as (r0 & s0 & E0 & [(-> & _ & _ & E)|(-> & E & I & R & _)]); rewrite E in H; [discriminate|].
  pose proof (kept_ready n os s0 G R) as R0. destruct Kk as [->|[->|[x ->]]]; cbn [dexec] in H.
  - inversion H; subst. now apply R0.
  - unfold turn_on in H. destruct (on_loop n w G (dkeys (s_status s0)) s0 I (i_nd _ _ I) (keys_in n s0 I)) as (r & s' & E' & P). rewrite E' in H. inversion H; subst.
    destruct P as [[P _]|(_ & I' & M & _ & D & _)]; [discriminate|]. destruct (D d Hr Hi) as [Z|Z]; [|exact Z]. apply (ready_mono n (running s0)); auto.
  - destruct (enable_sp n w G x s0 I V) as (r & s' & E' & P). rewrite E' in H. inversion H; subst. destruct P as [[P _]|(_ & [N1 N2 N3 N4 N5 N6 N7])]; [discriminate|].
    destruct (eq_dec d x) as [->|Nx].
    + destruct (N5 Hr) as [Z|Z]; [|exact Z]. apply (ready_mono n (running s0)); auto.
    + assert (NN : ~ needs n x d). { intros N. destruct (needs_access n G _ _ N) as (b & a & Ex). unfold is_iface in Hi. rewrite Ex in Hi. discriminate. }
      destruct (N4 d Nx NN) as [Z _]. rewrite Z in Hr. apply (ready_mono n (running s0)); auto.
Qed.

(** Enabling a device that is connected and not stranded works, its access point
    included, if processes start and stop *)
Theorem C51_enable n w os d : good_net n -> dhas n d = true -> starts_work w -> stops_work w -> unconnected n d = false -> stranded n os d = false ->
  exists s, drun n w (DEnable d) os = (DOk, s) /\ usable n (running s) d = true /\ ready n (running s) d = true.
Proof.
  intros G Hd St K U Sd. destruct (run_cases n w (DEnable d) os G) as (r0 & s0 & E0 & [(-> & [j J] & _)|(-> & E & I & R & S)]); [rewrite K in J; discriminate|]. rewrite E. cbn [dexec].
  destruct (enable_sp n w G d s0 I Hd) as (r & s' & E' & P). destruct P as [(-> & [j J] & _)|(-> & [N1 N2 N3 N4 N5 N6 N7])].
  { specialize (St j). rewrite J in St. discriminate. }
  exists s'. split; [exact E'|]. assert (W : status_of s0 d <> Waiting).
  { rewrite (S d Hd). unfold lst, lup. rewrite Sd. cbn [negb]. rewrite andb_true_r. destruct (up os d); discriminate. }
  destruct (N6 St U W) as [A B]. split; [exact A|]. destruct (running s0 d) eqn:Rd; [|now apply B]. apply (ready_mono n (running s0)); [exact N3|].
  destruct (is_iface n d) eqn:Hi; [now apply (kept_ready n os s0 G R)|]. unfold ready, is_iface in *. apply dhas_true in Hd as [[[b|c] a] Hd]; rewrite Hd in *; [reflexivity|discriminate].
Qed.
(** ... and concerns no other device than its access point *)
Theorem C51_enable_others n w os d s x : good_net n -> dhas n d = true -> drun n w (DEnable d) os = (DOk, s) ->
  dhas n x = true -> x <> d -> ~ needs n d x -> running s x = kept n os x.
Proof.
  intros G Hd H Hx Nx NN. destruct (run_cases n w (DEnable d) os G) as (r0 & s0 & E0 & [(-> & _ & _ & E)|(-> & E & I & R & _)]); rewrite E in H; [discriminate|]. cbn [dexec] in H.
  destruct (enable_sp n w G d s0 I Hd) as (r & s' & E' & P). rewrite E' in H. inversion H; subst. destruct P as [[P _]|(_ & P)]; [discriminate|].
  destruct (n_frame _ _ _ _ _ P x Nx NN) as [Z _]. rewrite Z. now apply R.
Qed.
(** ... and never stops anything that was usable *)
Theorem C51_enable_keeps n w os d s x : good_net n -> dhas n d = true -> drun n w (DEnable d) os = (DOk, s) ->
  dhas n x = true -> kept n os x = true -> running s x = true.
Proof.
  intros G Hd H Hx Kx. destruct (run_cases n w (DEnable d) os G) as (r0 & s0 & E0 & [(-> & _ & _ & E)|(-> & E & I & R & _)]); rewrite E in H; [discriminate|]. cbn [dexec] in H.
  destruct (enable_sp n w G d s0 I Hd) as (r & s' & E' & P). rewrite E' in H. inversion H; subst. destruct P as [[P _]|(_ & P)]; [discriminate|].
  apply (n_mono _ _ _ _ _ P). now rewrite R.
Qed.
(** A stranded interface is an exception: enabling it starts the access point
    but leaves the interface disabled, however well everything works *)
Theorem C51_enable_stranded_refuted n w os d : good_net n -> dhas n d = true -> starts_work w -> stops_work w -> unconnected n d = false -> stranded n os d = true ->
  exists s, drun n w (DEnable d) os = (DOk, s) /\ running s d = false /\ status_of s d = Disabled /\ ready n (running s) d = true.
Proof.
  intros G Hd St K U Sd. destruct (run_cases n w (DEnable d) os G) as (r0 & s0 & E0 & [(-> & [j J] & _)|(-> & E & I & R & S)]); [rewrite K in J; discriminate|]. rewrite E. cbn [dexec].
  destruct (enable_sp n w G d s0 I Hd) as (r & s' & E' & P). destruct P as [(-> & [j J] & _)|(-> & [N1 N2 N3 N4 N5 N6 N7])].
  { specialize (St j). rewrite J in St. discriminate. }
  exists s'. split; [exact E'|]. assert (W : status_of s0 d = Waiting).
  { rewrite (S d Hd). unfold lst, lup. rewrite Sd. cbn [negb]. rewrite andb_false_r. unfold stranded in Sd. apply andb_true_iff in Sd as [Sd _]. apply andb_true_iff in Sd as [_ Sd]. now rewrite Sd. }
  destruct (N7 W) as (A & B & C). auto.
Qed.
(** ... so that it has to be enabled twice *)
Theorem C51_enable_twice n w w2 os d : good_net n -> dhas n d = true -> starts_work w -> stops_work w -> starts_work w2 -> stops_work w2 ->
  unconnected n d = false ->
  exists s s2, drun n w (DEnable d) os = (DOk, s) /\ drun n w2 (DEnable d) (s_os s) = (DOk, s2) /\ usable n (running s2) d = true /\ ready n (running s2) d = true.
Proof.
  intros G Hd S1 K1 S2 K2 U. assert (X : exists s, drun n w (DEnable d) os = (DOk, s) /\ stranded n (s_os s) d = false).
  { destruct (stranded n os d) eqn:Sd.
    - destruct (C51_enable_stranded_refuted n w os d G Hd S1 K1 U Sd) as (s & E & R & _). exists s. split; [exact E|]. unfold stranded. change (up (s_os s) d) with (running s d). rewrite R. now rewrite andb_false_r.
    - destruct (C51_enable n w os d G Hd S1 K1 U Sd) as (s & E & _ & Rd). exists s. split; [exact E|]. unfold stranded. rewrite (ready_ext n (up (s_os s)) (running s)) by reflexivity. rewrite Rd. now rewrite andb_false_r. }
  destruct X as (s & E & Sd). destruct (C51_enable n w2 (s_os s) d G Hd S2 K2 U Sd) as (s2 & E2 & A & B). exists s, s2. auto.
Qed.
(** An interface that is not connected to anything is not started *)
Theorem C51_enable_unconnected n w os d s : good_net n -> dhas n d = true -> unconnected n d = true -> drun n w (DEnable d) os = (DOk, s) -> running s d = false.
Proof.
  intros G Hd U H. destruct (running s d) eqn:R; [|reflexivity]. assert (Hi : is_iface n d = true). { unfold is_iface, unconnected in *. destruct (dget n d) as [[[b|[c|]] a]|]; auto. }
  pose proof (C51_usable n w (DEnable d) os s d G Hd (or_intror (or_intror (ex_intro _ d eq_refl))) H Hi R) as Z. unfold ready, unconnected in *. destruct (dget n d) as [[[b|[c|]] a]|]; discriminate.
Qed.

(** Disabling stops the device and nothing else *)
Theorem C51_disable n w os d : good_net n -> dhas n d = true -> is_remote n d = false -> stops_work w ->
  exists s, drun n w (DDisable d) os = (DOk, s) /\ running s d = false /\ status_of s d <> Enabled /\
    forall x, dhas n x = true -> x <> d -> running s x = kept n os x.
Proof.
  intros G Hd Rm K. destruct (run_cases n w (DDisable d) os G) as (r0 & s0 & E0 & [(-> & [j J] & _)|(-> & E & I & R & S)]); [rewrite K in J; discriminate|]. rewrite E. cbn [dexec].
  destruct (disable_sp n w d s0 I Hd Rm) as (r & s' & E' & [(-> & _ & _ & A & B & F)|(_ & [j J])]); [|rewrite K in J; discriminate].
  exists s'. split; [exact E'|]. split; [exact A|]. split; [exact B|]. intros x Hx Nx. destruct (F x Nx) as [Z _]. rewrite Z. now apply R.
Qed.
(** ... not even the interfaces that use an access point: they go on, reported as
    enabled, until pnetworking is run again *)
Theorem C51_disable_interfaces_refuted n w os d i : good_net n -> is_remote n d = false -> stops_work w -> needs n i d -> kept n os i = true ->
  exists s, drun n w (DDisable d) os = (DOk, s) /\ running s i = true /\ status_of s i = Enabled /\ ready n (running s) i = false /\
    exists s2, drun n w DStatus (s_os s) = (DOk, s2) /\ running s2 i = false /\ status_of s2 i = Waiting.
Proof.
  intros G Rm K N Ki. pose proof (needs_has n G _ _ N) as Hd. destruct (needs_self n i d N) as (Hi & Ii & _). pose proof (needs_neq n G _ _ N) as NE.
  destruct (C51_disable n w os d G Hd Rm K) as (s & E & A & _ & F). exists s. split; [exact E|]. assert (Ri : running s i = true) by (rewrite F; auto). split; [exact Ri|].
  split; [now apply (C51_truthful n w (DDisable d) os s i G Hd E Hi)|].
  assert (Rdy : ready n (running s) i = false) by (rewrite (needs_ready n _ _ _ N), usable_eq, (remote_eq n), Rm; exact A). split; [exact Rdy|].
  destruct (drun n w DStatus (s_os s)) as [r2 s2] eqn:E2. destruct (C51_status n w (s_os s) r2 s2 G E2) as [(-> & P)|(_ & [j J] & _)]; [|rewrite K in J; discriminate].
  exists s2. split; [reflexivity|]. destruct (P i Hi) as [P1 P2].
  assert (Kf : kept n (s_os s) i = false). { unfold kept, stranded. change (up (s_os s) i) with (running s i). rewrite (ready_ext n (up (s_os s)) (running s)) by reflexivity. now rewrite Ii, Ri, Rdy. }
  rewrite P1, P2, Kf. change (up (s_os s) i) with (running s i). rewrite Ri. auto.
Qed.

(** Switching off stops every device that is not remote *)
Theorem C51_off n w os : good_net n -> stops_work w -> exists s, drun n w DOff os = (DOk, s) /\ forall d, dhas n d = true -> is_remote n d = false -> running s d = false.
Proof.
  intros G K. destruct (run_cases n w DOff os G) as (r0 & s0 & E0 & [(-> & [j J] & _)|(-> & E & I & R & S)]); [rewrite K in J; discriminate|]. rewrite E. cbn [dexec]. unfold turn_off.
  destruct (off_loop n w (dkeys (s_status s0)) s0 I (keys_in n s0 I)) as (r & s' & E' & [(-> & _ & A & _)|(_ & [j J])]); [|rewrite K in J; discriminate].
  exists s'. split; [exact E'|]. intros d Hd. apply A. apply (i_keys _ _ I). now apply dhas_in.
Qed.
(** Switching on starts every device marked for that, with its access point; the
    stranded ones excepted, and nothing else is started or stopped *)
Theorem C51_on n w os : good_net n -> starts_work w -> stops_work w ->
  exists s, drun n w DOn os = (DOk, s) /\
    (forall d, dhas n d = true -> autos n d = true -> unconnected n d = false -> stranded n os d = false -> usable n (running s) d = true) /\
    (forall x, dhas n x = true -> (forall d, autos n d = true -> x <> d /\ ~ needs n d x) -> running s x = kept n os x) /\
    (forall x, dhas n x = true -> kept n os x = true -> running s x = true).
Proof.
  intros G St K. destruct (run_cases n w DOn os G) as (r0 & s0 & E0 & [(-> & [j J] & _)|(-> & E & I & R & S)]); [rewrite K in J; discriminate|]. rewrite E. cbn [dexec]. unfold turn_on.
  destruct (on_loop n w G (dkeys (s_status s0)) s0 I (i_nd _ _ I) (keys_in n s0 I)) as (r & s' & E' & [(_ & [j J])|(-> & _ & M & F & _ & Ok)]).
  { specialize (St j). rewrite J in St. discriminate. }
  exists s'. split; [exact E'|]. split; [|split].
  - intros d Hd Au U Sd. apply Ok; auto; [apply (i_keys _ _ I); now apply dhas_in|]. rewrite (S d Hd). unfold lst, lup. rewrite Sd. cbn [negb]. rewrite andb_true_r. destruct (up os d); discriminate.
  - intros x Hx X. rewrite F; [now apply R|]. intros d _. apply X.
  - intros x Hx X. apply M. now rewrite R.
Qed.

(** ** A case *)
Definition dv_net : dnet := [(lit "i"%string, Dev (DIface (Some (lit "s"%string))) true); (lit "j"%string, Dev (DIface (Some (lit "s"%string))) false);
                             (lit "k"%string, Dev (DIface None) true); (lit "s"%string, Dev (DAccess false) false); (lit "r"%string, Dev (DAccess true) false)].
Definition fine : world := World (fun _ => Osd true true) (fun _ => true).
Definition none_up : pystr -> osd := fun _ => Osd false false.
Definition only_j : pystr -> osd := fun x => if eq_dec x (lit "j"%string) then Osd true true else Osd false false.
Example dv_good : good_net dv_net.
Proof.
  constructor; [repeat constructor; vm_compute; intuition congruence|]. intros d v c H K. apply dget_in in H. unfold dv_net in H.
  repeat (destruct H as [H|H]; [inversion H; subst; cbn in K; try discriminate; inversion K; subst; exists false, false; vm_compute; reflexivity|]). destruct H.
Qed.
Definition show (p : dres * dst) : dres * list bool := (fst p, map (running (snd p)) (dkeys dv_net)).
Example dv_enable : show (drun dv_net fine (DEnable (lit "i"%string)) none_up) = (DOk, [true; false; false; true; false]).
Proof. vm_compute. reflexivity. Qed.
Example dv_stranded : stranded dv_net only_j (lit "j"%string) = true /\ show (drun dv_net fine (DEnable (lit "j"%string)) only_j) = (DOk, [false; false; false; true; false]).
Proof. vm_compute. split; reflexivity. Qed.
Example dv_on : show (drun dv_net fine DOn only_j) = (DOk, [true; false; false; true; false]).
Proof. vm_compute. reflexivity. Qed.
(** A process that leaves its run files and dies makes enabling raise *)
Definition dying : world := World (fun _ => Osd true false) (fun _ => true).
Theorem C51_half_started_refuted : fst (drun dv_net dying (DEnable (lit "i"%string)) none_up) = DErr ProcessLookupError /\ stops_work dying.
Proof. split; [vm_compute; reflexivity|intros k; reflexivity]. Qed.
(** One that does not start at all is reported as abnormal *)
Definition failing : world := World (fun _ => Osd false false) (fun _ => true).
Example dv_failing : let p := drun dv_net failing (DEnable (lit "s"%string)) none_up in fst p = DOk /\ status_of (snd p) (lit "s"%string) = Abnormal.
Proof. vm_compute. split; reflexivity. Qed.
Example dv_off : show (drun dv_net fine DOff (fun _ => Osd true true)) = (DOk, [false; false; false; false; true]).
Proof. vm_compute. reflexivity. Qed.
Print Assumptions C51_enable.
Print Assumptions C51_on.
