(** * C24, C46: packet definition registration and silos *)
From Coq Require Import String.
From Coq Require Import List ZArith Bool Lia.
From Verif Require Import PyBase PyLemmas HDModel AddrModel RegModel RegSpec RegProofs.
Import ListNotations.
Open Scope Z_scope.

(** C24. Registration and unregistration never raise; afterwards getDefinition
    of a registered pair returns the class registered last for it, and of an
    identifier with nothing registered returns None (for any version and for
    MOST_RECENT). *)
Theorem C24_lookup_returns_registered :
  forall os, exists r, reg_run os reg_empty = Ok r /\
    (forall i v c, registered os i v = Some c -> get_definition r i (Some v) = Ok (Some c)) /\
    (forall i, (forall v, registered os i v = None) -> forall q, get_definition r i q = Ok None).
Proof.
  intros os. destruct (reg_run_good os reg_empty _ reg_good_empty) as (r & E & G).
  exists r. split; [exact E|]. split.
  - intros i v c H. apply (get_good r _ i v G), H.
  - intros i H q. apply (get_good r _ i (Version 0 0) G), H.
Qed.
Print Assumptions C24_lookup_returns_registered.

(** C24. With no version given, the class with the greatest version among those
    registered for the identifier (versions with non-negative numbers). *)
Theorem C24_most_recent :
  forall os i v c,
    (forall w, registered os i w <> None -> 0 <= v_major w /\ 0 <= v_minor w) ->
    registered os i v = Some c -> (forall w, registered os i w <> None -> version_le w v) ->
    exists r, reg_run os reg_empty = Ok r /\ get_definition r i None = Ok (Some c).
Proof.
  intros os i v c Nn Hv Mx. destruct (reg_run_good os reg_empty _ reg_good_empty) as (r & E & G).
  exists r. split; [exact E|]. eapply get_recent_good; eauto.
Qed.
Print Assumptions C24_most_recent.

(** C24, false part: a missing version of a known identifier is not reported as
    absent, the call raises NameError - for every such history. *)
Theorem C24_missing_version_raises_refuted :
  forall os i v, registered os i v = None -> (exists w, registered os i w <> None) ->
    exists r, reg_run os reg_empty = Ok r /\
      get_definition r i (Some v) = Raise NameError /\ has_definition r i (Some v) = Raise NameError.
Proof.
  intros os i v H W. destruct (reg_run_good os reg_empty _ reg_good_empty) as (r & E & G).
  exists r. split; [exact E|].
  assert (X : get_definition r i (Some v) = Raise NameError) by (apply (get_good r _ i v G); assumption).
  split; [exact X|]. unfold has_definition. rewrite X. reflexivity.
Qed.
Print Assumptions C24_missing_version_raises_refuted.

(** C24, false part: with negative version numbers MOST_RECENT finds nothing. *)
Theorem C24_most_recent_negative_refuted :
  exists r, reg_run [RReg (lit "a"%string) (Version (-1) 0) 1%nat] reg_empty = Ok r /\
    get_definition r (lit "a"%string) None = Raise NameError.
Proof. eexists. split; vm_compute; reflexivity. Qed.

(** C24. Iteration lists exactly the identifiers with a registered version,
    each once. *)
Theorem C24_iteration :
  forall os, exists r, reg_run os reg_empty = Ok r /\ NoDup (reg_iter r) /\
    forall i, In i (reg_iter r) <-> exists v, registered os i v <> None.
Proof.
  intros os. destruct (reg_run_good os reg_empty _ reg_good_empty) as (r & E & H & G).
  exists r. split; [exact E|]. destruct H as [hs Hr].
  destruct (HDProofs.keys_spec dot_split dot_join HDProofs.dot_JS HDProofs.dot_SN HDProofs.dot_J1 hs) as (N & K & _).
  rewrite <- Hr in N, K. split; [exact N|]. intros i. unfold reg_iter. rewrite K.
  specialize (G i). unfold pod_of in G. split.
  - intros [p Ep]. rewrite Ep in G. destruct G as (A & Nn & _).
    destruct (p_versions p) as [|[v c] l] eqn:Ev; [congruence|]. exists v. unfold registered. rewrite <- A.
    cbn. destruct (eq_dec v v); congruence.
  - intros [v Hv]. destruct (hd_get dot_split i r); [eauto|]. destruct (Hv (G v)).
Qed.
Print Assumptions C24_iteration.

(** C24 for class statements, in any state a program can reach: the class is
    registered in the current silo under its identifier and version if the
    identifier has no definition there; a second definition of the same pair is
    rejected with ValueError; nothing else changes. *)
Lemma silo_reach_good s : silo_reach s -> silos_good s /\ si_stack s <> [].
Proof.
  induction 1 as [|s p R [IH T]|s name reuse s' n R [IH T] E].
  - split; [apply silos_good_init|discriminate].
  - split; [apply exec_good, IH|]. rewrite exec_stack. exact T.
  - destruct (new_silo_good s name reuse IH) as [G X]. rewrite E in *. cbn [fst snd] in *.
    specialize (X n eq_refl). split; [|discriminate]. split; [apply G|constructor; [exact X|apply G]].
Qed.
Theorem C24_class_statement :
  forall s i vs v c inh, silo_reach s -> version_from_string vs = Ok v ->
    inh = None \/ inh = Some current_name ->
    exists n r, current_silo s = Ok n /\ dget (si_regs s) n = Some r /\
      (get_definition r i (Some v) = Ok None ->
         exists s' r', define_class s (Some i) (Some vs) false inh c = (s', Ok c) /\
           dget (si_regs s') n = Some r' /\ si_stack s' = si_stack s /\
           (forall m, m <> n -> dget (si_regs s') m = dget (si_regs s) m) /\
           get_definition r' i (Some v) = Ok (Some c) /\
           (forall j q, j <> i -> get_definition r' j q = get_definition r j q)) /\
      (forall d, get_definition r i (Some v) = Ok (Some d) ->
         define_class s (Some i) (Some vs) false inh c = (s, Raise ValueError)) /\
      (forall e, get_definition r i (Some v) = Raise e ->
         define_class s (Some i) (Some vs) false inh c = (s, Raise e)).
Proof.
  intros s i vs v c inh R V I. destruct (silo_reach_good s R) as [[A B] T].
  destruct (si_stack s) as [|n st] eqn:Es; [congruence|]. inversion B as [|? ? Bn _]; subst.
  destruct (dget (si_regs s) n) as [r|] eqn:Er; [|congruence].
  exists n, r. unfold current_silo. rewrite Es. split; [reflexivity|]. split; [exact Er|].
  destruct (A n r Er) as [m Gm].
  assert (D : define_class s (Some i) (Some vs) false inh c =
    match has_definition r i (Some v) with
    | Raise e => (s, Raise e)
    | Ok true => (s, Raise ValueError)
    | Ok false => match register_definition r i v c with
                  | Raise e => (s, Raise e)
                  | Ok r' => (Silos (dset (si_regs s) n r') (si_stack s) (si_auto s), Ok c)
                  end
    end).
  { unfold define_class. replace (match inh with Some n => n | None => current_name end) with current_name by (destruct I; subst; reflexivity).
    rewrite V. unfold silo_by_name. destruct (eq_dec current_name current_name); [|congruence].
    unfold current_silo. rewrite Es. cbn [bind]. rewrite Er. reflexivity. }
  unfold has_definition in D. split; [|split].
  - intros E. rewrite E in D. cbn [bind] in D.
    destruct (reg_step_good r m (RReg i v c) Gm) as (r' & Er' & Gr'). rewrite Er' in D.
    exists (Silos (dset (si_regs s) n r') (si_stack s) (si_auto s)), r'. split; [exact D|]. cbn.
    rewrite Es. rewrite dget_dset_same. repeat split; auto.
    + intros x Nx. apply dget_dset_other, Nx.
    + apply (get_good r' _ i v Gr'). cbn. destruct (eq_dec i i); [|congruence]. destruct (eq_dec v v); congruence.
    + intros j q Nj. unfold register_definition in Er'.
      match type of Er' with hd_set _ _ ?P _ = _ => destruct (hdr_set r i P (proj1 Gm)) as (r2 & E2 & _ & L2) end.
      assert (r2 = r') as -> by congruence.
      unfold get_definition. rewrite L2. destruct (eq_dec j i); [congruence|reflexivity].
  - intros d E. rewrite E in D. exact D.
  - intros e E. rewrite E in D. exact D.
Qed.
Print Assumptions C24_class_statement.

(** C24, false part: after one class statement for an identifier, any class
    statement for another version of it fails (NameError). *)
Theorem C24_second_version_cannot_be_defined_refuted :
  exists s, silo_reach s /\
    snd (define_class s (Some (lit "a.b"%string)) (Some (lit "1.1"%string)) false None 2%nat) = Raise NameError.
Proof.
  exists (fst (exec silos_init (SDefine (Some (lit "a.b"%string)) (Some (lit "1.0"%string)) false None 1%nat))).
  split; [apply sr_stmt, sr_init|]. vm_compute. reflexivity.
Qed.
(** A class that names its silo explicitly cannot be defined. *)
Theorem C24_explicit_silo_refuted :
  forall s i vs v inh c, version_from_string vs = Ok v ->
    define_class s (Some i) (Some vs) true inh c = (s, Raise UnboundLocalError).
Proof. intros. unfold define_class. rewrite H. reflexivity. Qed.

(** C46. Whatever happens in a program - nested silo blocks, exceptions - the
    current silo after a statement is the one before it. *)
Theorem C46_silo_block_restores_current :
  forall s p, current_silo (fst (exec s p)) = current_silo s.
Proof. intros s p. unfold current_silo. rewrite exec_stack. reflexivity. Qed.
Print Assumptions C46_silo_block_restores_current.

(** C46. Definitions made inside a silo block do not reach any silo that the
    block does not name, in particular not the enclosing one. *)
Theorem C46_silo_block_isolates :
  forall s n reuse body m, n <> m -> ~ auto_name m ->
    untouched m (SWith (Some n) reuse body) ->
    dget (si_regs (fst (exec s (SWith (Some n) reuse body)))) m = dget (si_regs s) m.
Proof.
  intros s n reuse body m Nm A U. cbn [untouched] in U. destruct U as [Un U]. rewrite untouched_list in U.
  rewrite exec_with. destruct (new_silo_regs s (Some n) reuse m Un A) as [R Rn].
  destruct (new_silo s (Some n) reuse) as [s' [x|e]]; cbn [fst snd] in *; [|exact R].
  specialize (Rn x eq_refl).
  assert (B : dget (si_regs (fst (exec_list (silo_enter s' x) body))) m = dget (si_regs (silo_enter s' x)) m).
  { apply exec_list_regs; [|exact U|exact A|cbn; congruence].
    apply Forall_forall. intros p _. apply exec_regs. }
  destruct (exec_list (silo_enter s' x) body) as [s2 r]. cbn [fst] in B.
  rewrite <- R. unfold silo_exit. destruct (si_stack s2); exact B.
Qed.
Print Assumptions C46_silo_block_isolates.

(** C46. A class whose base names a silo goes to that silo, not to the current
    one; the base naming a silo that does not exist is AttributeError. *)
Theorem C46_base_silo : forall s i vs v c m, silo_reach s -> version_from_string vs = Ok v -> m <> current_name ->
  match dget (si_regs s) m with
  | None => define_class s (Some i) (Some vs) false (Some m) c = (s, Raise AttributeError)
  | Some r =>
      (get_definition r i (Some v) = Ok None ->
         exists s' r', define_class s (Some i) (Some vs) false (Some m) c = (s', Ok c) /\
           dget (si_regs s') m = Some r' /\ get_definition r' i (Some v) = Ok (Some c) /\
           (forall k, k <> m -> dget (si_regs s') k = dget (si_regs s) k) /\ si_stack s' = si_stack s) /\
      (forall d, get_definition r i (Some v) = Ok (Some d) ->
         define_class s (Some i) (Some vs) false (Some m) c = (s, Raise ValueError))
  end.
Proof.
  intros s i vs v c m R V Nm. destruct (silo_reach_good s R) as [[A B] T].
  unfold define_class, silo_by_name, dhas. rewrite V. destruct (eq_dec m current_name) as [X|_]; [contradiction|].
  destruct (dget (si_regs s) m) as [r|] eqn:Er; [|reflexivity].
  rewrite Er. unfold has_definition. destruct (A m r Er) as [mm Gm]. split.
  - intros E. rewrite E. cbn [bind].
    destruct (reg_step_good r mm (RReg i v c) Gm) as (r' & Er' & Gr'). cbn in Er'. rewrite Er'.
    eexists. exists r'. split; [reflexivity|]. cbn [si_regs si_stack]. rewrite dget_dset_same. split; [reflexivity|]. split; [|split; [|reflexivity]].
    + apply (get_good r' _ i v Gr'). cbn. destruct (eq_dec i i); [|congruence]. destruct (eq_dec v v); congruence.
    + intros k Nk. apply dget_dset_other, Nk.
  - intros d E. rewrite E. reflexivity.
Qed.
Print Assumptions C46_base_silo.
(** C46. Making silo objects: an unnamed silo gets a name no earlier unnamed
    one had (its creation is refused if a user took that name), and starts
    empty; nothing else changes. *)
Theorem C46_new_silo : forall s name reuse s' n, new_silo s name reuse = (s', Ok n) ->
  match name with Some m => n = m /\ si_auto s' = si_auto s | None => n = unnamed_prefix ++ print_int (si_auto s) /\ si_auto s' = si_auto s + 1 end /\
  dget (si_regs s') n = Some (match dget (si_regs s) n with Some r => r | None => reg_empty end) /\
  (dget (si_regs s) n <> None -> reuse = true) /\
  (forall m, m <> n -> dget (si_regs s') m = dget (si_regs s) m) /\ si_stack s' = si_stack s.
Proof.
  intros s name reuse s' n. unfold new_silo, dhas. destruct name as [m|].
  - destruct (dget (si_regs s) m) as [r|] eqn:E.
    + destruct reuse; [|discriminate]. intros [= <- <-]. rewrite E. repeat split; auto.
    + intros [= <- <-]. cbn. rewrite E, dget_dset_same. repeat split; auto; try congruence. intros k Nk. apply dget_dset_other, Nk.
  - destruct (si_auto s <? 1000000); [|discriminate]. cbn [si_regs si_auto si_stack].
    remember (unnamed_prefix ++ print_int (si_auto s)) as x eqn:X. clear X.
    destruct (dget (si_regs s) x) as [r|] eqn:E.
    + destruct reuse; [|discriminate]. intros [= <- <-]. cbn [si_regs si_auto si_stack]. rewrite E. repeat split; auto.
    + intros [= <- <-]. cbn [si_regs si_auto si_stack]. rewrite E, dget_dset_same. repeat split; auto; try congruence. intros k Nk. apply dget_dset_other, Nk.
Qed.
Print Assumptions C46_new_silo.
(** automatic names are different from each other *)
Theorem C46_auto_names_fresh : forall s reuse s' n s2 reuse2 s3 n2 k,
  new_silo s None reuse = (s', Ok n) -> si_auto s2 = si_auto s' + Z.of_nat k -> new_silo s2 None reuse2 = (s3, Ok n2) -> n <> n2.
Proof.
  intros s reuse s' n s2 reuse2 s3 n2 k E1 K E2. apply C46_new_silo in E1 as ((-> & A1) & _), E2 as ((-> & A2) & _).
  intros X. apply app_inv_head in X. assert (Y : parse_int (print_int (si_auto s)) = parse_int (print_int (si_auto s2))) by congruence.
  rewrite !parse_print in Y. injection Y as Y. lia.
Qed.
Print Assumptions C46_auto_names_fresh.

(** *** Examples *)
Example base_silo_example :
  let s := fst (new_silo silos_init (Some (lit "x"%string)) false) in
  snd (define_class s (Some (lit "a"%string)) (Some (lit "1.0"%string)) false (Some (lit "x"%string)) 1%nat) = Ok 1%nat /\
  snd (define_class s (Some (lit "a"%string)) (Some (lit "1.0"%string)) false (Some (lit "y"%string)) 1%nat) = Raise AttributeError.
Proof. vm_compute. split; reflexivity. Qed.
Example reg_example :
  let a := lit "net.a"%string in
  let os := [RReg a (Version 1 0) 1%nat; RReg a (Version 1 3) 2%nat; RReg a (Version 0 9) 3%nat;
             RReg (lit "net"%string) (Version 2 0) 4%nat; RUnreg (lit "net"%string); RReg a (Version 1 0) 5%nat] in
  registered os a (Version 1 0) = Some 5%nat /\
  exists r, reg_run os reg_empty = Ok r /\ get_definition r a None = Ok (Some 2%nat) /\
            get_definition r (lit "net"%string) None = Ok None.
Proof. vm_compute. split; [reflexivity|]. eexists. repeat split. Qed.
Example silo_example :
  let d i c := SDefine (Some (lit i)) (Some (lit "1.0"%string)) false None c in
  let p := SWith (Some (lit "x"%string)) false [d "a"%string 1%nat; STry [SWith None false [d "a"%string 2%nat; SRaise ValueError]]] in
  untouched default_name p /\ ~ auto_name default_name /\
  (exists r, dget (si_regs (fst (exec silos_init p))) (lit "x"%string) = Some r /\
     get_definition r (lit "a"%string) None = Ok (Some 1%nat)) /\
  dget (si_regs (fst (exec silos_init p))) default_name = Some reg_empty.
Proof.
  split; [cbn; repeat split; auto; discriminate|]. split; [|split].
  - intros [k E]. unfold default_name, unnamed_prefix in E. cbn in E. discriminate.
  - vm_compute. eexists. split; reflexivity.
  - vm_compute. reflexivity.
Qed.
