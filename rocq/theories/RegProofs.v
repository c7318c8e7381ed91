(** * Proofs about packet definition registration *)
From Coq Require Import List ZArith Bool Lia.
From Verif Require Import PyBase PyLemmas HDModel HDSpec HDProofs AddrModel RegModel RegSpec.
Import ListNotations.
Open Scope Z_scope.

Definition hdr (r : registry) : Prop := exists os, r = hd_run dot_split os hd_empty.
Lemma hd_run_app {K V} `{EqDec K} sp (os os' : list (hop K V)) d : hd_run sp (os ++ os') d = hd_run sp os' (hd_run sp os d).
Proof. revert d. induction os; cbn; auto. Qed.
Lemma flat_run_app {K V} `{EqDec K} (os os' : list (hop K V)) m : flat_run (os ++ os') m = flat_run os' (flat_run os m).
Proof. revert m. induction os; cbn; auto. Qed.
Lemma hdr_empty : hdr reg_empty.
Proof. exists []. reflexivity. Qed.
Lemma pod_flat os i : pod_of (hd_run dot_split os hd_empty) i = flat_run os flat_empty i.
Proof.
  unfold pod_of. rewrite (get_flat dot_split dot_join dot_JS dot_SN os i).
  destruct (flat_run os flat_empty i); reflexivity.
Qed.
Lemma hdr_set r i p : hdr r -> exists r', hd_set dot_split i p r = Ok r' /\ hdr r' /\
  forall j, pod_of r' j = if eq_dec j i then Some p else pod_of r j.
Proof.
  intros [os ->]. destruct (outcomes dot_split dot_join dot_JS dot_SN os i p) as [[r' E] _].
  exists r'. split; [exact E|].
  assert (Er : r' = hd_run dot_split (os ++ [HSet i p]) hd_empty).
  { rewrite hd_run_app. cbn [hd_run hd_step]. unfold hd_step. rewrite E. reflexivity. }
  split; [exists (os ++ [HSet i p]); exact Er|].
  intros j. rewrite Er, !pod_flat, flat_run_app. reflexivity.
Qed.
Lemma hdr_del r i : hdr r -> pod_of r i <> None -> exists r', hd_del dot_split i r = Ok r' /\ hdr r' /\
  forall j, pod_of r' j = if eq_dec j i then None else pod_of r j.
Proof.
  intros [os ->] N. rewrite pod_flat in N.
  destruct (outcomes dot_split dot_join dot_JS dot_SN os i new_pod) as [_ [D _]].
  destruct (D N) as [r' E]. exists r'. split; [exact E|].
  assert (Er : r' = hd_run dot_split (os ++ [HDel i]) hd_empty).
  { rewrite hd_run_app. cbn [hd_run hd_step]. unfold hd_step. rewrite E. reflexivity. }
  split; [exists (os ++ [HDel i]); exact Er|].
  intros j. rewrite Er, !pod_flat, flat_run_app. reflexivity.
Qed.

(** what a POD knows about the registered versions *)
Definition pod_good (p : pod) (m : version -> option cls) : Prop :=
  (forall v, dget (p_versions p) v = m v) /\
  p_versions p <> [] /\
  (p_majorMax p = 0 \/ exists v, m v <> None /\ v_major v = p_majorMax p) /\ 0 <= p_majorMax p /\
  (forall v, m v <> None -> v_major v <= p_majorMax p) /\
  dget (p_minorMax p) 0 <> None /\
  (forall v, m v <> None -> exists x, dget (p_minorMax p) (v_major v) = Some x /\ v_minor v <= x) /\
  (forall a x, dget (p_minorMax p) a = Some x -> 0 <= x /\
     (x = 0 \/ exists v, m v <> None /\ v_major v = a /\ v_minor v = x)).
Definition reg_good (r : registry) (m : rtable) : Prop :=
  hdr r /\ forall i, match pod_of r i with
                     | Some p => pod_good p (m i)
                     | None => forall v, m i v = None
                     end.

Lemma reg_good_empty : reg_good reg_empty (fun _ _ => None).
Proof. split; [apply hdr_empty|]. intros i. destruct hdr_empty as [os E].
  unfold pod_of, reg_empty, hd_get. rewrite lookup_empty. reflexivity. Qed.

Lemma dset_nonnil {K V} `{EqDec K} (d : dict K V) k v : dset d k v <> [].
Proof. destruct d as [|[k' v'] d]; cbn; [discriminate|]. destruct (eq_dec k k'); discriminate. Qed.

Lemma pod_register p m v c :
  pod_good p m \/ (p = new_pod /\ forall w, m w = None) ->
  pod_good (Pod (dset (p_versions p) v c) (Z.max (v_major v) (p_majorMax p))
      (dset (p_minorMax p) (v_major v)
         (Z.max (match dget (p_minorMax p) (v_major v) with Some x => x | None => 0 end) (v_minor v))))
    (fun w => if eq_dec w v then Some c else m w).
Proof.
  intros G.
  assert (G' : (forall w, dget (p_versions p) w = m w) /\
    (p_majorMax p = 0 \/ exists v, m v <> None /\ v_major v = p_majorMax p) /\ 0 <= p_majorMax p /\
    (forall v, m v <> None -> v_major v <= p_majorMax p) /\
    dget (p_minorMax p) 0 <> None /\
    (forall v, m v <> None -> exists x, dget (p_minorMax p) (v_major v) = Some x /\ v_minor v <= x) /\
    (forall a x, dget (p_minorMax p) a = Some x -> 0 <= x /\
       (x = 0 \/ exists v, m v <> None /\ v_major v = a /\ v_minor v = x))).
  { destruct G as [(A & _ & B)|[-> N]]; [split; [exact A|exact B]|].
    unfold new_pod. cbn [p_versions p_majorMax p_minorMax].
    split; [intros w; rewrite N; reflexivity|]. split; [left; reflexivity|]. split; [lia|].
    split; [intros w X; destruct (X (N w))|]. split; [cbn; discriminate|].
    split; [intros w X; destruct (X (N w))|].
    intros a x H. cbn [dget] in H. destruct (eq_dec a 0); [|discriminate]. injection H as <-. auto with zarith. }
  clear G. destruct G' as (A & B & P & C & D & E & F).
  assert (Keep : forall w, m w <> None -> (if eq_dec w v then Some c else m w) <> None).
  { intros w Hw. destruct (eq_dec w v); [discriminate|assumption]. }
  assert (Self : (if eq_dec v v then Some c else m v) <> None).
  { destruct (eq_dec v v); congruence. }
  unfold pod_good. cbn [p_versions p_majorMax p_minorMax].
  split; [intros w; rewrite dget_dset; rewrite A; reflexivity|].
  split; [apply dset_nonnil|].
  split.
  { destruct (Z.max_spec (v_major v) (p_majorMax p)) as [[L ->]|[L ->]].
    - destruct B as [B|(w & Bw & Be)]; [left; exact B|right; exists w; auto].
    - right. exists v. auto. }
  split; [lia|]. split.
  { intros w Hw. destruct (eq_dec w v) as [->|]; [lia|]. specialize (C w Hw). lia. }
  split.
  { rewrite dget_dset. destruct (eq_dec 0 (v_major v)); [discriminate|assumption]. }
  split.
  { intros w Hw. rewrite dget_dset. destruct (eq_dec w v) as [->|Nw].
    - destruct (eq_dec (v_major v) (v_major v)); [|congruence].
      eexists. split; [reflexivity|]. apply Z.le_max_r.
    - destruct (E w Hw) as (x & Ex & Lx). destruct (eq_dec (v_major w) (v_major v)) as [Em|Em].
      + eexists. split; [reflexivity|]. rewrite Em in Ex. rewrite Ex. lia.
      + eauto. }
  intros a x H. rewrite dget_dset in H. destruct (eq_dec a (v_major v)) as [->|Na].
  - assert (x = Z.max (match dget (p_minorMax p) (v_major v) with Some x => x | None => 0 end) (v_minor v)) as -> by congruence.
    destruct (dget (p_minorMax p) (v_major v)) as [y|] eqn:Ey.
    + destruct (F _ _ Ey) as [Py Ay]. split; [lia|].
      destruct (Z.max_spec y (v_minor v)) as [[L ->]|[L ->]]; [right; exists v; auto|].
      destruct Ay as [->|(w & W1 & W2 & W3)]; [left; reflexivity|right; exists w; auto].
    + split; [lia|]. destruct (Z.max_spec 0 (v_minor v)) as [[L ->]|[L ->]]; [right; exists v; auto|left; reflexivity].
  - destruct (F a x H) as [Px Ax]. split; [exact Px|].
    destruct Ax as [->|(w & W1 & W2 & W3)]; [left; reflexivity|right; exists w; auto].
Qed.

Lemma reg_step_good r m o : reg_good r m -> exists r',
  (match o with RReg i v c => register_definition r i v c | RUnreg i => unregister_definition r i end) = Ok r' /\
  reg_good r' (rt_step m o).
Proof.
  intros [H G]. destruct o as [i v c|i].
  - unfold register_definition.
    destruct (hdr_set r i (Pod (dset (p_versions (match pod_of r i with Some p => p | None => new_pod end)) v c)
       (Z.max (v_major v) (p_majorMax (match pod_of r i with Some p => p | None => new_pod end)))
       (dset (p_minorMax (match pod_of r i with Some p => p | None => new_pod end)) (v_major v)
          (Z.max (match dget (p_minorMax (match pod_of r i with Some p => p | None => new_pod end)) (v_major v) with Some x => x | None => 0 end) (v_minor v)))) H)
      as (r' & E & H' & L).
    exists r'. split; [exact E|]. split; [exact H'|]. intros j. rewrite L. cbn [rt_step].
    destruct (eq_dec j i) as [->|Nj].
    + apply pod_register. specialize (G i). destruct (pod_of r i) as [p|]; [left; exact G|right; auto].
    + exact (G j).
  - unfold unregister_definition. destruct (pod_of r i) as [p|] eqn:Ep.
    + destruct (hdr_del r i H ltac:(congruence)) as (r' & E & H' & L).
      exists r'. split; [exact E|]. split; [exact H'|]. intros j. rewrite L. cbn [rt_step].
      destruct (eq_dec j i) as [->|Nj]; [reflexivity|exact (G j)].
    + exists r. split; [reflexivity|]. split; [exact H|]. intros j. cbn [rt_step].
      destruct (eq_dec j i) as [->|Nj]; [rewrite Ep; reflexivity|exact (G j)].
Qed.
Lemma reg_run_good os r m : reg_good r m -> exists r', reg_run os r = Ok r' /\ reg_good r' (fold_left rt_step os m).
Proof.
  revert r m. induction os as [|o os IH]; intros r m G; cbn [reg_run fold_left].
  - exists r. auto.
  - destruct (reg_step_good r m o G) as (r1 & E & G1). rewrite E. cbn [bind]. apply IH, G1.
Qed.

Lemma get_good r m i v : reg_good r m ->
  (forall c, m i v = Some c -> get_definition r i (Some v) = Ok (Some c)) /\
  ((forall w, m i w = None) -> forall q, get_definition r i q = Ok None) /\
  (m i v = None -> (exists w, m i w <> None) -> get_definition r i (Some v) = Raise NameError).
Proof.
  intros [H G]. specialize (G i). unfold get_definition. destruct (pod_of r i) as [p|].
  - destruct G as (A & N & _). destruct (p_versions p) as [|x l] eqn:E; [congruence|].
    rewrite <- E in *. cbn [bind]. rewrite A. split; [intros c ->; reflexivity|]. split.
    + intros Z. exfalso. destruct x as [w d]. specialize (A w). rewrite E in A. cbn in A. rewrite Z in A.
      destruct (eq_dec w w); congruence.
    + intros -> _. reflexivity.
  - split; [intros c Hc; rewrite G in Hc; discriminate|]. split; [reflexivity|].
    intros _ [w Hw]. rewrite G in Hw. congruence.
Qed.
Lemma get_recent_good r m i v c : reg_good r m ->
  (forall w, m i w <> None -> 0 <= v_major w /\ 0 <= v_minor w) ->
  m i v = Some c -> (forall w, m i w <> None -> version_le w v) ->
  get_definition r i None = Ok (Some c).
Proof.
  intros [H G] Nn Hv Mx. specialize (G i). unfold get_definition. destruct (pod_of r i) as [p|].
  2:{ rewrite G in Hv. discriminate. }
  destruct G as (A & N & B & P & C & D & E & F). destruct (p_versions p) as [|x l] eqn:Ev; [congruence|].
  rewrite <- Ev in *.
  assert (Hvn : m i v <> None) by congruence.
  assert (Mm : p_majorMax p = v_major v).
  { pose proof (C v Hvn). destruct B as [B|(w & Bw & Be)].
    - destruct (Nn v Hvn). lia.
    - destruct (Mx w Bw) as [L|[L _]]; lia. }
  destruct (E v Hvn) as (x' & Ex & Lx). rewrite Mm. unfold dget_e. rewrite Ex. cbn [bind].
  assert (x' = v_minor v) as ->.
  { destruct (F _ _ Ex) as [P0 [Z0|(w & W1 & W2 & W3)]].
    - destruct (Nn v Hvn). lia.
    - destruct (Mx w W1) as [L|[L1 L2]]; lia. }
  rewrite A. replace (Version (v_major v) (v_minor v)) with v by (destruct v; reflexivity).
  rewrite Hv. reflexivity.
Qed.

(** ** silos *)
Section StmtInd.
  Variable P : stmt -> Prop.
  Hypothesis Hd : forall i v b inh c, P (SDefine i v b inh c).
  Hypothesis Hr : forall e, P (SRaise e).
  Hypothesis Hw : forall n b body, Forall P body -> P (SWith n b body).
  Hypothesis Ht : forall body, Forall P body -> P (STry body).
  Fixpoint stmt_ind' (p : stmt) : P p :=
    let fix go (ps : list stmt) : Forall P ps :=
      match ps with [] => Forall_nil P | p :: r => Forall_cons p (stmt_ind' p) (go r) end in
    match p with
    | SDefine i v b inh c => Hd i v b inh c
    | SRaise e => Hr e
    | SWith n b body => Hw n b body (go body)
    | STry body => Ht body (go body)
    end.
End StmtInd.

Lemma exec_with s name reuse body : exec s (SWith name reuse body) =
  match new_silo s name reuse with
  | (s', Raise e) => (s', Raise e)
  | (s', Ok n) =>
      match exec_list (silo_enter s' n) body with
      | (s2, r) => match silo_exit s2 with Ok s3 => (s3, r) | Raise e => (s2, Raise e) end
      end
  end.
Proof. reflexivity. Qed.
Lemma exec_try s body : exec s (STry body) = (fst (exec_list s body), Ok tt).
Proof. reflexivity. Qed.

Lemma define_shape s i v b inh c :
  si_stack (fst (define_class s i v b inh c)) = si_stack s /\
  si_auto (fst (define_class s i v b inh c)) = si_auto s.
Proof.
  unfold define_class.
  destruct i as [i|], v as [v|]; auto. destruct b; auto.
  destruct (version_from_string v); auto.
  destruct (silo_by_name s _) as [[n|]|]; auto. destruct (dget (si_regs s) n); auto.
  destruct (has_definition _ _ _) as [[|]|]; auto. destruct (register_definition _ _ _ _); auto.
Qed.
Lemma new_silo_stack s n b : si_stack (fst (new_silo s n b)) = si_stack s.
Proof.
  unfold new_silo. destruct n as [n|].
  - destruct (dhas _ _); reflexivity.
  - destruct (si_auto s <? 1000000); [|reflexivity]. destruct (dhas _ _); reflexivity.
Qed.
Lemma exec_list_stack ps : Forall (fun p => forall s, si_stack (fst (exec s p)) = si_stack s) ps ->
  forall s, si_stack (fst (exec_list s ps)) = si_stack s.
Proof.
  induction 1 as [|p ps H F IH]; intros s; cbn [exec_list]; [reflexivity|].
  specialize (H s). destruct (exec s p) as [s' [u|e]]; cbn [fst] in *; [|exact H]. rewrite IH. exact H.
Qed.
Lemma exec_stack p : forall s, si_stack (fst (exec s p)) = si_stack s.
Proof.
  induction p using stmt_ind'; intros s.
  - cbn [exec]. pose proof (define_shape s i v b inh c) as [A _]. destruct (define_class s i v b inh c) as [s' [u|e]]; exact A.
  - reflexivity.
  - rewrite exec_with. pose proof (new_silo_stack s n b) as A.
    destruct (new_silo s n b) as [s' [m|e]]; cbn [fst] in *; [|exact A].
    pose proof (exec_list_stack body H (silo_enter s' m)) as B.
    destruct (exec_list (silo_enter s' m) body) as [s2 r]. cbn [fst] in B. unfold silo_exit. rewrite B. cbn.
    exact A.
  - rewrite exec_try. cbn [fst]. apply exec_list_stack, H.
Qed.

Lemma untouched_list m ps :
  (fix go (ps : list stmt) : Prop := match ps with [] => True | p :: r => untouched m p /\ go r end) ps <->
  Forall (untouched m) ps.
Proof.
  induction ps as [|p ps IH]; split; intros H; auto; inversion H; subst; constructor; tauto.
Qed.
Lemma new_silo_regs s n b m : n <> Some m -> ~ auto_name m ->
  dget (si_regs (fst (new_silo s n b))) m = dget (si_regs s) m /\
  (forall x, snd (new_silo s n b) = Ok x -> x <> m).
Proof.
  intros N A. unfold new_silo. destruct n as [n|].
  - destruct (dhas (si_regs s) n) eqn:D; cbn.
    + split; [reflexivity|]. intros x. destruct b; [|discriminate]. intros E. injection E as <-. congruence.
    + split; [apply dget_dset_other; congruence|]. intros x E. injection E as <-. congruence.
  - destruct (si_auto s <? 1000000); [|cbn; split; [reflexivity|discriminate]].
    cbn [si_regs si_stack si_auto].
    assert (N2 : m <> unnamed_prefix ++ print_int (si_auto s)) by (intros ->; apply A; eexists; reflexivity).
    destruct (dhas (si_regs s) _) eqn:D; cbn [fst snd si_regs].
    + split; [reflexivity|]. intros x. destruct b; [|discriminate]. intros E. apply Ok_inj in E. congruence.
    + split; [apply dget_dset_other; congruence|]. intros x E. apply Ok_inj in E. congruence.
Qed.
Lemma exec_list_regs m ps :
  Forall (fun p => forall s, untouched m p -> ~ auto_name m -> hd_error (si_stack s) <> Some m ->
            dget (si_regs (fst (exec s p))) m = dget (si_regs s) m) ps ->
  forall s, Forall (untouched m) ps -> ~ auto_name m -> hd_error (si_stack s) <> Some m ->
    dget (si_regs (fst (exec_list s ps))) m = dget (si_regs s) m.
Proof.
  induction 1 as [|p ps H F IH]; intros s U A T; cbn [exec_list]; [reflexivity|].
  inversion U; subst. specialize (H s H2 A T). pose proof (exec_stack p s) as S.
  destruct (exec s p) as [s' [u|e]]; cbn [fst] in *; [|exact H]. rewrite IH; auto. rewrite S. exact T.
Qed.
Lemma exec_regs m p : forall s, untouched m p -> ~ auto_name m -> hd_error (si_stack s) <> Some m ->
  dget (si_regs (fst (exec s p))) m = dget (si_regs s) m.
Proof.
  induction p using stmt_ind'; intros s U A T.
  - cbn [exec]. cbn [untouched] in U.
    assert (X : dget (si_regs (fst (define_class s i v b inh c))) m = dget (si_regs s) m).
    { unfold define_class. destruct i as [i|], v as [v|]; auto. destruct b; auto.
      destruct (version_from_string v); auto.
      replace (match inh with Some n => n | None => current_name end) with current_name by (destruct U; subst; reflexivity).
      unfold silo_by_name. destruct (eq_dec current_name current_name); [|congruence].
      unfold current_silo. destruct (si_stack s) as [|t st] eqn:Es; cbn [bind]; auto.
      cbn in T. destruct (dget (si_regs s) t); auto.
      destruct (has_definition _ _ _) as [[|]|]; auto. destruct (register_definition _ _ _ _); auto.
      cbn. apply dget_dset_other. congruence. }
    destruct (define_class s i v b inh c) as [s' [u|e]]; exact X.
  - reflexivity.
  - cbn [untouched] in U. destruct U as [Un U]. rewrite untouched_list in U. rewrite exec_with.
    destruct (new_silo_regs s n b m Un A) as [R Rn].
    destruct (new_silo s n b) as [s' [x|e]]; cbn [fst snd] in *; [|exact R].
    pose proof (exec_list_regs m body H (silo_enter s' x) U A) as B.
    destruct (exec_list (silo_enter s' x) body) as [s2 r]. cbn [fst] in B.
    rewrite <- R. specialize (Rn x eq_refl).
    assert (B' : dget (si_regs s2) m = dget (si_regs s') m) by (apply B; cbn; congruence).
    unfold silo_exit. destruct (si_stack s2); exact B'.
  - cbn [untouched] in U. rewrite untouched_list in U. rewrite exec_try. cbn [fst]. apply exec_list_regs; assumption.
Qed.

(** ** reachable silos *)
Definition silos_good (s : silos) : Prop :=
  (forall n r, dget (si_regs s) n = Some r -> exists m, reg_good r m) /\
  Forall (fun n => dget (si_regs s) n <> None) (si_stack s).
Lemma silos_good_init : silos_good silos_init.
Proof.
  split.
  - intros n r H. cbn in H. destruct (eq_dec n default_name); [|discriminate]. injection H as <-.
    eexists. apply reg_good_empty.
  - repeat constructor. cbn. discriminate.
Qed.
Lemma silos_good_set s n r' m k : silos_good s -> reg_good r' m ->
  silos_good (Silos (dset (si_regs s) n r') (si_stack s) k).
Proof.
  intros [A B] G. split; cbn.
  - intros x r H. rewrite dget_dset in H. destruct (eq_dec x n); [injection H as <-; eauto|eauto].
  - eapply Forall_impl; [|exact B]. intros x Hx. cbn. rewrite dget_dset. destruct (eq_dec x n); congruence.
Qed.
Lemma define_good s i v b inh c : silos_good s -> silos_good (fst (define_class s i v b inh c)).
Proof.
  intros G. unfold define_class. destruct i as [i|], v as [v|]; auto. destruct b; auto.
  destruct (version_from_string v) as [vv|]; auto.
  destruct (silo_by_name s _) as [[n|]|]; auto. destruct (dget (si_regs s) n) as [r|] eqn:E; auto.
  destruct (has_definition _ _ _) as [[|]|]; auto.
  pose proof G as [A _]. destruct (A n r E) as [m Gm].
  destruct (reg_step_good r m (RReg i vv c) Gm) as (r' & Er & Gr). rewrite Er. cbn.
  eapply silos_good_set; eauto.
Qed.
Lemma new_silo_good s n b : silos_good s -> silos_good (fst (new_silo s n b)) /\
  (forall x, snd (new_silo s n b) = Ok x -> dget (si_regs (fst (new_silo s n b))) x <> None).
Proof.
  intros G. unfold new_silo. destruct n as [n|].
  - destruct (dhas (si_regs s) n) eqn:D; cbn [fst snd].
    + split; [exact G|]. intros x. destruct b; [|discriminate]. intros E. injection E as <-.
      apply dhas_true in D. destruct D. congruence.
    + split; [eapply silos_good_set; [exact G|apply reg_good_empty]|]. intros x E. injection E as <-. cbn.
      rewrite dget_dset_same. discriminate.
  - destruct (si_auto s <? 1000000); [|cbn; split; [exact G|discriminate]]. cbn [si_regs si_stack si_auto].
    destruct (dhas (si_regs s) _) eqn:D; cbn [fst snd si_regs].
    + split; [exact G|]. intros x. destruct b; [|discriminate]. intros E. apply Ok_inj in E. subst x.
      apply dhas_true in D. destruct D. congruence.
    + split; [eapply silos_good_set; [exact G|apply reg_good_empty]|]. intros x E. apply Ok_inj in E. subst x.
      rewrite dget_dset_same. discriminate.
Qed.
Lemma exec_list_good ps : Forall (fun p => forall s, silos_good s -> silos_good (fst (exec s p))) ps ->
  forall s, silos_good s -> silos_good (fst (exec_list s ps)).
Proof.
  induction 1 as [|p ps H F IH]; intros s G; cbn [exec_list]; [exact G|].
  specialize (H s G). destruct (exec s p) as [s' [u|e]]; cbn [fst] in *; auto.
Qed.
Lemma exec_good p : forall s, silos_good s -> silos_good (fst (exec s p)).
Proof.
  induction p using stmt_ind'; intros s G.
  - cbn [exec]. pose proof (define_good s i v b inh c G) as X. destruct (define_class s i v b inh c) as [s' [u|e]]; exact X.
  - exact G.
  - rewrite exec_with. destruct (new_silo_good s n b G) as [G' X].
    destruct (new_silo s n b) as [s' [x|e]]; cbn [fst snd] in *; [|exact G'].
    specialize (X x eq_refl).
    assert (Ge : silos_good (silo_enter s' x)) by (split; [apply G'|constructor; [exact X|apply G']]).
    pose proof (exec_list_good body H (silo_enter s' x) Ge) as B.
    pose proof (exec_list_stack body (proj2 (Forall_forall _ body) (fun p _ => exec_stack p)) (silo_enter s' x)) as S.
    destruct (exec_list (silo_enter s' x) body) as [s2 r]. cbn [fst] in *.
    unfold silo_exit. cbn in S. rewrite S. cbn. destruct B as [B1 B2]. split; [exact B1|].
    cbn. rewrite S in B2. inversion B2; assumption.
  - rewrite exec_try. cbn [fst]. apply exec_list_good; assumption.
Qed.
Lemma silos_reach ps : silos_good (fst (exec_list silos_init ps)) /\
  si_stack (fst (exec_list silos_init ps)) = [default_name].
Proof.
  split.
  - apply exec_list_good; [|apply silos_good_init]. apply Forall_forall. intros p _. apply exec_good.
  - rewrite exec_list_stack; [reflexivity|]. apply Forall_forall. intros p _. apply exec_stack.
Qed.
