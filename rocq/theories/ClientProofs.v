(** * Lemmas about the control client *)
From Coq Require Import List ZArith Bool Lia Sorted.
From Verif Require Import PyBase PyLemmas ClientModel ClientSpec.
Import ListNotations.
Open Scope Z_scope.

(** what a log says about one request: its kind, whether it is unanswered, its future *)
Definition tstate := option (ckind * bool * fstate).
Definition tstep (id : Z) (t : tstate) (x : clog) : tstate :=
  match x with
  | LReq k i => if Z.eq_dec i id then Some (k, true, FPending) else t
  | LCancel i => if Z.eq_dec i id then match t with Some (k, b, FPending) => Some (k, b, FCancelled) | _ => t end else t
  | LPkt p _ _ _ => match t with
                    | Some (k, true, f) => match answers k id p with
                                           | Some o => Some (k, false, match f with FPending => FDone o | _ => f end)
                                           | None => t end
                    | _ => t end
  | LClose _ => t
  end.
Definition track (id : Z) (g : list clog) : tstate := fold_left (tstep id) g None.
Lemma track_snoc id g x : track id (g ++ [x]) = tstep id (track id g) x.
Proof. unfold track. now rewrite fold_left_app. Qed.

Definition pkt_id (p : cpkt) : Z := match p with CResp i _ _ => i | CSpawn i _ _ => i | COther => 0 end.
Definition xcall (T : Z -> tstate) (p : cpkt) : option (Z * ckind * Z) :=
  match p with
  | CSpawn id tcp _ => match T id with
                       | Some (KConnect, true, _) => Some (id, KConnect, tcp)
                       | Some _ => Some (id, KListen, tcp)
                       | None => None end
  | _ => None
  end.
Definition xdone (T : Z -> tstate) (p : cpkt) : option (Z * outcome) :=
  match T (pkt_id p) with
  | Some (k, true, FPending) => match answers k (pkt_id p) p with Some o => Some (pkt_id p, o) | None => None end
  | _ => None
  end.
Definition xexc (T : Z -> tstate) (p : cpkt) : option exn :=
  match T (pkt_id p) with
  | Some (k, true, FCancelled) => match answers k (pkt_id p) p with Some _ => Some InvalidStateError | None => None end
  | None => match p with CSpawn _ _ _ => Some KeyError | _ => None end
  | _ => None
  end.

Record inv (s : client) (g : list clog) : Prop := {
  i_futs : forall id, dget (c_futs s) id = match track id g with Some (k, true, _) => Some k | _ => None end;
  i_fut : forall id, dget (c_fut s) id = match track id g with Some (_, _, f) => Some f | None => None end;
  i_conns : forall id, In id (c_conns s) <-> track id g <> None;
  i_id : forall id, track id g <> None -> 0 < id <= c_id s;
  i_pend : forall id k o, track id g <> Some (k, true, FDone o);
  i_nonneg : 0 <= c_id s;
  i_keys : NoDup (dkeys (c_futs s));
}.
Lemma smem_in {A} `{EqDec A} (l : list A) x : smem l x = true <-> In x l.
Proof. unfold smem. destruct (in_dec eq_dec x l); split; auto; discriminate. Qed.

Lemma answers_other k id p : pkt_id p <> id -> answers k id p = None.
Proof. destruct p as [i [] q|i t q|], k; cbn; intros N; try reflexivity; destruct (Z.eq_dec i id); congruence. Qed.
Lemma tstep_other id t p c d x : pkt_id p <> id -> tstep id t (LPkt p c d x) = t.
Proof. intros N. cbn. destruct t as [[[k []] f]|]; auto. now rewrite answers_other. Qed.
Lemma track_pkt id g p c d x : track id (g ++ [LPkt p c d x]) = tstep id (track id g) (LPkt p None None None).
Proof. rewrite track_snoc. reflexivity. Qed.
Lemma tstep_none id t p c d x : tstep id t (LPkt p c d x) <> None <-> t <> None.
Proof. cbn. destruct t as [[[k []] f]|]; try tauto; try (destruct (answers k id p)); split; congruence. Qed.

Lemma inv_pkt s s' g p c d x : inv s g -> c_id s' = c_id s -> c_conns s' = c_conns s ->
  (forall i, i <> pkt_id p -> dget (c_futs s') i = dget (c_futs s) i /\ dget (c_fut s') i = dget (c_fut s) i) ->
  NoDup (dkeys (c_futs s')) ->
  (dget (c_futs s') (pkt_id p) = match tstep (pkt_id p) (track (pkt_id p) g) (LPkt p None None None) with Some (k, true, _) => Some k | _ => None end) ->
  (dget (c_fut s') (pkt_id p) = match tstep (pkt_id p) (track (pkt_id p) g) (LPkt p None None None) with Some (_, _, f) => Some f | _ => None end) ->
  inv s' (g ++ [LPkt p c d x]).
Proof.
  intros I Ei Ec F ND H1 H2. constructor; try (intros id; rewrite track_pkt).
  - destruct (Z.eq_dec (pkt_id p) id) as [<-|N]; [exact H1|]. rewrite tstep_other by auto. rewrite (proj1 (F id ltac:(congruence))). apply (i_futs _ _ I).
  - destruct (Z.eq_dec (pkt_id p) id) as [<-|N]; [exact H2|]. rewrite tstep_other by auto. rewrite (proj2 (F id ltac:(congruence))). apply (i_fut _ _ I).
  - rewrite tstep_none, Ec. apply (i_conns _ _ I).
  - rewrite tstep_none, Ei. apply (i_id _ _ I).
  - intros k o E. cbn [tstep] in E. pose proof (i_pend _ _ I id) as P. destruct (track id g) as [[[k0 []] f]|] eqn:Et; try discriminate.
    + destruct (answers k0 id p); [discriminate|]. injection E as -> ->. exact (P _ _ eq_refl).
  - rewrite Ei. apply (i_nonneg _ _ I).
  - exact ND.
Qed.
Lemma inv_pkt_same s g p c d x : inv s g -> tstep (pkt_id p) (track (pkt_id p) g) (LPkt p None None None) = track (pkt_id p) g -> inv s (g ++ [LPkt p c d x]).
Proof.
  intros I E. apply inv_pkt with (s := s); auto; rewrite ?E; try apply I.
Qed.

Definition answering (T : Z -> tstate) p k f o := T (pkt_id p) = Some (k, true, f) /\ answers k (pkt_id p) p = Some o.
Lemma complete_ok s g p k f o c d0 x0 : inv s g -> answering (fun i => track i g) p k f o ->
  exists s' d x, complete (forget s (pkt_id p)) (pkt_id p) o = (s', d, x) /\ d = xdone (fun i => track i g) p /\ x = xexc (fun i => track i g) p /\
                 inv s' (g ++ [LPkt p c d0 x0]) /\ c_queue s' = c_queue s /\ c_up s' = c_up s.
Proof.
  intros I [T A]. unfold complete, xdone, xexc. cbn [forget c_fut]. rewrite (i_fut _ _ I), T, A.
  pose proof (i_pend _ _ I (pkt_id p) k) as P. rewrite T in P.
  assert (D : forall i, i <> pkt_id p -> dget (ddel (c_futs s) (pkt_id p)) i = dget (c_futs s) i) by (intros; now apply dget_ddel_other).
  assert (D2 : dget (ddel (c_futs s) (pkt_id p)) (pkt_id p) = None).
  { rewrite dget_ddel by apply I. destruct (eq_dec _ _); congruence. }
  assert (TS : tstep (pkt_id p) (track (pkt_id p) g) (LPkt p None None None) = Some (k, false, match f with FPending => FDone o | _ => f end)).
  { cbn [tstep]. now rewrite T, A. }
  destruct f as [| |o2].
  - eexists _, _, _. split; [reflexivity|]. split; [reflexivity|]. split; [reflexivity|]. split; [|split; reflexivity].
    apply inv_pkt with (s := s); cbn; auto.
    + intros i N. split; auto. now apply dget_dset_other.
    + apply nodup_ddel. apply I.
    + rewrite D2. cbn [tstep] in TS. now rewrite TS.
    + rewrite dget_dset_same. cbn [tstep] in TS. now rewrite TS.
  - eexists _, _, _. split; [reflexivity|]. split; [reflexivity|]. split; [reflexivity|]. split; [|split; reflexivity].
    apply inv_pkt with (s := s); cbn; auto.
    + apply nodup_ddel. apply I.
    + rewrite D2. cbn [tstep] in TS. now rewrite TS.
    + rewrite (i_fut _ _ I), T. cbn [tstep] in TS. now rewrite A.
  - exfalso. exact (P _ eq_refl).
Qed.

Lemma handle_ok s g p : inv s g -> exists s', handle p s = (s', LPkt p (xcall (fun i => track i g) p) (xdone (fun i => track i g) p) (xexc (fun i => track i g) p)) /\
  inv s' (g ++ [LPkt p (xcall (fun i => track i g) p) (xdone (fun i => track i g) p) (xexc (fun i => track i g) p)]) /\ c_queue s' = c_queue s /\ c_up s' = c_up s.
Proof.
  intros I. set (c := xcall (fun i => track i g) p). set (d := xdone (fun i => track i g) p). set (x := xexc (fun i => track i g) p).
  assert (NC : forall i, smem (c_conns s) i = match track i g with Some _ => true | None => false end).
  { intros i. destruct (smem (c_conns s) i) eqn:E.
    - apply smem_in in E. apply (i_conns _ _ I) in E. destruct (track i g); [reflexivity|congruence].
    - destruct (track i g) eqn:E2; [|reflexivity]. assert (In i (c_conns s)) as F by (apply (i_conns _ _ I); congruence). apply smem_in in F. congruence. }
  assert (Same : tstep (pkt_id p) (track (pkt_id p) g) (LPkt p None None None) = track (pkt_id p) g -> inv s (g ++ [LPkt p c d x])) by (intros; apply inv_pkt_same; auto).
  destruct p as [id fl port|id tcp sport|]; cbn [handle pkt_id] in *.
  - rewrite (i_futs _ _ I). destruct (track id g) as [[[k []] f]|] eqn:T.
    + pose proof (fun o => complete_ok s g (CResp id fl port) k f o c d x I) as CO. cbn [pkt_id] in CO.
      destruct fl.
      * rewrite orb_true_r. destruct (CO OFailure) as (s' & d' & x' & E & -> & -> & R).
        { split; [exact T|]. cbn. destruct (Z.eq_dec id id); congruence. }
        rewrite E. exists s'. split; [reflexivity|exact R].
      * destruct k; cbn [orb].
        -- exists s. split.
           { f_equal. unfold c, d, x, xcall, xdone, xexc. cbn [pkt_id]. rewrite T. cbn. destruct f; reflexivity. }
           split; [|auto]. apply Same. cbn. reflexivity.
        -- destruct (CO (OResult id port)) as (s' & d' & x' & E & -> & -> & R).
           { split; [exact T|]. cbn. destruct (Z.eq_dec id id); congruence. }
           rewrite E. exists s'. split; [reflexivity|exact R].
    + exists s. split. { unfold c, d, x, xcall, xdone, xexc. cbn [pkt_id]. now rewrite T. } split; [|auto]. apply Same. reflexivity.
    + exists s. split. { unfold c, d, x, xcall, xdone, xexc. cbn [pkt_id]. now rewrite T. } split; [|auto]. apply Same. reflexivity.
  - rewrite (i_futs _ _ I), NC. destruct (track id g) as [[[k []] f]|] eqn:T.
    + destruct k.
      * destruct (complete_ok s g (CSpawn id tcp sport) KConnect f (OResult id sport) c d x I) as (s' & d' & x' & E & -> & -> & R).
        { split; [exact T|]. cbn. destruct (Z.eq_dec id id); congruence. }
        cbn [pkt_id] in E. rewrite E. exists s'. split; [|exact R]. unfold c, xcall. rewrite T. reflexivity.
      * exists s. split. { unfold c, d, x, xcall, xdone, xexc. cbn [pkt_id]. rewrite T. cbn. destruct f; reflexivity. } split; [|auto]. apply Same. reflexivity.
    + exists s. split. { unfold c, d, x, xcall, xdone, xexc. cbn [pkt_id]. rewrite T. destruct k; reflexivity. } split; [|auto]. apply Same. reflexivity.
    + exists s. split. { unfold c, d, x, xcall, xdone, xexc. cbn [pkt_id]. now rewrite T. } split; [|auto]. apply Same. reflexivity.
  - exists s. split.
    { unfold c, d, x, xcall, xdone, xexc. cbn [pkt_id]. destruct (track 0 g) as [[[k []] f]|]; try reflexivity. cbn. destruct f; reflexivity. }
    split; [|auto]. apply Same. cbn. destruct (track 0 g) as [[[k []] f]|]; reflexivity.
Qed.

(** a log whose packets have the effects their history gives them *)
Fixpoint good (pre g : list clog) : Prop :=
  match g with
  | [] => True
  | x :: r =>
      match x with
      | LPkt p c d e => c = xcall (fun i => track i pre) p /\ d = xdone (fun i => track i pre) p /\ e = xexc (fun i => track i pre) p
      | LReq _ id => 0 < id /\ forall i, track i pre <> None -> i < id
      | LCancel id => exists k b, track id pre = Some (k, b, FPending)
      | LClose _ => True
      end /\ good (pre ++ [x]) r
  end.
Lemma good_app pre a b : good pre (a ++ b) <-> good pre a /\ good (pre ++ a) b.
Proof.
  revert pre. induction a as [|x a IH]; intros pre; cbn [app good].
  - rewrite app_nil_r. tauto.
  - rewrite IH, <- app_assoc. cbn [app]. tauto.
Qed.

Lemma handle_all_ok ps : forall s g, inv s g -> exists s' g' rest, handle_all ps s = (s', g', rest) /\
  good g g' /\ inv s' (g ++ g') /\ handled g' ++ rest = ps /\ c_up s' = c_up s /\
  (rest <> [] -> exists p c d e, In (LPkt p c d (Some e)) g').
Proof.
  induction ps as [|p ps IH]; intros s g I.
  - exists s, [], []. cbn. rewrite app_nil_r. split; [reflexivity|]. split; [exact Logic.I|]. split; [exact I|]. split; [reflexivity|]. split; [reflexivity|]. congruence.
  - cbn [handle_all]. destruct (handle_ok s g p I) as (s1 & E & I1 & Q & U). rewrite E.
    destruct (xexc (fun i => track i g) p) as [e|] eqn:X.
    + eexists s1, _, ps. split; [reflexivity|]. split; [cbn; rewrite X; auto|]. split; [exact I1|]. split; [reflexivity|]. split; [exact U|].
      intros _. eexists _, _, _, e. left. reflexivity.
    + destruct (IH s1 _ I1) as (s2 & g2 & rest & E2 & G2 & I2 & H2 & U2 & R2). rewrite E2.
      eexists s2, _, rest. split; [reflexivity|]. split. { cbn [good]. rewrite X. split; [auto|]. exact G2. }
      rewrite <- app_assoc in I2. cbn [app] in I2. split; [exact I2|]. split; [unfold handled in *; cbn; now rewrite H2|]. split; [congruence|].
      intros N. destruct (R2 N) as (p' & c' & d' & e' & In'). exists p', c', d', e'. right. exact In'.
Qed.

Lemma client_step_ok e s g : inv s g -> exists s' g', client_step e s = (s', g') /\ good g g' /\ inv s' (g ++ g') /\
  handled g' ++ c_queue s' = c_queue s ++ arrived [e] /\ (c_queue s = [] -> c_queue s' <> [] -> exists p c d x, In (LPkt p c d (Some x)) g').
Proof.
  intros I. destruct e as [|k|id|id|ps]; cbn [client_step].
  - eexists _, _. split; [reflexivity|]. rewrite app_nil_r. split; [exact Logic.I|]. split; [destruct I; constructor; auto|].
    cbn. rewrite app_nil_r. split; auto. congruence.
  - destruct (c_up s) eqn:Up.
    + eexists _, _. split; [reflexivity|].
      assert (Tn : track (c_id s + 1) g = None). { destruct (track (c_id s + 1) g) eqn:E; [|reflexivity]. pose proof (i_id _ _ I (c_id s + 1)). rewrite E in *. specialize (H ltac:(discriminate)). lia. }
      split. { cbn. split; [|exact Logic.I]. split; [pose proof (i_nonneg _ _ I); lia|]. intros i Hi. pose proof (i_id _ _ I i Hi). lia. }
      split; [|cbn; rewrite app_nil_r; split; auto; congruence].
      constructor; cbn; try (intros i; rewrite track_snoc; cbn [tstep]).
      * rewrite dget_dset. destruct (eq_dec i (c_id s + 1)), (Z.eq_dec (c_id s + 1) i); try congruence; try reflexivity. apply (i_futs _ _ I).
      * rewrite dget_dset. destruct (eq_dec i (c_id s + 1)), (Z.eq_dec (c_id s + 1) i); try congruence; try reflexivity. apply (i_fut _ _ I).
      * destruct (Z.eq_dec (c_id s + 1) i); [split; [discriminate|now left]|]. rewrite <- (i_conns _ _ I i). split; [intros [|]; [congruence|auto]|now right].
      * destruct (Z.eq_dec (c_id s + 1) i) as [<-|]; [intros _; pose proof (i_nonneg _ _ I); lia|]. intros H. pose proof (i_id _ _ I i H). lia.
      * intros k' o'. destruct (Z.eq_dec (c_id s + 1) i); [discriminate|]. apply (i_pend _ _ I).
      * pose proof (i_nonneg _ _ I). lia.
      * apply nodup_dset. apply I.
    + eexists _, _. split; [reflexivity|]. rewrite app_nil_r. split; [exact Logic.I|]. split; [|cbn; rewrite app_nil_r; split; auto; congruence].
      destruct I as [a b c d e f h]. constructor; cbn; auto; [|lia]. intros id H. specialize (d id H). lia.
  - eexists _, _. split; [reflexivity|]. split; [destruct (c_up s); cbn; auto|]. split.
    + destruct (c_up s); [|now rewrite app_nil_r]. destruct I; constructor; try (intros i; rewrite track_snoc; cbn [tstep]; auto); auto.
    + destruct (c_up s); cbn; rewrite app_nil_r; split; auto; congruence.
  - rewrite (i_fut _ _ I). destruct (track id g) as [[[k b] f]|] eqn:T; [destruct f as [| |o]|].
    + eexists _, _. split; [reflexivity|]. split; [cbn; eauto|]. split; [|cbn; rewrite app_nil_r; split; auto; congruence].
      constructor; cbn; try (intros i; rewrite track_snoc; cbn [tstep]).
      * destruct (Z.eq_dec id i) as [<-|]; [|apply (i_futs _ _ I)]. rewrite (i_futs _ _ I), T. destruct b; reflexivity.
      * rewrite dget_dset. destruct (eq_dec i id), (Z.eq_dec id i); try congruence; [subst i; now rewrite T|]. apply (i_fut _ _ I).
      * destruct (Z.eq_dec id i) as [<-|]; [|apply (i_conns _ _ I)]. rewrite (i_conns _ _ I), T. split; discriminate.
      * destruct (Z.eq_dec id i) as [<-|]; [|apply (i_id _ _ I)]. intros _. apply (i_id _ _ I). congruence.
      * intros k' o'. destruct (Z.eq_dec id i) as [<-|]; [rewrite T; discriminate|]. apply (i_pend _ _ I).
      * exact (i_nonneg _ _ I).
      * exact (i_keys _ _ I).
    + eexists _, _. split; [reflexivity|]. rewrite app_nil_r. cbn. rewrite app_nil_r. split; [exact Logic.I|]. split; [exact I|]. split; [reflexivity|]. congruence.
    + eexists _, _. split; [reflexivity|]. rewrite app_nil_r. cbn. rewrite app_nil_r. split; [exact Logic.I|]. split; [exact I|]. split; [reflexivity|]. congruence.
    + eexists _, _. split; [reflexivity|]. rewrite app_nil_r. cbn. rewrite app_nil_r. split; [exact Logic.I|]. split; [exact I|]. split; [reflexivity|]. congruence.
  - destruct (handle_all_ok (c_queue s ++ ps) s g I) as (s1 & g1 & rest & E & G & I1 & H & U & R). rewrite E.
    eexists _, _. split; [reflexivity|]. split; [exact G|]. split; [destruct I1; constructor; auto|]. cbn. rewrite app_nil_r. auto.
Qed.
Lemma handled_app a b : handled (a ++ b) = handled a ++ handled b.
Proof. unfold handled. now rewrite map_app, concat_app. Qed.
Lemma client_run_ok es : forall s g, inv s g -> exists s' g', client_run es s = (s', g') /\ good g g' /\ inv s' (g ++ g') /\
  handled g' ++ c_queue s' = c_queue s ++ arrived es /\ (c_queue s = [] -> c_queue s' <> [] -> exists p c d x, In (LPkt p c d (Some x)) g').
Proof.
  induction es as [|e es IH]; intros s g I.
  - exists s, []. cbn. rewrite !app_nil_r. split; [reflexivity|]. split; [exact Logic.I|]. split; [exact I|]. split; [reflexivity|]. congruence.
  - cbn [client_run]. destruct (client_step_ok e s g I) as (s1 & g1 & E1 & G1 & I1 & H1 & R1). rewrite E1.
    destruct (IH s1 _ I1) as (s2 & g2 & E2 & G2 & I2 & H2 & R2). rewrite E2.
    exists s2, (g1 ++ g2). split; [reflexivity|]. split; [apply good_app; auto|]. rewrite app_assoc. split; [exact I2|]. split.
    + rewrite handled_app, <- app_assoc, H2, app_assoc, H1, <- app_assoc. f_equal. unfold arrived. cbn. now rewrite app_nil_r.
    + intros Q N. destruct (c_queue s1) as [|q r] eqn:Q1.
      * destruct (R2 eq_refl N) as (p & c & d & x & P). exists p, c, d, x. apply in_or_app. now right.
      * destruct (R1 Q ltac:(discriminate)) as (p & c & d & x & P). exists p, c, d, x. apply in_or_app. now left.
Qed.
Lemma inv_new : inv client_new [].
Proof. constructor; cbn; auto; try tauto; try discriminate; try lia; try constructor; intros; congruence. Qed.

Definition olist {A} (o : option A) : list A := match o with Some a => [a] | None => [] end.
Definition final (k : ckind) (id : Z) (f : fstate) (post : list clog) : fstate :=
  match f with
  | FPending => if cancelled k id post then FCancelled else match outcome_of k id post with Some o => FDone o | None => FPending end
  | _ => f
  end.
Lemma completions_cons id x r : completions id (x :: r) = match x with LPkt _ _ (Some (i, o)) _ => if Z.eq_dec i id then [o] else [] | _ => [] end ++ completions id r.
Proof. reflexivity. Qed.
Lemma xdone_id T p i o : xdone T p = Some (i, o) -> i = pkt_id p /\ T i <> None.
Proof.
  unfold xdone. destruct (T (pkt_id p)) as [[[k []] f]|] eqn:E; try discriminate. destruct f; try discriminate.
  destruct (answers k (pkt_id p) p); [|discriminate]. intros X. injection X as <- <-. split; auto. congruence.
Qed.
Lemma post_ok id k post : forall h b f, good h post -> track id h = Some (k, b, f) -> (b = false -> f <> FPending) ->
  completions id post = match f with FPending => olist (outcome_of k id post) | _ => [] end /\
  exists b', track id (h ++ post) = Some (k, b', final k id f post) /\ (b' = false -> final k id f post <> FPending).
Proof.
  induction post as [|x r IH]; intros h b f G T B.
  - rewrite app_nil_r. cbn. split; [destruct f; reflexivity|]. exists b. destruct f; auto.
  - cbn [good] in G. destruct G as [Gx Gr]. rewrite completions_cons.
    assert (A : h ++ x :: r = (h ++ [x]) ++ r) by (now rewrite <- app_assoc). rewrite A.
    pose proof (track_snoc id h x) as TS. rewrite T in TS.
    destruct x as [k' i|i|i|p c d e]; cbn [tstep outcome_of cancelled] in *.
    + destruct Gx as [_ Gx]. specialize (Gx id ltac:(congruence)). destruct (Z.eq_dec i id); [lia|].
      destruct (IH _ _ _ Gr TS B) as [C F]. split; [exact C|]. destruct f; exact F.
    + destruct (IH _ _ _ Gr TS B) as [C F]. split; [exact C|]. destruct f; exact F.
    + destruct (Z.eq_dec i id) as [->|N].
      * destruct Gx as (k2 & b2 & Gx). rewrite T in Gx. injection Gx as <- <- ->.
        destruct (IH _ _ _ Gr TS ltac:(discriminate)) as [C F]. split; [exact C|]. cbn [final cancelled] in *. destruct (Z.eq_dec id id); [|congruence]. exact F.
      * destruct (IH _ _ _ Gr TS B) as [C F]. split; [exact C|]. destruct f; try exact F. cbn [final cancelled outcome_of] in *. destruct (Z.eq_dec i id); [congruence|]. exact F.
    + destruct Gx as (_ & Hd & _).
      destruct (Z.eq_dec (pkt_id p) id) as [E|N].
      * unfold xdone in Hd. rewrite E, T in Hd. destruct b.
        -- destruct (answers k id p) as [o|] eqn:An.
           ++ destruct (IH _ _ _ Gr TS) as [C F]. { intros _. destruct f; discriminate. }
              rewrite C. destruct f; subst d; cbn [app olist final cancelled outcome_of] in *.
              ** destruct (Z.eq_dec id id); [|congruence]. split; [reflexivity|]. rewrite An. exact F.
              ** split; [reflexivity|exact F].
              ** split; [reflexivity|exact F].
           ++ destruct (IH _ _ _ Gr TS ltac:(congruence)) as [C F]. rewrite C. destruct f; subst d; cbn [app final cancelled outcome_of] in *; rewrite ?An; auto.
        -- destruct (IH _ _ _ Gr TS B) as [C F]. rewrite C. destruct f; [exfalso; now apply B| |]; subst d; cbn [app final] in *; auto.
      * rewrite (answers_other k id p N) in *.
        assert (TS' : track id (h ++ [LPkt p c d e]) = Some (k, b, f)) by (rewrite TS; destruct b; reflexivity).
        destruct (IH _ _ _ Gr TS' B) as [C F]. rewrite C.
        split.
        { destruct d as [[i o]|]; [|reflexivity]. symmetry in Hd. apply xdone_id in Hd. destruct Hd as [-> _]. destruct (Z.eq_dec (pkt_id p) id); [congruence|]. reflexivity. }
        destruct f; try exact F. cbn [final cancelled outcome_of] in *. rewrite (answers_other k id p N). exact F.
Qed.
Lemma untracked_no_completion id g : forall h, good h g -> track id (h ++ g) = None -> completions id g = [].
Proof.
  induction g as [|x r IH] using rev_ind; intros h G T; [reflexivity|].
  apply good_app in G. destruct G as [G Gx]. rewrite app_assoc, track_snoc in T.
  assert (Tr : track id (h ++ r) = None).
  { destruct (track id (h ++ r)) as [[[k b] f]|] eqn:E; [|reflexivity]. exfalso. destruct x as [k' i|i|i|p c d e]; cbn [tstep] in T.
    - destruct (Z.eq_dec i id); discriminate.
    - discriminate.
    - destruct (Z.eq_dec i id); destruct f; discriminate.
    - destruct b; [destruct (answers k id p)|]; discriminate. }
  unfold completions. rewrite map_app, concat_app. fold (completions id r). rewrite (IH h G Tr). cbn.
  destruct x as [k' i|i|i|p c d e]; try reflexivity. cbn [good] in Gx. destruct Gx as [(_ & -> & _) _].
  destruct (xdone (fun i => track i (h ++ r)) p) as [[i o]|] eqn:X; [|reflexivity]. apply xdone_id in X. destruct X as [_ X].
  destruct (Z.eq_dec i id) as [->|]; [congruence|reflexivity].
Qed.
Lemma completions_app id a b : completions id (a ++ b) = completions id a ++ completions id b.
Proof. unfold completions. now rewrite map_app, concat_app. Qed.

Lemma request_track id g : track id g <> None <-> In id (requests g).
Proof.
  induction g as [|x r IH] using rev_ind; [cbn; tauto|].
  unfold requests. rewrite map_app, concat_app. fold (requests r). rewrite track_snoc, in_app_iff, <- IH. cbn.
  destruct x as [k i|i|i|p c d e]; cbn [tstep app In].
  - destruct (Z.eq_dec i id) as [->|]; [split; [right; now left|discriminate]|]. cbn. split; [auto|intros [|[|[]]]; auto; congruence].
  - tauto.
  - destruct (Z.eq_dec i id); [|tauto]. destruct (track id r) as [[[k b] f]|]; [|tauto]. destruct f; (split; [now left|intros _; discriminate]).
  - destruct (track id r) as [[[k b] f]|]; [|tauto]. destruct b; [|tauto]. destruct (answers k id p); (split; [now left|intros _; discriminate]).
Qed.
Lemma request_of_in id g : request_of id g <> None <-> In id (requests g).
Proof.
  induction g as [|x r IH]; [cbn; tauto|]. destruct x as [k i|i|i|p c d e]; cbn [request_of]; try exact IH.
  change (requests (LReq k i :: r)) with (i :: requests r). cbn [In]. destruct (Z.eq_dec i id) as [->|]; [split; [now left|discriminate]|]. rewrite IH. split; [auto|intros [|]; auto; congruence].
Qed.

(** whether a connect is unanswered, read off the log *)
Definition uc (t : tstate) : bool := match t with Some (KConnect, true, _) => true | _ => false end.
Lemma unanswered_snoc id g x : forall b, unanswered_connect id (g ++ [x]) b =
  unanswered_connect id [x] (unanswered_connect id g b).
Proof. induction g as [|y r IH]; intros b; [reflexivity|]. destruct y as [[] i|i|i|p c d e]; cbn [app unanswered_connect] in *; apply IH. Qed.
Lemma unanswered_track id g : good [] g -> unanswered_connect id g false = uc (track id g).
Proof.
  induction g as [|x r IH] using rev_ind; intros G; [reflexivity|]. apply good_app in G. destruct G as [G Gx]. cbn [app] in Gx.
  rewrite unanswered_snoc, track_snoc, (IH G). destruct x as [k i|i|i|p c d e]; cbn [unanswered_connect tstep].
  - destruct Gx as [[_ Gx] _].
    assert (N : i = id -> track id r = None). { intros ->. destruct (track id r) eqn:E; [|reflexivity]. specialize (Gx id ltac:(congruence)). lia. }
    destruct k; destruct (Z.eq_dec i id) as [->|]; try reflexivity. now rewrite (N eq_refl).
  - reflexivity.
  - destruct (Z.eq_dec i id); [|reflexivity]. destruct (track id r) as [[[k b] f]|]; [|reflexivity]. destruct f; reflexivity.
  - destruct (track id r) as [[[k b] f]|]; [|destruct (answers KConnect id p); reflexivity].
    destruct b, k; cbn [uc]; destruct (answers KConnect id p) eqn:E1; try reflexivity; try (rewrite E1; reflexivity).
    + destruct (answers KListen id p); reflexivity.
    + destruct (answers KListen id p); reflexivity.
Qed.
