(** * C57: the connector service, and the choice of a connector by host *)
From Coq Require Import List ZArith Bool Lia Arith String.
From Verif Require Import PyBase PyLemmas ConnSvcModel ConnSvcSpec ConnSvcProofs.
Import ListNotations.
Open Scope nat_scope.

(** Connector modules that only set connectors, and fail or not: every call
    answers what the history says, and a load runs each module of the directory
    once, in its order. *)
Theorem C57_history cfg path ks :
  (forall d k, In (d, k) ks -> plain_dir d) ->
  exists s, do_calls cfg ks (svc_new path) = Some (fst (expected_all ks []), s) /\ v_ran s = bodies (snd (expected_all ks [])).
Proof.
  intro P. destruct (agrees_calls cfg ks [] (svc_new path) P (agrees_new path)) as (s & E & A). exists s. split; [exact E|]. now apply A.
Qed.
Print Assumptions C57_history.

(** Whatever the modules do, calls of the service included, every call ends. *)
Theorem C57_terminates cfg path ks : exists l s, do_calls cfg ks (svc_new path) = Some (l, s) /\ List.length l = List.length ks.
Proof.
  generalize (svc_new path). induction ks as [|[d k] ks IH]; intro s0.
  - exists [], s0. now split.
  - cbn [do_calls]. assert (T : exists a t, do_call cfg d k s0 = Some (a, t)).
    { destruct k as [n c|n|f]; cbn [do_call]; [eauto|destruct (reload_total cfg d false s0) as (o & t & E & _)|destruct (reload_total cfg d f s0) as (o & t & E & _)]; rewrite E; destruct o; eauto. }
    destruct T as (a & t & E). rewrite E. destruct (IH t) as (l & s & E' & L). rewrite E'. exists (a :: l), s. split; [reflexivity|]. cbn. now rewrite L.
Qed.
Print Assumptions C57_terminates.

(** ... and the model's bound on the nesting of loads is no limit. *)
Theorem C57_nesting_unbounded cfg dir force s f : depth dir <= f -> reload f cfg dir force s = reload (depth dir) cfg dir force s.
Proof. intro L. destruct (reload_total cfg dir force s) as (o & t & E & _). rewrite E. exact (reload_mono cfg dir _ _ _ _ _ L E). Qed.
Print Assumptions C57_nesting_unbounded.

Lemma do_call_hold cfg (I : dict pystr conn -> dict pystr conn -> list pystr -> Prop) (dir : option listing) (k : call) :
  (forall d c p, I d c p -> I d d (if smem p cfg then p else cfg :: p)) ->
  (forall l m b n c d x p, dir = Some l -> In (m, Some b) l -> In (ASet n c) b -> I d x p -> I d (dset x n c) p /\ I (dset d n c) (dset x n c) p) ->
  (forall n c d x p, k = CSet n c -> I d x p -> I d (dset x n c) p /\ I (dset d n c) (dset x n c) p) ->
  forall s a t, do_call cfg dir k s = Some (a, t) -> hold I s -> hold I t.
Proof.
  intros R S K s a t E H. destruct k as [n c|n|f]; cbn [do_call] in E.
  - injection E as <- <-. destruct (K n c _ _ _ eq_refl H). unfold set_connector. destruct (v_auto s); assumption.
  - destruct (reload (depth dir) cfg dir false s) as [[o u]|] eqn:F; [|discriminate].
    pose proof (hold_reload cfg I dir R S _ _ _ _ _ F H). destruct o; injection E as <- <-; assumption.
  - destruct (reload (depth dir) cfg dir f s) as [[o u]|] eqn:F; [|discriminate].
    pose proof (hold_reload cfg I dir R S _ _ _ _ _ F H). destruct o; injection E as <- <-; assumption.
Qed.
Lemma do_calls_hold cfg (I : dict pystr conn -> dict pystr conn -> list pystr -> Prop) (ks : list (option listing * call)) :
  (forall d c p, I d c p -> I d d (if smem p cfg then p else cfg :: p)) ->
  (forall l k m b n c d x p, In (Some l, k) ks -> In (m, Some b) l -> In (ASet n c) b -> I d x p -> I d (dset x n c) p /\ I (dset d n c) (dset x n c) p) ->
  (forall dir n c d x p, In (dir, CSet n c) ks -> I d x p -> I d (dset x n c) p /\ I (dset d n c) (dset x n c) p) ->
  forall s a t, do_calls cfg ks s = Some (a, t) -> hold I s -> hold I t.
Proof.
  intros R. induction ks as [|[dir k] ks IH]; intros S K s a t E H; cbn [do_calls] in E; [now injection E as <- <-|].
  destruct (do_call cfg dir k s) as [[b u]|] eqn:F; [|discriminate]. destruct (do_calls cfg ks u) as [[r v]|] eqn:G; [|discriminate]. injection E as <- <-.
  refine (IH _ _ u r v G _).
  - intros l k' m b' n c d x p X. apply (S l k' m b' n c d x p). now right.
  - intros d' n c d x p X. apply (K d' n c d x p). now right.
  - refine (do_call_hold cfg I dir k R _ _ s b u F H).
    + intros l m b' n c d x p -> . apply (S l k). now left.
    + intros n c d x p ->. apply (K dir). now left.
Qed.

(** getConnector() never says that there is no default connector. *)
Theorem C57_default_there cfg path ks dir l s a t :
  do_calls cfg ks (svc_new path) = Some (l, s) -> do_call cfg dir (CGet (lit "default")) s = Some (a, t) -> a <> RNoSuch.
Proof.
  intros E F. set (I := fun (d c : dict pystr conn) (_ : list pystr) => dget d (lit "default") <> None /\ dget c (lit "default") <> None).
  assert (R : forall d c p, I d c p -> I d d (if smem p cfg then p else cfg :: p)) by (intros d c p [A _]; now split).
  assert (S : forall n c d x p, I d x p -> I d (dset x n c) p /\ I (dset d n c) (dset x n c) p).
  { intros n c d x p [A B]. unfold I. rewrite !dget_dset. destruct (eq_dec _ _); repeat split; try assumption; discriminate. }
  assert (H0 : hold I (svc_new path)) by (split; discriminate).
  assert (H1 : hold I s) by (eapply (do_calls_hold cfg I ks R); [intros; now apply S..|exact E|exact H0]).
  assert (H2 : hold I t) by (eapply (do_call_hold cfg I dir _ R); [intros; now apply S..|exact F|exact H1]).
  destruct H2 as [_ H2]. clear -H2 F. remember (lit "default") as dn eqn:X. clear X.
  cbn [do_call] in F. destruct (reload (depth dir) cfg dir false s) as [[[] u]|]; [..|discriminate]; injection F as <- <-; try discriminate.
  destruct (dget (v_conns u) dn); [discriminate|congruence].
Qed.
Print Assumptions C57_default_there.

Lemma call_auto cfg dir k s a t : no_exit dir -> do_call cfg dir k s = Some (a, t) -> v_auto s = false -> v_auto t = false.
Proof.
  intros N E A. destruct k as [n c|n|f]; cbn [do_call] in E.
  - injection E as <- <-. unfold set_connector. now rewrite A.
  - destruct (reload (depth dir) cfg dir false s) as [[o u]|] eqn:F; [|discriminate]. pose proof (noexit_reload _ _ _ N _ _ _ _ F). destruct (reload_after _ _ _ _ _ _ _ F A) as [X Y].
    destruct o; injection E as <- <-; [now apply X|now apply Y|congruence].
  - destruct (reload (depth dir) cfg dir f s) as [[o u]|] eqn:F; [|discriminate]. pose proof (noexit_reload _ _ _ N _ _ _ _ F). destruct (reload_after _ _ _ _ _ _ _ F A) as [X Y].
    destruct o; injection E as <- <-; [now apply X|now apply Y|congruence].
Qed.
Lemma calls_auto cfg ks : (forall d k, In (d, k) ks -> no_exit d) -> forall s l t, do_calls cfg ks s = Some (l, t) -> v_auto s = false -> v_auto t = false.
Proof.
  induction ks as [|[d k] ks IH]; intros N s l t E A; cbn [do_calls] in E; [now injection E as <- <-|].
  destruct (do_call cfg d k s) as [[b u]|] eqn:F; [|discriminate]. destruct (do_calls cfg ks u) as [[r v]|] eqn:G; [|discriminate]. injection E as <- <-.
  apply (IH (fun d k i => N d k (or_intror i)) u r v G). eapply call_auto; [apply (N d k); now left|exact F|exact A].
Qed.

(** A module's exception never reaches the caller: getConnector finds or does
    not find, if the directory is there. *)
Theorem C57_exceptions_contained cfg d k s a t :
  no_exit (Some d) -> do_call cfg (Some d) k s = Some (a, t) ->
  match k with CGet _ => (exists c, a = RFound c) \/ a = RNoSuch | _ => a = RDone end.
Proof.
  intros N E. assert (R : forall f o u, reload (depth (Some d)) cfg (Some d) f s = Some (o, u) -> o = ONorm).
  { intros f o u F. pose proof (noexit_reload _ _ _ N _ _ _ _ F). destruct (depth_pos (Some d)) as [g G]. rewrite G in F. cbn [reload] in F.
    destruct (_ && _); [congruence|]. destruct (load_all _ d _) as [[[] w]|]; [congruence|congruence|congruence|discriminate]. }
  destruct k as [n c|n|f]; cbn [do_call] in E; [congruence|..].
  - destruct (reload _ cfg (Some d) false s) as [[o u]|] eqn:F; [|discriminate]. rewrite (R _ _ _ F) in E. injection E as <- <-. destruct (dget _ n); eauto.
  - destruct (reload _ cfg (Some d) f s) as [[o u]|] eqn:F; [|discriminate]. rewrite (R _ _ _ F) in E. congruence.
Qed.
Print Assumptions C57_exceptions_contained.

(** A connector set by the user stays, over forced reloads and failed ones and
    whatever the modules do, until the user or a module sets its name again. *)
Theorem C57_user_connector_stays cfg path ks1 d0 n c ks2 d l s a t :
  (forall dir k, In (dir, k) (ks1 ++ ks2) -> no_exit dir) -> no_exit (Some d) ->
  (forall dir k, In (dir, k) ks2 -> ~ sets dir n) -> ~ sets (Some d) n ->
  (forall dir c', ~ In (dir, CSet n c') ks2) ->
  do_calls cfg (ks1 ++ (d0, CSet n c) :: ks2) (svc_new path) = Some (l, s) ->
  do_call cfg (Some d) (CGet n) s = Some (a, t) -> a = RFound c.
Proof.
  intros N Nd S Sd K E F.
  assert (A : exists l1 s1 l2, do_calls cfg ks1 (svc_new path) = Some (l1, s1) /\ do_calls cfg ks2 (set_connector n c s1) = Some (l2, s)).
  { clear -E. revert l E. generalize (svc_new path). induction ks1 as [|[d k] ks1 IH]; intros s0 l E; cbn [app do_calls do_call] in E.
    - destruct (do_calls cfg ks2 _) as [[r v]|] eqn:G; [|discriminate]. injection E as <- <-. now exists [], s0, r.
    - destruct (do_call cfg d k s0) as [[b u]|] eqn:X; [|discriminate]. destruct (do_calls cfg _ u) as [[r v]|] eqn:G; [|discriminate]. injection E as <- <-.
      destruct (IH _ _ G) as (l1 & s1 & l2 & P & Q). exists (b :: l1), s1, l2. cbn [do_calls]. now rewrite X, P. }
  destruct A as (l1 & s1 & l2 & E1 & E2).
  assert (A1 : v_auto s1 = false).
  { eapply (calls_auto cfg ks1); [|exact E1|reflexivity]. intros dir k X. apply (N dir k), in_or_app. now left. }
  set (I := fun (d x : dict pystr conn) (_ : list pystr) => dget d n = Some c /\ dget x n = Some c).
  assert (R : forall d x p, I d x p -> I d d (if smem p cfg then p else cfg :: p)) by (intros d' x p [X _]; now split).
  assert (O : forall m c' d x p, m <> n -> I d x p -> I d (dset x m c') p /\ I (dset d m c') (dset x m c') p).
  { intros m c' d' x p M [X Y]. unfold I. rewrite !dget_dset_other by congruence. tauto. }
  assert (H1 : hold I (set_connector n c s1)).
  { unfold set_connector. rewrite A1. split; cbn; apply dget_dset_same. }
  assert (H2 : hold I s).
  { eapply (do_calls_hold cfg I ks2 R); [| |exact E2|exact H1].
    - intros l' k m b n' c' d' x p X1 X2 X3. apply O. intros ->. apply (S (Some l') k X1). exists l', m, b, c'. now repeat split.
    - intros dir n' c' d' x p X. apply O. intros ->. exact (K _ _ X). }
  assert (H3 : hold I t).
  { eapply (do_call_hold cfg I (Some d) _ R); [| |exact F|exact H2].
    - intros l' m b n' c' d' x p [= <-] X2 X3. apply O. intros ->. apply Sd. exists d, m, b, c'. now repeat split.
    - discriminate. }
  pose proof (C57_exceptions_contained cfg d (CGet n) s a t Nd F) as [[c1 ->]|X].
  - cbn [do_call] in F. destruct (reload _ cfg (Some d) false s) as [[[] u]|]; [..|discriminate]; injection F as F <-; try discriminate.
    destruct H3 as [_ H3]. rewrite H3 in F. congruence.
  - subst a. cbn [do_call] in F. destruct (reload _ cfg (Some d) false s) as [[[] u]|]; [..|discriminate]; injection F as F <-; try discriminate.
    destruct H3 as [_ H3]. rewrite H3 in F. congruence.
Qed.
Print Assumptions C57_user_connector_stays.

(** After a completed load, calls without force run no module, and the
    directory does not matter any more. *)
Theorem C57_loaded_once cfg dir n s a t ks ks' l l' u u' :
  do_call cfg dir (CGet n) s = Some (a, t) -> ((exists c, a = RFound c) \/ a = RNoSuch) ->
  (forall d, ~ In (d, CReload true) ks) -> map snd ks = map snd ks' ->
  do_calls cfg ks t = Some (l, u) -> do_calls cfg ks' t = Some (l', u') -> l' = l /\ u' = u /\ v_ran u = v_ran t.
Proof.
  intros E B N M F F'. assert (L : v_loaded t = true).
  { cbn [do_call] in E. destruct (reload _ cfg dir false s) as [[o w]|] eqn:X; [|discriminate]. pose proof (reload_norm _ _ _ _ _ _ _ X) as Y.
    destruct o; injection E as <- <-; [now apply Y|destruct B as [[c B]|B]; discriminate..]. }
  clear E B. revert ks' l l' t L M F F'. induction ks as [|[d k] ks IH]; intros [|[d' k'] ks'] l l' t L M F F'; try discriminate.
  - cbn in F, F'. injection F as <- <-. injection F' as <- <-. now repeat split.
  - cbn [map snd] in M. injection M as <- M. cbn [do_calls] in F, F'.
    assert (X : exists b w, (forall d, do_call cfg d k t = Some (b, w)) \/ k = CReload true) by (clear -L; destruct k as [n c|n|[]]; [
      eexists _, _; left; intro d; reflexivity|
      eexists _, t; left; intro d; destruct (depth_pos d) as [f Ef]; cbn [do_call]; rewrite Ef, reload_loaded by exact L; reflexivity|
      exists RDone, t; now right|
      exists RDone, t; left; intro d; destruct (depth_pos d) as [f Ef]; cbn [do_call]; rewrite Ef, reload_loaded by exact L; reflexivity]).
    destruct X as (b & w & [X|X0]); [|exfalso; apply (N d); left; now rewrite X0].
    assert (W : v_loaded w = true /\ v_ran w = v_ran t).
    { pose proof (X None) as X0. destruct k as [n0 c|n0|f0]; cbn [do_call depth] in X0.
      - injection X0 as _ <-. unfold set_connector. destruct (v_auto t); now split.
      - rewrite reload_loaded in X0 by exact L. injection X0 as _ <-. now split.
      - destruct f0; [exfalso; apply (N d); now left|]. rewrite reload_loaded in X0 by exact L. injection X0 as _ <-. now split. }
    rewrite X in F, F'. destruct (do_calls cfg ks w) as [[r v]|] eqn:G; [|discriminate]. destruct (do_calls cfg ks' w) as [[r' v']|] eqn:G'; [|discriminate].
    injection F as <- <-. injection F' as <- <-. destruct (IH (fun d i => N d (or_intror i)) ks' r r' w (proj1 W) M G G') as (-> & -> & V).
    repeat split. rewrite V. apply W.
Qed.
Print Assumptions C57_loaded_once.

(** (Refuted: a connector that was set can be got.) Without the connectors
    directory getConnector always fails, whatever was set. *)
Theorem C57_no_directory_refuted cfg path ks l s n :
  (forall d k, In (d, k) ks -> d = None) -> do_calls cfg ks (svc_new path) = Some (l, s) ->
  exists t, do_call cfg None (CGet n) s = Some (RNoDir, t).
Proof.
  intros N E. assert (L : v_loaded s = false).
  { assert (L0 : v_loaded (svc_new path) = false) by reflexivity. revert l E L0. generalize (svc_new path). induction ks as [|[d k] ks IH]; intros s0 l E L0; cbn [do_calls] in E; [now injection E as <- <-|].
    destruct (do_call cfg d k s0) as [[b u]|] eqn:F; [|discriminate]. destruct (do_calls cfg ks u) as [[r v]|] eqn:G; [|discriminate]. injection E as <- <-.
    apply (IH (fun d k i => N d k (or_intror i)) u r G). rewrite (N d k (or_introl eq_refl)) in F. destruct k as [n0 c|n0|f]; cbn [do_call depth] in F.
    - injection F as <- <-. unfold set_connector. destruct (v_auto s0); exact L0.
    - destruct (reload_nodir cfg 0 false s0 L0) as (t & X & Lt). rewrite X in F. injection F as <- <-. exact Lt.
    - destruct (reload_nodir cfg 0 f s0 L0) as (t & X & Lt). rewrite X in F. injection F as <- <-. exact Lt. }
  cbn [do_call depth]. destruct (reload_nodir cfg 0 false s L) as (t & X & _). rewrite X. now exists t.
Qed.
Print Assumptions C57_no_directory_refuted.

(** sys.path: the configuration directory is put at its front, once, and not
    taken out again. *)
Theorem C57_sys_path cfg path ks l s :
  do_calls cfg ks (svc_new path) = Some (l, s) ->
  (v_path s = path \/ ~ In cfg path /\ v_path s = cfg :: path) /\
  forall dir n a t, do_call cfg dir (CGet n) s = Some (a, t) -> v_loaded s = false -> In cfg (v_path t).
Proof.
  intro E. set (I := fun (_ _ : dict pystr conn) (p : list pystr) => p = path \/ ~ In cfg path /\ p = cfg :: path). split.
  - apply (do_calls_hold cfg I ks) with (s := svc_new path) (a := l); [|unfold I; tauto..|exact E|now left].
    intros d0 c0 p [->|[M ->]]; unfold I.
    + destruct (smem path cfg) eqn:X; [now left|]. right. split; [|reflexivity]. now apply smem_false.
    + right. split; [exact M|]. replace (smem (cfg :: path) cfg) with true; [reflexivity|]. symmetry. apply smem_true. now left.
  - intros dir n a t F L.
    assert (X : forall o u, reload (depth dir) cfg dir false s = Some (o, u) -> In cfg (v_path u)).
    { intros o u X. destruct (depth_pos dir) as [f Ef]. rewrite Ef in X. cbn [reload] in X. rewrite L in X. cbn [andb] in X.
      set (s2 := if smem (v_path (with_conns (v_defaults s) s)) cfg then _ else _) in X.
      assert (P : In cfg (v_path s2)). { unfold s2. destruct (smem _ _) eqn:Y; [now apply smem_true in Y|now left]. }
      destruct dir as [d|]; [|now injection X as <- <-]. destruct (load_all (reload f cfg (Some d)) d _) as [[o1 t1]|] eqn:G; [|discriminate].
      assert (P1 : In cfg (v_path t1)).
      { set (J := fun (_ _ : dict pystr conn) (p : list pystr) => In cfg p). change (hold J t1).
        refine (hold_load_all J (Some d) _ (reload f cfg (Some d)) d eq_refl _ d (incl_refl d) (with_auto true s2) _ _ G P).
        - unfold J; tauto.
        - intros f' s' o' t' Y. refine (hold_reload cfg J (Some d) _ _ f f' s' o' t' Y); unfold J.
          + intros d0 c0 p Ip. destruct (smem p cfg); [exact Ip|now left].
          + tauto. }
      destruct o1; injection X as <- <-; exact P1. }
    cbn [do_call] in F. destruct (reload (depth dir) cfg dir false s) as [[o u]|]; [|discriminate]. specialize (X o u eq_refl). destruct o; injection F as <- <-; exact X.
Qed.
Print Assumptions C57_sys_path.

(** (Refuted: the connectors of a module go with it; a module is run once.) A
    module that asks for the default connector is run twice, and what it sets
    stays when it is gone. *)
Theorem C57_module_asking_refuted :
  exists cfg n c m d s, d = [(m, Some [AGet (lit "default"); ASet n c])] /\
    do_calls cfg [(Some d, CGet n); (Some [], CReload true); (Some [], CGet n)] (svc_new []) = Some ([RFound c; RDone; RFound c], s) /\ v_ran s = [m; m].
Proof. exists (lit "/home/.playground"), (lit "poop"), 7, 3. eexists _, _. split; [reflexivity|]. split; [vm_compute; reflexivity|reflexivity]. Qed.
Print Assumptions C57_module_asking_refuted.

(** (Refuted: a connector that was set can be got.) After a module has called
    sys.exit() in a load, and the caller has survived it, a connector the user
    sets is forgotten by the next call. *)
Theorem C57_module_exit_refuted :
  exists cfg n c d s, do_calls cfg [(Some d, CGet n); (Some [], CSet n c); (Some [], CGet n)] (svc_new []) = Some ([RExit; RDone; RNoSuch], s).
Proof. exists (lit "/home/.playground"), (lit "poop"), 7, [(3, Some [AExit])]. eexists. vm_compute. reflexivity. Qed.
Print Assumptions C57_module_exit_refuted.

(** ** The choice of the connector *)

(** create_connection(host, port): a host with one "://" names the connector
    before it and the host after it; without, the connector is the default one;
    with several, ValueError; and a connector given by family leaves the host as
    it is. *)
Theorem C57_connector_by_host cfg dir port s :
  (forall h, (forall f g, ~ splits h f g) ->
     create_connection cfg dir (Some h) port None false s = create_connection cfg dir (Some h) port (Some (lit "default")) false s) /\
  (forall h f g, splits h f g -> (forall f' g', splits h f' g' -> f' = f /\ g' = g) ->
     create_connection cfg dir (Some h) port None false s = create_connection cfg dir (Some g) port (Some f) false s) /\
  (forall h f g f' g', splits h f g -> splits h f' g' -> (f, g) <> (f', g') ->
     create_connection cfg dir (Some h) port None false s = Some (OpRaise ValueError, s)) /\
  (forall h f a t, do_call cfg dir (CGet f) s = Some (a, t) ->
     (forall c, a = RFound c -> create_connection cfg dir h port (Some f) false s = Some (OpCall c h port, t)) /\
     (a = RNoSuch -> create_connection cfg dir h port (Some f) false s = Some (OpNoSuch, t)) /\
     (a = RNoDir -> create_connection cfg dir h port (Some f) false s = Some (OpNoDir, t))).
Proof.
  split; [|split; [|split]].
  - intros h N. unfold create_connection. cbn [choose_family]. destruct (scheme_split h) as [[_ C]|[(f & g & _ & S & _)|(f & g & f' & g' & a & b & c & r & _ & S & _)]]; [|exfalso; exact (N _ _ S)..]. now rewrite C.
  - intros h f g S U. unfold create_connection. cbn [choose_family]. destruct (scheme_split h) as [[N _]|[(f1 & g1 & C & S1 & P & _)|(f1 & g1 & f2 & g2 & a & b & c & r & _ & S1 & S2 & D & _)]].
    + exfalso; exact (N _ _ S).
    + rewrite C, P. destruct (U _ _ S1) as [-> ->]. reflexivity.
    + destruct (U _ _ S1) as [-> ->]. destruct (U _ _ S2) as [-> ->]. congruence.
  - intros h f g f' g' S S' D. unfold create_connection. cbn [choose_family]. destruct (scheme_split h) as [[N _]|[(f1 & g1 & C & S1 & P & U)|(f1 & g1 & f2 & g2 & a & b & c & r & C & S1 & S2 & _ & P)]].
    + exfalso; exact (N _ _ S).
    + destruct (U _ _ S) as [-> ->]. destruct (U _ _ S') as [-> ->]. congruence.
    + rewrite C, P. reflexivity.
  - intros h f a t E. unfold create_connection, choose_family, via. rewrite E. split; [intros c ->; reflexivity|split; intros ->; reflexivity].
Qed.
Print Assumptions C57_connector_by_host.

(** create_server does the same, with host "default" for None; it refuses a
    missing port; both refuse further arguments. *)
Theorem C57_create_server cfg dir host family s :
  (forall p, create_server cfg dir host (Some p) family false s =
     create_connection cfg dir (Some (match host with Some h => h | None => lit "default" end)) (Some p) family false s) /\
  create_server cfg dir host None family false s = Some (OpRaise GenericException, s) /\
  (forall p, create_server cfg dir host p family true s = Some (OpRaise GenericException, s) /\
     create_connection cfg dir host p family true s = Some (OpRaise GenericException, s)).
Proof. split; [|split; [reflexivity|]]; intros; destruct host; try reflexivity; destruct p; now split. Qed.
Print Assumptions C57_create_server.

(** ** Examples *)
Example C57_ex_history : exists s,
  do_calls (lit "/c") [(Some [], CSet (lit "a") 1);
                       (Some [(1, None); (2, Some [ASet (lit "b") 2; ARaise; ASet (lit "d") 9]); (3, Some [ASet (lit "a") 3])], CGet (lit "a"));
                       (None, CGet (lit "b")); (None, CGet (lit "d")); (Some [(2, Some [ASet (lit "b") 5])], CReload true);
                       (None, CGet (lit "a")); (None, CGet (lit "b")); (None, CReload true); (None, CGet (lit "b"))] (svc_new [])
  = Some ([RDone; RFound 3; RFound 2; RNoSuch; RDone; RFound 1; RFound 5; RNoDir; RNoSuch], s) /\ v_ran s = [2; 3; 2].
Proof. eexists. split; [vm_compute; reflexivity|reflexivity]. Qed.
(** modules that ask for each other's connectors and force reloads *)
Example C57_ex_nested : exists l s,
  do_calls (lit "/c") [(Some [(1, Some [AReload true; AGet (lit "b"); ASet (lit "a") 1]); (2, Some [ATryGet (lit "a"); ASet (lit "b") 2; AReload true])], CGet (lit "a"))] (svc_new []) = Some (l, s) /\ l = [RFound 1].
Proof. eexists _, _. split; [vm_compute; reflexivity|reflexivity]. Qed.
Example C57_ex_stays : exists l s t,
  do_calls (lit "/c") ([] ++ (None, CSet (lit "a") 7) :: [(Some [(1, Some [AGet (lit "q"); ASet (lit "b") 1])], CReload true); (None, CReload true)]) (svc_new []) = Some (l, s) /\
  l = [RDone; RDone; RNoDir] /\ do_call (lit "/c") (Some [(2, Some [AReload true])]) (CGet (lit "a")) s = Some (RFound 7, t).
Proof. eexists _, _, _. split; [vm_compute; reflexivity|]. split; [reflexivity|vm_compute; reflexivity]. Qed.
Example C57_ex_hosts :
  choose_family None (Some (lit "tls://1.2.3.4")) = Ok (lit "tls", Some (lit "1.2.3.4")) /\
  choose_family None (Some (lit "a://b://c")) = Raise ValueError /\ choose_family None (Some (lit "1.2.3.4")) = Ok (lit "default", Some (lit "1.2.3.4")) /\
  choose_family None (Some (lit ":://x")) = Ok (lit ":", Some (lit "x")).
Proof. vm_compute. repeat split. Qed.
Example C57_ex_split : splits (lit "tls://1.2.3.4") (lit "tls") (lit "1.2.3.4").
Proof. reflexivity. Qed.
