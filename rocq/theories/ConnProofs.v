From Coq Require Import List ZArith Bool Lia Permutation.
From Verif Require Import PyBase PyLemmas ClientModel CallbackModel ConnModel ConnSpec.
Import ListNotations.
Open Scope nat_scope.

(** ** dictionaries *)
Section Dict.
  Context {K V : Type} `{EqDec K}.
  Lemma dset_get (d : dict K V) k v j : dget (dset d k v) j = if eq_dec j k then Some v else dget d j.
  Proof. destruct (eq_dec j k) as [->|N]; [apply dget_dset_same|apply dget_dset_other; congruence]. Qed.
  Lemma in_dset (d : dict K V) k v x : In x (dset d k v) -> In x d \/ x = (k, v).
  Proof.
    induction d as [|[k' v'] d IH]; cbn [dset]; [intros [<-|[]]; now right|].
    destruct (eq_dec k k') as [->|N]; intros [X|X]; [right; congruence|left; now right|left; now left|].
    destruct (IH X); [left; now right|now right].
  Qed.
  Lemma in_ddel (d : dict K V) k x : In x (ddel d k) -> In x d.
  Proof.
    induction d as [|[k' v'] d IH]; cbn [ddel]; [tauto|].
    destruct (eq_dec k k') as [->|N]; [now right|]. intros [X|X]; [now left|right; auto].
  Qed.
  Lemma dset_keys (d : dict K V) k v : NoDup (map fst d) -> NoDup (map fst (dset d k v)).
  Proof.
    induction d as [|[u y] d IH]; intros N; [cbn; constructor; [tauto|constructor]|]. pose proof N as N0. cbn [map fst] in N. apply NoDup_cons_iff in N as [N1 N2].
    cbn [dset]. destruct (eq_dec k u) as [->|D]; [exact N0|]. cbn [map fst]. apply NoDup_cons; [|exact (IH N2)].
    intros X. apply in_map_iff in X as ([w z] & W & X). cbn in W. subst w. apply in_dset in X as [X|X]; [|congruence]. apply N1. apply in_map_iff. now exists (u, z).
  Qed.
  Lemma ddel_keys (d : dict K V) k : NoDup (map fst d) -> NoDup (map fst (ddel d k)) /\ ~ In k (map fst (ddel d k)).
  Proof.
    induction d as [|[u y] d IH]; intros N; [cbn; split; [constructor|tauto]|]. cbn [map fst] in N. apply NoDup_cons_iff in N as [N1 N2].
    cbn [ddel]. destruct (eq_dec k u) as [->|D]; [now split|]. destruct (IH N2) as [A B]. cbn [map fst]. split.
    - apply NoDup_cons; [|exact A]. intros X. apply in_map_iff in X as ([w z] & W & X). cbn in W. subst w. apply in_ddel in X. apply N1. apply in_map_iff. now exists (u, z).
    - intros [X|X]; [congruence|exact (B X)].
  Qed.
  Lemma dget_in' (d : dict K V) k v : dget d k = Some v -> In (k, v) d.
  Proof. induction d as [|[u y] d IH]; [discriminate|]. cbn [dget]. destruct (eq_dec k u) as [->|]; [intros X; left; congruence|intros X; right; auto]. Qed.
End Dict.

(** ** the callback service, as the connector uses it *)
Definition note_app (x : Z * note) : nat := snd (snd x).
Record cbi (A : Z -> nat -> Prop) (Bt : nat -> proto -> Prop) (s : cbs) : Prop := {
  x_info : forall port id kd a, In (port, (id, kd, a)) (b_info s) -> A id a /\ ~ (exists p, Bt a p);
  x_apps : NoDup (map note_app (b_info s));
  x_ik : NoDup (map fst (b_info s));
  x_dk : NoDup (map fst (b_data s));
  x_data : forall port p, In (port, p) (b_data s) -> exists st, dget (b_protos s) p = Some st /\ p_port st = port /\ p_app st = None;
  x_spawn : forall id p, In p (spawned s id) -> exists st a, dget (b_protos s) p = Some st /\ p_app st = Some a /\ A id a /\ Bt a p
}.
Definition keeps (s s' : cbs) : Prop :=
  forall p st a, dget (b_protos s) p = Some st -> p_app st = Some a -> exists st', dget (b_protos s') p = Some st' /\ p_app st' = Some a.
Definition blds (g : list blog) : list ylog := flat_map (fun x => match x with BBuild _ p (_, _, a) => [YLBuilt a p] | _ => [] end) g.
Lemma keeps_refl s : keeps s s. Proof. intros p st a X Y. eauto. Qed.

Lemma nd_apps_del (d : dict Z note) k : NoDup (map note_app d) -> NoDup (map note_app (ddel d k)).
Proof.
  induction d as [|[u y] d IH]; intros N; [exact N|]. cbn [map] in N. apply NoDup_cons_iff in N as [N1 N2]. cbn [ddel].
  destruct (eq_dec k u); [exact N2|]. cbn [map]. apply NoDup_cons; [|auto]. intros X. apply N1. apply in_map_iff in X as (w & W & X). apply in_map_iff. exists w. split; [exact W|]. eapply in_ddel, X.
Qed.
Lemma nd_apps_set (d : dict Z note) k n : NoDup (map note_app d) -> ~ In (snd n) (map note_app d) -> NoDup (map note_app (dset d k n)).
Proof.
  induction d as [|[u y] d IH]; intros N M; [cbn; constructor; [tauto|constructor]|]. cbn [map] in N, M. apply NoDup_cons_iff in N as [N1 N2]. cbn [dset].
  destruct (eq_dec k u); cbn [map].
  - apply NoDup_cons; [|exact N2]. intros X. apply M. right. exact X.
  - apply NoDup_cons; [|apply IH; [exact N2|intros X; apply M; now right]].
    intros X. apply in_map_iff in X as (w & W & X). apply in_dset in X as [X| ->]; [apply N1; rewrite <- W; now apply in_map|].
    apply M. left. unfold note_app in *. cbn in *. congruence.
Qed.
Lemma ddel_gone_app (d : dict Z note) k n : NoDup (map note_app d) -> dget d k = Some n -> ~ In (snd n) (map note_app (ddel d k)).
Proof.
  induction d as [|[u y] d IH]; intros N G; [discriminate|]. cbn [map] in N. apply NoDup_cons_iff in N as [N1 N2]. cbn [ddel dget] in *.
  destruct (eq_dec k u).
  - injection G as ->. exact N1.
  - cbn [map]. intros [X|X]; [|exact (IH N2 G X)]. apply N1. unfold note_app at 1 in X. cbn in X. unfold note_app at 1. cbn. rewrite X.
    apply dget_in' in G. apply in_map_iff. exists (k, n). now split.
Qed.
Lemma blds_deliver p a l : blds (map (BDeliver p a) l) = [].
Proof. induction l; [reflexivity|]. cbn. exact IHl. Qed.

Lemma try_build_ok A Bt port s : cbi A Bt s ->
  try_build port s = (s, []) \/
  exists s' g p id kd a, try_build port s = (s', g) /\ In (port, (id, kd, a)) (b_info s) /\ blds g = [YLBuilt a p] /\ A id a /\ ~ (exists q, Bt a q) /\
    cbi A (fun x q => Bt x q \/ (x = a /\ q = p)) s' /\ keeps s s' /\
    (forall i, spawned s' i = if Z.eq_dec i id then spawned s i ++ [p] else spawned s i) /\ ~ In a (map note_app (b_info s')) /\
    (forall x, In x (b_info s') -> In x (b_info s)).
Proof.
  intros I. unfold try_build. destruct (dget (b_info s) port) as [[[id kd] a]|] eqn:Ei; [|now left].
  destruct (dget (b_data s) port) as [p|] eqn:Ed; [|now left]. right. unfold build_stack.
  destruct (x_data _ _ _ I port p (dget_in' _ _ _ Ed)) as (st & Ep & Eport & Eapp). rewrite Ep.
  destruct (x_info _ _ _ I port id kd a (dget_in' _ _ _ Ei)) as [HA HB].
  eexists _, _, p, id, kd, a. split; [reflexivity|]. split; [exact (dget_in' _ _ _ Ei)|]. split; [cbn; f_equal; apply blds_deliver|]. split; [exact HA|]. split; [exact HB|].
  destruct (ddel_keys (b_data s) port (x_dk _ _ _ I)) as [Dk Dn]. destruct (ddel_keys (b_info s) port (x_ik _ _ _ I)) as [Ik In'].
  assert (Sp : forall i, spawned (Cbs (dset (b_protos s) p (PState (p_port st) (Some a) [])) (ddel (b_data s) port) (ddel (b_info s) port)
      (dset (b_spawn s) id (spawned s id ++ [p])) (dset (b_back s) p id)) i = if Z.eq_dec i id then spawned s i ++ [p] else spawned s i).
  { intros i. unfold spawned. cbn [b_spawn]. rewrite dset_get. destruct (eq_dec i id) as [->|N]; destruct (Z.eq_dec _ id); congruence. }
  split; [|split; [|split; [exact Sp|split]]].
  - split; cbn [b_info b_data b_protos].
    + intros q i kd' a' X. apply in_ddel in X as Y. destruct (x_info _ _ _ I _ _ _ _ Y) as [P Q]. split; [exact P|]. intros [q' [Z|[Z _]]]; [apply Q; now exists q'|]. subst a'.
      apply (ddel_gone_app _ _ _ (x_apps _ _ _ I) Ei). cbn. apply in_map_iff. exists (q, (i, kd', a)). now split.
    + apply nd_apps_del. exact (x_apps _ _ _ I).
    + exact Ik.
    + exact Dk.
    + intros q p' X. apply in_ddel in X as Y. destruct (x_data _ _ _ I q p' Y) as (st' & P & Q & R). rewrite dset_get.
      destruct (eq_dec p' p) as [->|N]; [|eauto]. exfalso. assert (q = port) by congruence. try subst q. apply Dn. apply in_map_iff. eexists; split; [|exact X]; exact H.
    + intros i p' X. rewrite Sp in X. rewrite dset_get. destruct (eq_dec p' p) as [->|N].
      * destruct (Z.eq_dec i id) as [->|Ni]; [eexists _, a; split; [reflexivity|]; split; [reflexivity|]; split; [exact HA|right; now split]|].
        destruct (x_spawn _ _ _ I i p X) as (st' & a' & P & Q & _). congruence.
      * assert (X' : In p' (spawned s i)) by (destruct (Z.eq_dec i id); [apply in_app_or in X as [X|[X|[]]]; [exact X|congruence]|exact X]).
        destruct (x_spawn _ _ _ I i p' X') as (st' & a' & P & Q & R & T). exists st', a'. repeat split; auto.
  - intros p' st' a' P Q. cbn [b_protos]. rewrite dset_get. destruct (eq_dec p' p) as [->|N]; [congruence|eauto].
  - cbn [b_info]. exact (ddel_gone_app _ _ _ (x_apps _ _ _ I) Ei).
  - cbn [b_info]. intros x. apply in_ddel.
Qed.

Definition cb_pre (A : Z -> nat -> Prop) (Bt : nat -> proto -> Prop) (e : bevent) (s : cbs) : Prop :=
  match e with
  | QMade p _ => dget (b_protos s) p = None
  | QNote _ (id, _, a) => A id a /\ ~ (exists q, Bt a q) /\ ~ In a (map note_app (b_info s))
  | _ => True
  end.
Definition ev_app (e : bevent) : list nat := match e with QNote _ (_, _, a) => [a] | _ => [] end.
Lemma cb_ok A Bt e s : cbi A Bt s -> cb_pre A Bt e s -> forall s' g, cb_step e s = (s', g) ->
  keeps s s' /\ (forall a, In a (map note_app (b_info s')) -> In a (map note_app (b_info s)) \/ In a (ev_app e)) /\
  ((blds g = [] /\ cbi A Bt s' /\ (forall i p, In p (spawned s' i) -> In p (spawned s i)) /\
      match e with QMade _ _ | QNote _ _ | QData _ _ | QWait _ => forall i, spawned s' i = spawned s i | _ => True end) \/
   (exists p id a, blds g = [YLBuilt a p] /\ A id a /\ ~ (exists q, Bt a q) /\ (In a (map note_app (b_info s)) \/ In a (ev_app e)) /\ cbi A (fun x q => Bt x q \/ (x = a /\ q = p)) s' /\
      forall i, spawned s' i = if Z.eq_dec i id then spawned s i ++ [p] else spawned s i)).
Proof.
  intros I P s' g H. destruct e as [p port|port [[id kd] a]|p b|p|i]; cbn [cb_step] in H; cbn [cb_pre ev_app] in *.
  - (* QMade *)
    set (s1 := Cbs (dset (b_protos s) p (PState port None [])) (dset (b_data s) port p) (b_info s) (b_spawn s) (b_back s)) in *.
    assert (K1 : keeps s s1).
    { intros q st a X Y. unfold s1. cbn [b_protos]. rewrite dset_get. destruct (eq_dec q p) as [->|N]; [congruence|eauto]. }
    assert (I1 : cbi A Bt s1).
    { unfold s1. split; cbn [b_info b_data b_protos].
      - exact (x_info _ _ _ I).
      - exact (x_apps _ _ _ I).
      - exact (x_ik _ _ _ I).
      - apply dset_keys. exact (x_dk _ _ _ I).
      - intros q p' X. rewrite dset_get. apply in_dset in X as [X|X].
        + destruct (x_data _ _ _ I q p' X) as (st & U & V & W). destruct (eq_dec p' p) as [->|N]; [congruence|eauto].
        + injection X as -> ->. destruct (eq_dec p p); [eexists; now split|congruence].
      - intros i q X. destruct (x_spawn _ _ _ I i q X) as (st & a & U & V & W). rewrite dset_get. destruct (eq_dec q p) as [->|N]; [congruence|eauto]. }
    destruct (try_build_ok A Bt port s1 I1) as [E|(s2 & g2 & q & id & kd & a & E & Bi & Bl & HA & HB & I2 & K2 & Sp & Na & Su)]; rewrite E in H; injection H as <- <-.
    + split; [exact K1|]. split; [intros a X; now left|]. left. split; [reflexivity|]. split; [exact I1|]. split; auto.
    + split; [|split].
      * intros x st y U V. destruct (K1 x st y U V) as (st1 & U1 & V1). exact (K2 x st1 y U1 V1).
      * intros x X. left. apply in_map_iff in X as (w & W & X). apply Su in X. apply in_map_iff. now exists w.
      * right. exists q, id, a. split; [exact Bl|]. split; [exact HA|]. split; [exact HB|]. split; [left; apply in_map_iff; now exists (port, (id, kd, a))|]. split; [exact I2|exact Sp].
  - (* QNote *)
    destruct P as (PA & PB & PN).
    set (s1 := Cbs (b_protos s) (b_data s) (dset (b_info s) port (id, kd, a)) (b_spawn s) (b_back s)) in *.
    assert (K1 : keeps s s1) by (intros q st x X Y; eauto).
    assert (I1 : cbi A Bt s1).
    { unfold s1. split; cbn [b_info b_data b_protos].
      - intros q i kd' a' X. apply in_dset in X as [X|X]; [exact (x_info _ _ _ I q i kd' a' X)|]. injection X as -> -> -> ->. now split.
      - apply nd_apps_set; [exact (x_apps _ _ _ I)|exact PN].
      - apply dset_keys. exact (x_ik _ _ _ I).
      - exact (x_dk _ _ _ I).
      - exact (x_data _ _ _ I).
      - exact (x_spawn _ _ _ I). }
    assert (S1 : forall x, In x (map note_app (b_info s1)) -> In x (map note_app (b_info s)) \/ In x [a]).
    { intros x X. apply in_map_iff in X as (w & W & X). unfold s1 in X. cbn [b_info] in X. apply in_dset in X as [X|X]; [left; apply in_map_iff; now exists w|].
      right. left. subst w. unfold note_app in W. cbn in W. congruence. }
    destruct (try_build_ok A Bt port s1 I1) as [E|(s2 & g2 & q & i & k2 & b & E & Bi & Bl & HA & HB & I2 & K2 & Sp & Na & Su)]; rewrite E in H; injection H as <- <-.
    + split; [exact K1|]. split; [exact S1|]. left. split; [reflexivity|]. split; [exact I1|]. split; auto.
    + split; [|split].
      * intros x st y U V. destruct (K1 x st y U V) as (st1 & U1 & V1). exact (K2 x st1 y U1 V1).
      * intros x X. apply S1. apply in_map_iff in X as (w & W & X). apply Su in X. apply in_map_iff. now exists w.
      * right. exists q, i, b. split; [exact Bl|]. split; [exact HA|]. split; [exact HB|].
        split; [apply S1; apply in_map_iff; now exists (port, (i, k2, b))|]. split; [exact I2|exact Sp].
  - (* QData *)
    destruct (dget (b_protos s) p) as [st|] eqn:Ep; [|injection H as <- <-; split; [apply keeps_refl|]; split; [intros x X; now left|]; left; split; [reflexivity|]; split; [exact I|]; split; auto].
    destruct (p_app st) as [a|] eqn:Ea; injection H as <- <-.
    { split; [apply keeps_refl|]. split; [intros x X; now left|]. left. split; [reflexivity|]. split; [exact I|]. split; auto. }
    split; [|split; [intros x X; now left|]].
    + intros q st' a X Y. cbn [b_protos]. rewrite dset_get. destruct (eq_dec q p) as [->|N]; [congruence|eauto].
    + left. split; [reflexivity|]. split; [|split; [auto|auto]]. split; cbn [b_info b_data b_protos]; try apply I.
      * intros q p' X. destruct (x_data _ _ _ I q p' X) as (st' & U & V & W). rewrite dset_get. destruct (eq_dec p' p) as [->|N]; [|eauto].
        eexists. split; [reflexivity|]. cbn. split; [congruence|reflexivity].
      * intros i q X. destruct (x_spawn _ _ _ I i q X) as (st' & a & U & V & W). rewrite dset_get. destruct (eq_dec q p) as [->|N]; [congruence|eauto].
  - (* QLost *)
    assert (Same : forall s' g, (s', g) = (s, @nil blog) \/ (exists x, (s', g) = (s, [x]) /\ blds [x] = []) -> keeps s s' /\ (forall a, In a (map note_app (b_info s')) -> In a (map note_app (b_info s)) \/ False) /\ ((blds g = [] /\ cbi A Bt s' /\ (forall i p, In p (spawned s' i) -> In p (spawned s i)) /\ True) \/
       (exists p id a, blds g = [YLBuilt a p] /\ A id a /\ ~ (exists q, Bt a q) /\ (In a (map note_app (b_info s)) \/ False) /\ cbi A (fun x q => Bt x q \/ (x = a /\ q = p)) s' /\ forall i, spawned s' i = if Z.eq_dec i id then spawned s i ++ [p] else spawned s i))).
    { intros t h X. assert (t = s /\ blds h = []) as [-> Y] by (destruct X as [X|(x & X & Y)]; [injection X as -> ->; now split|injection X as -> ->; now split]).
      split; [apply keeps_refl|]. split; [tauto|]. left. split; [exact Y|]. split; [exact I|]. split; auto. }
    destruct (dget (b_protos s) p) as [st|] eqn:Ep; [|apply Same; left; congruence].
    destruct (p_app st) as [a|] eqn:Ea; [|apply Same; right; eexists; split; [rewrite <- H; reflexivity|reflexivity]].
    destruct (Z.eqb (p_port st) 0); [apply Same; right; eexists; split; [rewrite <- H; reflexivity|reflexivity]|].
    injection H as <- <-. clear Same. unfold data_closed.
    assert (SP : exists sp bk, (match dget (b_back s) p with Some id => (dset (b_spawn s) id (sremove (spawned s id) p), ddel (b_back s) p) | None => (b_spawn s, b_back s) end) = (sp, bk) /\
       forall i x, In x (match dget sp i with Some l => l | None => [] end) -> In x (spawned s i)).
    { destruct (dget (b_back s) p) as [id|]; eexists _, _; (split; [reflexivity|]); [|intros i x X; exact X].
      intros i x. rewrite dset_get. destruct (eq_dec i id) as [->|N]; [|now intros X].
      generalize (spawned s id). intros l. induction l as [|y l IH]; cbn; [tauto|]. destruct (eq_dec p y); cbn; tauto. }
    destruct SP as (sp & bk & -> & SP).
    split; [intros q st' x X Y; eauto|]. split; [intros x X; left; apply in_map_iff in X as (w & W & X); apply in_ddel in X; apply in_map_iff; now exists w|].
    left. split; [reflexivity|]. split; [|split; [exact SP|auto]].
    destruct (ddel_keys (b_data s) (p_port st) (x_dk _ _ _ I)) as [Dk _]. destruct (ddel_keys (b_info s) (p_port st) (x_ik _ _ _ I)) as [Ik _].
    split; cbn [b_info b_data b_protos]; [| | | | |].
    + intros q i kd x X. apply in_ddel in X. exact (x_info _ _ _ I q i kd x X).
    + apply nd_apps_del. apply I.
    + exact Ik.
    + exact Dk.
    + intros q x X. apply in_ddel in X. exact (x_data _ _ _ I q x X).
    + intros i x X. exact (x_spawn _ _ _ I i x (SP i x X)).
  - (* QWait *)
    injection H as <- <-. destruct (dget (b_spawn s) i) as [l|] eqn:Es.
    { split; [apply keeps_refl|]. split; [intros x X; now left|]. left. split; [reflexivity|]. split; [exact I|]. split; auto. }
    assert (SP : forall j, spawned (Cbs (b_protos s) (b_data s) (b_info s) (dset (b_spawn s) i []) (b_back s)) j = spawned s j).
    { intros j. unfold spawned. cbn [b_spawn]. rewrite dset_get. destruct (eq_dec j i) as [->|N]; [now rewrite Es|reflexivity]. }
    split; [intros q st x X Y; eauto|]. split; [intros x X; now left|]. left. split; [reflexivity|]. split; [|split; [intros j x; now rewrite SP|exact SP]].
    split; cbn [b_info b_data b_protos]; try apply I. intros j x X. rewrite SP in X. exact (x_spawn _ _ _ I j x X).
Qed.

(** ** clients *)
Definition fut_ok (x : client) : Prop := forall id i port, dget (c_fut x) id = Some (FDone (OResult i port)) -> i = id.
Lemma complete_fut x id o : fut_ok x -> (forall i port, o = OResult i port -> i = id) ->
  fut_ok (fst (fst (complete x id o))) /\ c_id (fst (fst (complete x id o))) = c_id x.
Proof.
  intros F O. unfold complete. destruct (dget (c_fut x) id) as [[| |o']|] eqn:E; cbn [fst]; try (now split).
  split; [|reflexivity]. intros j i port. cbn [c_fut]. rewrite dset_get. destruct (eq_dec j id) as [->|N]; [|apply F].
  intros X. injection X as X. exact (O i port X).
Qed.
Lemma handle_fut p x : fut_ok x -> fut_ok (fst (handle p x)) /\ c_id (fst (handle p x)) = c_id x.
Proof.
  intros F. assert (Fg : forall id, fut_ok (forget x id)) by (intros id; exact F).
  destruct p as [id failure port|id tcp sport|]; cbn [handle]; [| |now split].
  - destruct (dget (c_futs x) id) as [k|]; [|now split].
    set (y := if _ || failure then forget x id else x).
    assert (Fy : fut_ok y /\ c_id y = c_id x) by (unfold y; destruct (_ || failure); [split; [apply Fg|reflexivity]|now split]).
    clearbody y. destruct failure.
    + destruct (complete_fut y id OFailure (proj1 Fy)) as [A B]; [discriminate|].
      destruct (complete y id OFailure) as [[z d] e]. cbn [fst] in *. split; [exact A|]. rewrite B. apply Fy.
    + destruct k.
      * cbn [fst]. exact Fy.
      * destruct (complete_fut y id (OResult id port) (proj1 Fy)) as [A B]; [intros ? ? X; congruence|].
        destruct (complete y id (OResult id port)) as [[z d] e]. cbn [fst] in *. split; [exact A|]. rewrite B. apply Fy.
  - destruct (smem (c_conns x) id); [|now split].
    destruct (match dget (c_futs x) id with Some k => k | None => KListen end); [|now split].
    destruct (complete_fut (forget x id) id (OResult id sport) (Fg id)) as [A B]; [intros ? ? X; congruence|].
    destruct (complete (forget x id) id (OResult id sport)) as [[z d] e]. cbn [fst] in *. now split.
Qed.

(** ** the system *)
Definition Ag (g : list ylog) (id : Z) (a : nat) : Prop := exists c k, In (YLApp a k c id) g.
Definition Bg (g : list ylog) (a : nat) (p : proto) : Prop := In (YLBuilt a p) g.
Record yi (s : sys) (g : list ylog) : Prop := {
  z_cb : cbi (Ag g) (Bg g) (y_cbs s);
  z_fut : forall k c id kd, dget (y_calls s) k = Some (PFuture c id kd) -> In (YLReq k c id kd) g;
  z_conns : forall k c id, dget (y_calls s) k = Some (PConns c id) -> In (YLReq k c id KConnect) g;
  z_made : forall k p a, dget (y_calls s) k = Some (PMade p a) -> (exists c id, In (YLReq k c id KConnect) g /\ Ag g id a) /\ In (YLBuilt a p) g;
  z_obs : forall a b, dget (y_obs s) a = Some b -> (exists p, In (YLBuilt a p) g) /\ (b = true -> In (YLMade a) g) /\ (forall k p, ~ In (YLReturn k p a) g);
  z_ret : forall k p a, In (YLReturn k p a) g -> In (YLBuilt a p) g;
  z_infon : forall a, In a (map note_app (b_info (y_cbs s))) -> a < y_napp s;
  z_bltn : forall a p, In (YLBuilt a p) g -> a < y_napp s;
  z_bltu : forall a p q, In (YLBuilt a p) g -> In (YLBuilt a q) g -> p = q;
  z_ctrl : forall c x, dget (y_ctrl s) c = Some x -> c < y_nctrl s /\ fut_ok x;
  z_tcp : forall k l c kd, dget (y_calls s) k = Some (PTcp l c kd) -> c < y_nctrl s /\ dget (y_ctrl s) c = None;
  z_tcpu : forall k k' l l' c kd kd', dget (y_calls s) k = Some (PTcp l c kd) -> dget (y_calls s) k' = Some (PTcp l' c kd') -> k = k';
  z_req : forall k c id kd, In (YLReq k c id kd) g -> dget (y_factory s) (c, id) = Some k /\ exists x, dget (y_ctrl s) c = Some x /\ (id <= c_id x)%Z;
  z_fac : forall c id k, dget (y_factory s) (c, id) = Some k -> exists kd, In (YLReq k c id kd) g;
  z_app : forall a k c id, In (YLApp a k c id) g -> dget (y_factory s) (c, id) = Some k /\ a < y_napp s;
  z_appu : forall a k c id k' c' id', In (YLApp a k c id) g -> In (YLApp a k' c' id') g -> k = k' /\ c = c' /\ id = id';
  z_obsk : NoDup (map fst (y_obs s));
  z_n : y_nctrl s = length (tcps g)
}.
Lemma cbi_mono (A A' : Z -> nat -> Prop) (B B' : nat -> proto -> Prop) s : (forall i a, A i a -> A' i a) -> (forall a p, B a p <-> B' a p) -> cbi A B s -> cbi A' B' s.
Proof.
  intros HA HB [i1 i2 i3 i4 i5 i6]. split; auto.
  - intros port id kd a X. destruct (i1 port id kd a X) as [P Q]. split; [auto|]. intros [q Y]. apply Q. exists q. now apply HB.
  - intros id p X. destruct (i6 id p X) as (st & a & P & Q & R & T). exists st, a. repeat split; auto. now apply HB.
Qed.
(** a log entry that says nothing about connections *)
Definition plain_log (x : ylog) : Prop := match x with YLServer _ _ _ | YLRaise _ _ | YLMade _ => True | _ => False end.
Lemma plain_in (g g' : list ylog) x : Forall plain_log g' -> ~ plain_log x -> (In x (g ++ g') <-> In x g).
Proof.
  intros F N. split; [|intros X; apply in_or_app; now left]. intros X. apply in_app_or in X as [X|X]; [exact X|].
  rewrite Forall_forall in F. elim N. auto.
Qed.
Lemma tcps_app a b : tcps (a ++ b) = tcps a ++ tcps b. Proof. apply flat_map_app. Qed.
Lemma plain_tcps g : Forall plain_log g -> tcps g = [].
Proof. induction 1 as [|x g P F IH]; [reflexivity|]. destruct x; try destruct P; exact IH. Qed.
Lemma yi_plain s g g' : Forall plain_log g' -> yi s g -> yi s (g ++ g').
Proof.
  intros F [].
  assert (W : forall x, ~ plain_log x -> (In x (g ++ g') <-> In x g)) by (intros x; apply plain_in; exact F).
  assert (M : forall x, In x g -> In x (g ++ g')) by (intros x X; apply in_or_app; now left).
  split; auto.
  - eapply cbi_mono; [| |exact z_cb0].
    + intros i a (c & k & X). exists c, k. auto.
    + intros a p. unfold Bg. rewrite W; [reflexivity|intros []].
  - intros k p a X. destruct (z_made0 k p a X) as [(c & id & P & (c' & k' & Q)) R]. split; [exists c, id; split; [auto|exists c', k'; auto]|auto].
  - intros a b X. destruct (z_obs0 a b X) as ([p P] & Q & R). split; [exists p; auto|]. split; [auto|]. intros k q Y. rewrite W in Y; [exact (R k q Y)|intros []].
  - intros k p a X. rewrite W in X by (intros []). eauto.
  - intros a p X. rewrite W in X by (intros []). eauto.
  - intros a p q X Y. rewrite W in X by (intros []). rewrite W in Y by (intros []). eauto.
  - intros k c id kd X. rewrite W in X by (intros []). eauto.
  - intros c id k X. destruct (z_fac0 c id k X) as [kd Y]. exists kd. auto.
  - intros a k c id X. rewrite W in X by (intros []). eauto.
  - intros a k c id k' c' id' X Y. rewrite W in X by (intros []). rewrite W in Y by (intros []). eauto.
  - rewrite tcps_app, (plain_tcps g' F), app_nil_r. exact z_n0.
Qed.
Lemma yi_queue s g w v n : yi s g -> yi (with_queue w v n s) g.
Proof. intros []. split; assumption. Qed.
Lemma yi_conns s g d : yi s g -> yi (with_conns d s) g.
Proof. intros []. split; assumption. Qed.
(** what a new program point needs *)
Definition pc_ok (s : sys) (g : list ylog) (k : call) (x : cpc) : Prop :=
  match x with
  | PTcp l c kd => False
  | PFuture c id kd => In (YLReq k c id kd) g
  | PConns c id => In (YLReq k c id KConnect) g
  | PMade p a => (exists c id, In (YLReq k c id KConnect) g /\ Ag g id a) /\ In (YLBuilt a p) g
  | _ => True
  end.
Lemma yi_call s g k x : pc_ok s g k x -> yi s g -> yi (with_call k x s) g.
Proof.
  intros P []. split; try assumption; cbn [with_call y_calls y_cbs y_obs y_napp y_ctrl y_nctrl y_factory].
  - intros j c id kd. rewrite dset_get. destruct (eq_dec j k) as [->|N]; [|apply z_fut0]. intros X. injection X as ->. exact P.
  - intros j c id. rewrite dset_get. destruct (eq_dec j k) as [->|N]; [|apply z_conns0]. intros X. injection X as ->. exact P.
  - intros j p a. rewrite dset_get. destruct (eq_dec j k) as [->|N]; [|apply z_made0]. intros X. injection X as ->. exact P.
  - intros j l c kd. rewrite dset_get. destruct (eq_dec j k) as [->|N]; [|apply z_tcp0]. intros X. injection X as ->. destruct P.
  - intros j j' l l' c kd kd'. rewrite !dset_get. destruct (eq_dec j k) as [->|N]; [intros X; injection X as ->; destruct P|].
    destruct (eq_dec j' k) as [->|N']; [intros _ X; injection X as ->; destruct P|]. apply z_tcpu0.
Qed.
Lemma yi_ctrl s g c x x' : dget (y_ctrl s) c = Some x -> fut_ok x' -> (c_id x <= c_id x')%Z -> yi s g -> yi (with_ctrl c x' s) g.
Proof.
  intros D F L []. split; try assumption; cbn [with_ctrl y_calls y_cbs y_obs y_napp y_ctrl y_nctrl y_factory].
  - intros d y. rewrite dset_get. destruct (eq_dec d c) as [->|N]; [|apply z_ctrl0]. intros X. injection X as <-. split; [exact (proj1 (z_ctrl0 c x D))|exact F].
  - intros k l d kd X. destruct (z_tcp0 k l d kd X) as [P Q]. split; [exact P|]. rewrite dset_get. destruct (eq_dec d c) as [->|N]; [congruence|exact Q].
  - intros k d id kd X. destruct (z_req0 k d id kd X) as [P (y & Q & R)]. split; [exact P|]. rewrite dset_get. destruct (eq_dec d c) as [->|N]; [|eauto].
    exists x'. split; [reflexivity|]. replace y with x in R by congruence. lia.
Qed.
Lemma yi_obs_del s g k p a : yi s g -> dget (y_obs s) a = Some true ->
  (exists c id, In (YLReq k c id KConnect) g /\ Ag g id a) -> In (YLBuilt a p) g ->
  yi (with_call k (PReturned p a) (with_obs (ddel (y_obs s) a) s)) (g ++ [YLReturn k p a]).
Proof.
  intros Y D R B. pose proof (z_obsk _ _ Y) as ND. assert (Y1 : yi (with_call k (PReturned p a) s) g) by (apply yi_call; [exact I|exact Y]). clear Y.
  set (s1 := with_call k (PReturned p a) s) in *. change (with_call k (PReturned p a) (with_obs (ddel (y_obs s) a) s)) with (with_obs (ddel (y_obs s1) a) s1).
  change (y_obs s) with (y_obs s1) in D, ND. clearbody s1. destruct Y1.
  assert (W : forall x, x <> YLReturn k p a -> (In x (g ++ [YLReturn k p a]) <-> In x g)).
  { intros x N. split; [|intros X; apply in_or_app; now left]. intros X. apply in_app_or in X as [X|[X|[]]]; [exact X|congruence]. }
  assert (M : forall x, In x g -> In x (g ++ [YLReturn k p a])) by (intros x X; apply in_or_app; now left).
  assert (MA : forall i x, Ag g i x -> Ag (g ++ [YLReturn k p a]) i x) by (intros i x (c & k' & X); exists c, k'; auto).
  split; cbn [with_obs y_calls y_cbs y_obs y_napp y_ctrl y_nctrl y_factory]; auto.
  - eapply cbi_mono; [exact MA| |exact z_cb0]. intros x q. unfold Bg. rewrite W by discriminate. reflexivity.
  - intros j q x X. destruct (z_made0 j q x X) as [(c & id & P & Q) T]. split; [exists c, id; auto|auto].
  - intros x b X. destruct (eq_dec x a) as [->|N].
    + exfalso. destruct (ddel_keys (y_obs s1) a ND) as [_ Z]. apply Z. apply in_map_iff. exists (a, b). split; [reflexivity|]. now apply dget_in'.
    + rewrite dget_ddel_other in X by congruence. destruct (z_obs0 x b X) as ([q P] & Q & T). split; [exists q; auto|]. split; [auto|].
      intros j r Z. rewrite W in Z by congruence. exact (T j r Z).
  - intros j q x X. apply in_app_or in X as [X|[X|[]]]; [eauto|]. injection X as -> -> ->. auto.
  - intros x q X. rewrite W in X by discriminate. eauto.
  - intros x q q' X Y. rewrite W in X by discriminate. rewrite W in Y by discriminate. eauto.
  - intros j c id kd X. rewrite W in X by discriminate. eauto.
  - intros c id j X. destruct (z_fac0 c id j X) as [kd Y]. eauto.
  - intros x j c id X. rewrite W in X by discriminate. eauto.
  - intros x j c id j' c' id' X Y. rewrite W in X by discriminate. rewrite W in Y by discriminate. eauto.
  - exact (proj1 (ddel_keys (y_obs s1) a ND)).
  - rewrite tcps_app, app_nil_r. exact z_n0.
Qed.

Lemma yi_request s g k kd c x : yi s g -> dget (y_ctrl s) c = Some x ->
  yi (fst (request k kd c s)) (g ++ snd (request k kd c s)).
Proof.
  intros Y D. unfold request. rewrite D. cbn [fst snd].
  set (x' := fst (client_step (EOpen kd) x)).
  assert (Ei : c_id x' = (c_id x + 1)%Z) by (unfold x'; cbn [client_step]; destruct (c_up x); reflexivity).
  assert (Fx : fut_ok x').
  { pose proof (proj2 (z_ctrl _ _ Y c x D)) as F. unfold x'; cbn [client_step]. destruct (c_up x); [|exact F].
    intros id i port. cbn [fst c_fut]. rewrite dset_get. destruct (eq_dec id (c_id x + 1)%Z); [discriminate|apply F]. }
  clearbody x'. set (id := c_id x') in *.
  assert (Fr : dget (y_factory s) (c, id) = None).
  { destruct (dget (y_factory s) (c, id)) as [k'|] eqn:E; [|reflexivity]. exfalso. destruct (z_fac _ _ Y c id k' E) as [kd' X].
    destruct (z_req _ _ Y _ _ _ _ X) as [_ (y & P & Q)]. replace y with x in Q by congruence. lia. }
  assert (Y1 : yi (with_ctrl c x' s) g) by (apply (yi_ctrl s g c x); auto; lia).
  assert (D1 : dget (y_ctrl (with_ctrl c x' s)) c = Some x') by (cbn; apply dget_dset_same).
  assert (Fr1 : dget (y_factory (with_ctrl c x' s)) (c, id) = None) by exact Fr.
  set (s1 := with_ctrl c x' s) in *. clearbody s1. clear Y Fr D s.
  set (s2 := Sys _ _ _ _ _ _ _ _ _ _ _).
  assert (Y2 : yi s2 (g ++ [YLReq k c id kd])).
  { destruct Y1.
    assert (W : forall x, x <> YLReq k c id kd -> (In x (g ++ [YLReq k c id kd]) <-> In x g)).
    { intros z N. split; [|intros X; apply in_or_app; now left]. intros X. apply in_app_or in X as [X|[X|[]]]; [exact X|congruence]. }
    assert (M : forall x, In x g -> In x (g ++ [YLReq k c id kd])) by (intros z X; apply in_or_app; now left).
    assert (MA : forall i z, Ag g i z -> Ag (g ++ [YLReq k c id kd]) i z) by (intros i z (d & k' & X); exists d, k'; auto).
    unfold s2. split; cbn [y_calls y_cbs y_obs y_napp y_ctrl y_nctrl y_factory]; auto.
    - eapply cbi_mono; [exact MA| |exact z_cb0]. intros z q. unfold Bg. rewrite W by discriminate. reflexivity.
    - intros j q z X. destruct (z_made0 j q z X) as [(d & i & P & Q) T]. split; [exists d, i; auto|auto].
    - intros z b X. destruct (z_obs0 z b X) as ([q P] & Q & T). split; [exists q; auto|]. split; [auto|]. intros j r Z. rewrite W in Z by discriminate. exact (T j r Z).
    - intros j q z X. rewrite W in X by discriminate. eauto.
    - intros z q X. rewrite W in X by discriminate. eauto.
    - intros z q q' X X'. rewrite W in X by discriminate. rewrite W in X' by discriminate. eauto.
    - intros j d i kd' X. rewrite dset_get. apply in_app_or in X as [X|[X|[]]].
      + destruct (z_req0 j d i kd' X) as [P Q]. destruct (eq_dec (d, i) (c, id)) as [E|N]; [|now split]. injection E as -> ->. congruence.
      + injection X as <- <- <- <-. destruct (eq_dec (c, id) (c, id)); [|congruence]. split; [reflexivity|]. exists x'. split; [exact D1|]. unfold id. lia.
    - intros d i j. rewrite dset_get. destruct (eq_dec (d, i) (c, id)) as [E|N].
      + injection E as -> ->. intros X. injection X as <-. exists kd. apply in_or_app. right. now left.
      + intros X. destruct (z_fac0 d i j X) as [kd' P]. eauto.
    - intros z j d i X. rewrite W in X by discriminate. destruct (z_app0 z j d i X) as [P Q]. split; [|exact Q]. rewrite dset_get.
      destruct (eq_dec (d, i) (c, id)) as [E|N]; [|exact P]. injection E as -> ->. congruence.
    - intros z j d i j' d' i' X X'. rewrite W in X by discriminate. rewrite W in X' by discriminate. eauto.
    - rewrite tcps_app, app_nil_r. exact z_n0. }
  clearbody s2. apply yi_call; [|exact Y2]. cbn. apply in_or_app. right. now left.
Qed.
Lemma dset_twice {K V} `{EqDec K} (d : dict K V) k a b : dset (dset d k a) k b = dset d k b.
Proof.
  induction d as [|[u y] d IH]; cbn [dset]; [destruct (eq_dec k k); congruence|].
  destruct (eq_dec k u) as [->|N]; cbn [dset]; [destruct (eq_dec u u); congruence|]. destruct (eq_dec k u); [congruence|]. now rewrite IH.
Qed.
Lemma yi_newctrl s g c x : yi s g -> dget (y_ctrl s) c = None -> c < y_nctrl s -> fut_ok x ->
  (forall k l kd, dget (y_calls s) k <> Some (PTcp l c kd)) -> yi (with_ctrl c x s) g.
Proof.
  intros [] D L F N. split; try assumption; cbn [with_ctrl y_calls y_cbs y_obs y_napp y_ctrl y_nctrl y_factory].
  - intros d y. rewrite dset_get. destruct (eq_dec d c) as [->|Nd]; [|apply z_ctrl0]. intros X. injection X as <-. now split.
  - intros k l d kd X. destruct (z_tcp0 k l d kd X) as [P Q]. split; [exact P|]. rewrite dset_get. destruct (eq_dec d c) as [->|Nd]; [|exact Q]. elim (N k l kd X).
  - intros k d id kd X. destruct (z_req0 k d id kd X) as [P (y & Q & R)]. split; [exact P|]. rewrite dset_get. destruct (eq_dec d c) as [->|Nd]; [congruence|eauto].
Qed.
Lemma yi_tcp s g k kd l d : yi s g ->
  yi (with_call k (PTcp l (y_nctrl s) kd) (Sys d (S (y_nctrl s)) (y_ctrl s) (y_factory s) (y_cbs s) (y_napp s) (y_obs s) (y_wait s) (y_woken s) (y_notify s) (y_calls s))) (g ++ [YLTcp k l]).
Proof.
  intros [].
  assert (W : forall x, x <> YLTcp k l -> (In x (g ++ [YLTcp k l]) <-> In x g)).
  { intros z N. split; [|intros X; apply in_or_app; now left]. intros X. apply in_app_or in X as [X|[X|[]]]; [exact X|congruence]. }
  assert (M : forall x, In x g -> In x (g ++ [YLTcp k l])) by (intros z X; apply in_or_app; now left).
  assert (MA : forall i z, Ag g i z -> Ag (g ++ [YLTcp k l]) i z) by (intros i z (e & k' & X); exists e, k'; auto).
  assert (CN : dget (y_ctrl s) (y_nctrl s) = None).
  { destruct (dget (y_ctrl s) (y_nctrl s)) as [x|] eqn:E; [|reflexivity]. destruct (z_ctrl0 _ _ E). lia. }
  split; cbn [with_call y_calls y_cbs y_obs y_napp y_ctrl y_nctrl y_factory]; auto.
  - eapply cbi_mono; [exact MA| |exact z_cb0]. intros z q. unfold Bg. rewrite W by discriminate. reflexivity.
  - intros j c id kd'. rewrite dset_get. destruct (eq_dec j k); [discriminate|]. eauto.
  - intros j c id. rewrite dset_get. destruct (eq_dec j k); [discriminate|]. eauto.
  - intros j q z. rewrite dset_get. destruct (eq_dec j k); [discriminate|]. intros X. destruct (z_made0 j q z X) as [(e & i & P & Q) T]. split; [exists e, i; auto|auto].
  - intros z b X. destruct (z_obs0 z b X) as ([q P] & Q & T). split; [exists q; auto|]. split; [auto|]. intros j r Z. rewrite W in Z by discriminate. exact (T j r Z).
  - intros j q z X. rewrite W in X by discriminate. eauto.
  - intros z q X. rewrite W in X by discriminate. eauto.
  - intros z q q' X X'. rewrite W in X by discriminate. rewrite W in X' by discriminate. eauto.
  - intros c x X. destruct (z_ctrl0 c x X). split; [lia|assumption].
  - intros j l' c kd'. rewrite dset_get. destruct (eq_dec j k) as [->|N].
    + intros X. injection X as <- <- <-. split; [lia|exact CN].
    + intros X. destruct (z_tcp0 j l' c kd' X). split; [lia|assumption].
  - intros j j' l1 l2 c k1 k2. rewrite !dset_get. destruct (eq_dec j k) as [->|N], (eq_dec j' k) as [->|N']; auto.
    + intros X X'. injection X as <- <- <-. destruct (z_tcp0 _ _ _ _ X'). lia.
    + intros X X'. injection X' as <- <- <-. destruct (z_tcp0 _ _ _ _ X). lia.
    + apply z_tcpu0.
  - intros j c id kd' X. rewrite W in X by discriminate. eauto.
  - intros c id j X. destruct (z_fac0 c id j X). eauto.
  - intros z j c id X. rewrite W in X by discriminate. eauto.
  - intros z j e i j' e' i' X X'. rewrite W in X by discriminate. rewrite W in X' by discriminate. eauto.
  - rewrite tcps_app, app_length. cbn. lia.
Qed.
Lemma yi_newapp s g c id k : yi s g -> dget (y_factory s) (c, id) = Some k ->
  yi (Sys (y_conns s) (y_nctrl s) (y_ctrl s) (y_factory s) (y_cbs s) (S (y_napp s)) (y_obs s) (y_wait s) (y_woken s) (y_notify s) (y_calls s))
     (g ++ [YLApp (y_napp s) k c id]).
Proof.
  intros [] D. set (a := y_napp s) in *.
  assert (W : forall x, x <> YLApp a k c id -> (In x (g ++ [YLApp a k c id]) <-> In x g)).
  { intros z N. split; [|intros X; apply in_or_app; now left]. intros X. apply in_app_or in X as [X|[X|[]]]; [exact X|congruence]. }
  assert (M : forall x, In x g -> In x (g ++ [YLApp a k c id])) by (intros z X; apply in_or_app; now left).
  assert (MA : forall i z, Ag g i z -> Ag (g ++ [YLApp a k c id]) i z) by (intros i z (e & k' & X); exists e, k'; auto).
  split; cbn [y_calls y_cbs y_obs y_napp y_ctrl y_nctrl y_factory]; auto.
  - eapply cbi_mono; [exact MA| |exact z_cb0]. intros z q. unfold Bg. rewrite W by discriminate. reflexivity.
  - intros j q z X. destruct (z_made0 j q z X) as [(e & i & P & Q) T]. split; [exists e, i; auto|auto].
  - intros z b X. destruct (z_obs0 z b X) as ([q P] & Q & T). split; [exists q; auto|]. split; [auto|]. intros j r Z. rewrite W in Z by discriminate. exact (T j r Z).
  - intros j q z X. rewrite W in X by discriminate. eauto.
  - intros z X. apply z_infon0 in X. unfold a in *. lia.
  - intros z q X. rewrite W in X by discriminate. apply z_bltn0 in X. unfold a in *. lia.
  - intros z q q' X X'. rewrite W in X by discriminate. rewrite W in X' by discriminate. eauto.
  - intros j e i kd' X. rewrite W in X by discriminate. eauto.
  - intros e i j X. destruct (z_fac0 e i j X). eauto.
  - intros z j e i X. apply in_app_or in X as [X|[X|[]]].
    + destruct (z_app0 z j e i X). split; [assumption|lia].
    + injection X as <- <- <- <-. split; [exact D|lia].
  - intros z j e i j' e' i' X X'. apply in_app_or in X as [X|[X|[]]]; apply in_app_or in X' as [X'|[X'|[]]].
    + eauto.
    + destruct (z_app0 z j e i X). injection X' as <- <- <- <-. unfold a in *. lia.
    + destruct (z_app0 z j' e' i' X'). injection X as <- <- <- <-. unfold a in *. lia.
    + injection X as <- <- <- <-. injection X' as <- <- <-. auto.
  - rewrite tcps_app, app_nil_r. exact z_n0.
Qed.
Lemma built_none gb s : blds gb = [] -> built gb s = s.
Proof.
  unfold built. revert s. induction gb as [|x gb IH]; intros s H; [reflexivity|]. cbn [fold_left]. destruct x as [port p [[id kd] a]|p a b|p a|p]; try (cbn in H; discriminate H); apply IH; exact H.
Qed.
Lemma built_one gb s a p : blds gb = [YLBuilt a p] -> built gb s = with_obs (dset (y_obs s) a false) (with_queue (y_wait s) (y_woken s) (S (y_notify s)) s).
Proof.
  unfold built. revert s. induction gb as [|x gb IH]; intros s H; [discriminate|]. cbn [fold_left]. destruct x as [port q [[id kd] b]|q b c|q b|q]; try (apply IH; exact H).
  cbn in H. injection H as -> -> H. exact (built_none gb _ H).
Qed.
Lemma yi_cb e s g : yi s g -> cb_pre (Ag g) (Bg g) e (y_cbs s) -> (forall a, In a (ev_app e) -> a < y_napp s) ->
  yi (fst (cb_apply e s)) (g ++ snd (cb_apply e s)).
Proof.
  intros Y P N. unfold cb_apply. destruct (cb_step e (y_cbs s)) as [b gb] eqn:E. cbn [fst snd]. fold (blds gb).
  destruct (cb_ok _ _ e _ (z_cb _ _ Y) P b gb E) as (K & Ap & [(B & I & Sp & _)|(p & id & a & B & HA & HB & Ia & I & Sp)]).
  - rewrite B, app_nil_r, (built_none gb _ B). destruct Y. split; try assumption; cbn [with_cbs y_cbs].
    intros z X. apply Ap in X as [X|X]; [apply z_infon0 in X; exact X|apply N in X; exact X].
  - rewrite B, (built_one gb _ a p B). destruct Y.
    assert (W : forall x, x <> YLBuilt a p -> (In x (g ++ [YLBuilt a p]) <-> In x g)).
    { intros z Nz. split; [|intros X; apply in_or_app; now left]. intros X. apply in_app_or in X as [X|[X|[]]]; [exact X|congruence]. }
    assert (M : forall x, In x g -> In x (g ++ [YLBuilt a p])) by (intros z X; apply in_or_app; now left).
    assert (MA : forall i z, Ag g i z -> Ag (g ++ [YLBuilt a p]) i z) by (intros i z (d & k' & X); exists d, k'; auto).
    split; cbn [with_obs with_queue with_cbs y_calls y_cbs y_obs y_napp y_ctrl y_nctrl y_factory]; auto.
    + eapply cbi_mono; [exact MA| |exact I]. intros z q. unfold Bg. rewrite in_app_iff. cbn. intuition congruence.
    + intros j q z X. destruct (z_made0 j q z X) as [(e' & i & Q & R) T]. split; [exists e', i; auto|auto].
    + intros z b' X. rewrite dset_get in X. destruct (eq_dec z a) as [->|Na].
      * injection X as <-. split; [exists p; apply in_or_app; right; now left|]. split; [discriminate|]. intros j r Z. rewrite W in Z by discriminate.
        apply HB. exists r. exact (z_ret0 j r a Z).
      * destruct (z_obs0 z b' X) as ([q Q] & R & T). split; [exists q; auto|]. split; [auto|]. intros j r Z. rewrite W in Z by discriminate. exact (T j r Z).
    + intros j q z X. rewrite W in X by discriminate. eauto.
    + intros z X. apply Ap in X as [X|X]; [apply z_infon0 in X; exact X|apply N in X; exact X].
    + intros z q X. apply in_app_or in X as [X|[X|[]]]; [eauto|]. injection X as <- <-. destruct Ia as [Ia|Ia]; [apply z_infon0 in Ia; exact Ia|apply N in Ia; exact Ia].
    + intros z q q' X X'. apply in_app_or in X as [X|[X|[]]]; apply in_app_or in X' as [X'|[X'|[]]]; eauto.
      * injection X' as <- <-. elim HB. exists q. exact X.
      * injection X as <- <-. elim HB. exists q'. exact X'.
      * congruence.
    + intros j c i kd' X. rewrite W in X by discriminate. eauto.
    + intros c i j X. destruct (z_fac0 c i j X). eauto.
    + intros z j c i X. rewrite W in X by discriminate. eauto.
    + intros z j c i j' c' i' X X'. rewrite W in X by discriminate. rewrite W in X' by discriminate. eauto.
    + apply dset_keys. exact z_obsk0.
    + rewrite tcps_app, app_nil_r. exact z_n0.
Qed.

Definition ret_ok (g : list ylog) (k : call) (p : proto) (a : app) : Prop :=
  (exists c id, In (YLReq k c id KConnect) g /\ Ag g id a) /\ In (YLBuilt a p) g /\ In (YLMade a) g /\ forall k' p', ~ In (YLReturn k' p' a) g.
Definition step_good (s' : sys) (g g' : list ylog) : Prop :=
  yi s' (g ++ g') /\ forall k p a, In (YLReturn k p a) g' -> ret_ok g k p a.
Lemma good_of s' g g' : yi s' (g ++ g') -> (forall k p a, ~ In (YLReturn k p a) g') -> step_good s' g g'.
Proof. intros A B. split; [exact A|]. intros k p a X. elim (B k p a X). Qed.
Lemma await_made_ok s g k p a : yi s g -> (exists c id, In (YLReq k c id KConnect) g /\ Ag g id a) -> In (YLBuilt a p) g ->
  step_good (fst (await_made k p a s)) g (snd (await_made k p a s)).
Proof.
  intros Y R B. unfold await_made. destruct (dget (y_obs s) a) as [[|]|] eqn:O; cbn [fst snd].
  - destruct (z_obs _ _ Y a true O) as (_ & Md & NR). split; [apply yi_obs_del; auto|].
    intros j q x [X|[]]. injection X as <- <- <-. split; [exact R|]. split; [exact B|]. split; [auto|exact NR].
  - apply good_of; [|intros ? ? ? []]. rewrite app_nil_r. apply yi_call; [split; assumption|exact Y].
  - apply good_of; [|intros ? ? ? [X|[]]; discriminate]. apply yi_plain; [repeat constructor|]. now apply yi_call.
Qed.
Lemma look_ok s g k c id : yi s g -> In (YLReq k c id KConnect) g -> step_good (fst (look k c id s)) g (snd (look k c id s)).
Proof.
  intros Y R. unfold look. destruct (spawned (y_cbs s) id) as [|p [|q r]] eqn:Sp.
  - cbn [fst snd]. apply good_of; [|intros ? ? ? []]. rewrite app_nil_r. apply yi_call; [exact R|]. now apply yi_queue.
  - destruct (x_spawn _ _ _ (z_cb _ _ Y) id p) as (st & a & P & Q & A & B); [rewrite Sp; now left|]. rewrite P, Q.
    apply await_made_ok; [exact Y|exists c, id; now split|exact B].
  - cbn [fst snd]. apply good_of; [|intros ? ? ? [X|[]]; discriminate]. apply yi_plain; [repeat constructor|]. now apply yi_call.
Qed.
Lemma cb_apply_noret e s k p a : ~ In (YLReturn k p a) (snd (cb_apply e s)).
Proof.
  unfold cb_apply. destruct (cb_step e (y_cbs s)) as [b gb]. cbn [snd]. intros X. apply in_flat_map in X as (x & _ & X).
  destruct x as [? ? [[? ?] ?]| | |]; cbn in X; intuition discriminate.
Qed.
Lemma request_noret k kd c s j p a : ~ In (YLReturn j p a) (snd (request k kd c s)).
Proof. unfold request. destruct (dget (y_ctrl s) c); cbn; intuition discriminate. Qed.
Lemma yi_wait s g id : yi s g -> yi (with_cbs (fst (cb_step (QWait id) (y_cbs s))) s) g.
Proof.
  intros Y. pose proof (yi_cb (QWait id) s g Y I (fun a (X : In a []) => match X with end)) as Z.
  unfold cb_apply in Z. cbn [cb_step fst snd flat_map built fold_left] in *. rewrite app_nil_r in Z. exact Z.
Qed.
Lemma begin_ok s g k kd l : (forall l' c, dget (y_conns s) l' = Some (Some c) -> dget (y_ctrl s) c <> None) -> yi s g ->
  step_good (fst (begin k kd l s)) g (snd (begin k kd l s)).
Proof.
  intros Cn Y. unfold begin. destruct (dget (y_conns s) l) as [[c|]|] eqn:E.
  - destruct (dget (y_ctrl s) c) as [x|] eqn:D; [|elim (Cn l c E D)].
    apply good_of; [eapply yi_request; eassumption|apply request_noret].
  - apply good_of; [|intros ? ? ? []]. cbn [fst snd]. rewrite app_nil_r. now apply yi_call.
  - apply good_of; [|intros ? ? ? [X|[]]; discriminate]. cbn [fst snd]. now apply yi_tcp.
Qed.
Definition conns_ok (s : sys) : Prop := forall l c, dget (y_conns s) l = Some (Some c) -> dget (y_ctrl s) c <> None.
Lemma step_ok e s g s' g' : yi s g -> conns_ok s -> y_step e s = Some (s', g') -> step_good s' g g'.
Proof.
  intros Y Cn H. destruct e as [k l|k l|k ok|k|c p|e|a|k| |k]; cbn [y_step] in H.
  - destruct (dhas (y_calls s) k); [discriminate|]. pose proof (begin_ok s g k KConnect l Cn Y) as B.
    destruct (begin k KConnect l s). injection H as <- <-. exact B.
  - destruct (dhas (y_calls s) k); [discriminate|]. pose proof (begin_ok s g k KListen l Cn Y) as B.
    destruct (begin k KListen l s). injection H as <- <-. exact B.
  - destruct (dget (y_calls s) k) as [[l c kd| | | | | | |]|] eqn:D; try discriminate. destruct ok.
    + set (x0 := fst (client_step EMade client_new)) in H.
      set (s1 := with_conns (dset (y_conns s) l (Some c)) (with_ctrl c x0 (with_call k (PSleep l kd) s))).
      assert (Y1 : yi s1 g).
      { apply yi_conns. destruct (z_tcp _ _ Y k l c kd D) as [L N]. apply yi_newctrl; auto.
        - apply yi_call; [exact I|exact Y].
        - intros id i port X. discriminate X.
        - intros j l' kd'. cbn [with_call y_calls]. rewrite dset_get. destruct (eq_dec j k) as [->|Nj]; [discriminate|].
          intros X. apply Nj. exact (z_tcpu _ _ Y _ _ _ _ _ _ _ X D). }
      assert (E : request k kd c (with_conns (dset (y_conns s) l (Some c)) (with_ctrl c x0 s)) = request k kd c s1).
      { unfold request, s1, with_conns, with_ctrl, with_call. cbn [y_ctrl y_conns y_nctrl y_factory y_cbs y_napp y_obs y_wait y_woken y_notify y_calls].
        rewrite dget_dset_same, !dset_twice. reflexivity. }
      rewrite E in H. destruct (request k kd c s1) as [s2 g2] eqn:R. injection H as <- <-.
      assert (D1 : dget (y_ctrl s1) c = Some x0) by (unfold s1; cbn; apply dget_dset_same).
      pose proof (yi_request s1 g k kd c x0 Y1 D1) as Z. pose proof (request_noret k kd c s1) as N. rewrite R in Z, N. apply good_of; assumption.
    + injection H as <- <-. apply good_of; [|intros ? ? ? [X|[]]; discriminate]. apply yi_plain; [repeat constructor|]. now apply yi_call.
  - destruct (dget (y_calls s) k) as [[|l kd| | | | | |]|] eqn:D; try discriminate.
    destruct (dget (y_conns s) l) as [[c|]|] eqn:E.
    + destruct (dget (y_ctrl s) c) as [x|] eqn:Dx; [|elim (Cn l c E Dx)].
      pose proof (yi_request s g k kd c x Y Dx) as Z. pose proof (request_noret k kd c s) as N. destruct (request k kd c s). injection H as <- <-. now apply good_of.
    + injection H as <- <-. apply good_of; [now rewrite app_nil_r|intros ? ? ? []].
    + injection H as <- <-. apply good_of; [now rewrite app_nil_r|intros ? ? ? []].
  - destruct (dget (y_ctrl s) c) as [x|] eqn:D; [|discriminate].
    destruct (handle_fut p x (proj2 (z_ctrl _ _ Y c x D))) as [F Ei]. destruct (handle p x) as [x' lg]. cbn [fst] in F, Ei.
    assert (Y1 : yi (with_ctrl c x' s) g) by (apply (yi_ctrl s g c x); auto; lia).
    assert (P0 : forall s' g', Some (with_ctrl c x' s, @nil ylog) = Some (s', g') -> step_good s' g g').
    { intros t h X. injection X as <- <-. apply good_of; [now rewrite app_nil_r|intros ? ? ? []]. }
    destruct lg as [? ?|?|?|? [[[id kd] tcp]|] ? ?]; try (apply P0; exact H).
    destruct (dget (y_factory s) (c, id)) as [k|] eqn:Fk; [|apply P0; exact H].
    change (y_factory s) with (y_factory (with_ctrl c x' s)) in Fk.
    set (s1 := with_ctrl c x' s) in *. clearbody s1. clear P0.
    pose proof (yi_newapp s1 g c id k Y1 Fk) as Y2.
    set (s2 := Sys _ _ _ _ _ _ _ _ _ _ _) in *.
    destruct (cb_apply (QNote tcp (id, kd, y_napp s1)) s2) as [s3 g3] eqn:E3. injection H as <- <-.
    assert (Y3 : yi s3 ((g ++ [YLApp (y_napp s1) k c id]) ++ g3)).
    { replace s3 with (fst (cb_apply (QNote tcp (id, kd, y_napp s1)) s2)) by (rewrite E3; reflexivity).
      replace g3 with (snd (cb_apply (QNote tcp (id, kd, y_napp s1)) s2)) by (rewrite E3; reflexivity).
      apply yi_cb; [exact Y2| |].
      - cbn [cb_pre]. split; [exists c, k; apply in_or_app; right; now left|]. split.
        + intros [q X]. unfold Bg in X. apply in_app_or in X as [X|[X|[]]]; [|discriminate]. apply (z_bltn _ _ Y1) in X. lia.
        + intros X. change (b_info (y_cbs s2)) with (b_info (y_cbs s1)) in X. apply (z_infon _ _ Y1) in X. lia.
      - intros a [<-|[]]. unfold s2. cbn. lia. }
    apply good_of; [now rewrite <- app_assoc in Y3|]. intros j q z [X|X]; [discriminate|].
    apply (cb_apply_noret (QNote tcp (id, kd, y_napp s1)) s2 j q z). now rewrite E3.
  - assert (B : forall e0, cb_pre (Ag g) (Bg g) e0 (y_cbs s) -> ev_app e0 = [] -> forall t h, Some (cb_apply e0 s) = Some (t, h) -> step_good t g h).
    { intros e0 P0 E0 t h X. pose proof (yi_cb e0 s g Y P0) as Z. rewrite E0 in Z. specialize (Z (fun a (X : In a []) => match X with end)).
      pose proof (cb_apply_noret e0 s) as N. destruct (cb_apply e0 s) as [t' h']. injection X as <- <-. apply good_of; assumption. }
    destruct e as [p port|port n|p b|p|id]; try discriminate H.
    + unfold dhas in H. destruct (dget (b_protos (y_cbs s)) p) eqn:D; [discriminate|]. apply (B (QMade p port)); [exact D|reflexivity|exact H].
    + apply (B (QData p b)); [exact I|reflexivity|exact H].
    + apply (B (QLost p)); [exact I|reflexivity|exact H].
  - destruct (dget (y_obs s) a) as [b|] eqn:O; injection H as <- <-; (apply good_of; [|intros ? ? ? X; cbn in X; intuition discriminate]); [|now rewrite app_nil_r].
    assert (Y1 : yi s (g ++ [YLMade a])) by (apply yi_plain; [repeat constructor|exact Y]). destruct Y1.
    split; try assumption; cbn [with_obs y_obs].
    + intros x c. rewrite dset_get. destruct (eq_dec x a) as [->|N]; [|apply z_obs0]. intros X. injection X as <-. destruct (z_obs0 a b O) as (P & _ & Q).
      split; [exact P|]. split; [|exact Q]. intros _. apply in_or_app. right. now left.
    + now apply dset_keys.
  - destruct (dget (y_calls s) k) as [[|l kd|c id kd|c id|p a| | |]|] eqn:D; try discriminate.
    + destruct (dget (y_ctrl s) c) as [x|] eqn:Dx; [|discriminate]. destruct (dget (c_fut x) id) as [[| |[i port|]]|] eqn:Df; try discriminate.
      * assert (i = id) by (eapply (proj2 (z_ctrl _ _ Y c x Dx)); eassumption). subst i. pose proof (z_fut _ _ Y k c id kd D) as R. destruct kd.
        -- pose proof (look_ok _ g k c id (yi_wait s g id Y) R) as Z. destruct (look k c id _). injection H as <- <-. exact Z.
        -- injection H as <- <-. apply good_of; [|intros ? ? ? [X|[]]; discriminate]. apply yi_plain; [repeat constructor|]. now apply yi_call.
      * injection H as <- <-. apply good_of; [|intros ? ? ? [X|[]]; discriminate]. apply yi_plain; [repeat constructor|]. now apply yi_call.
    + destruct (smem (y_woken s) k); [|discriminate]. pose proof (look_ok _ g k c id (yi_queue s g (y_wait s) (sremove (y_woken s) k) (y_notify s) Y) (z_conns _ _ Y k c id D)) as Z.
      destruct (look k c id _). injection H as <- <-. exact Z.
    + destruct (z_made _ _ Y k p a D) as [R B]. pose proof (await_made_ok s g k p a Y R B) as Z. unfold await_made in Z.
      destruct (dget (y_obs s) a) as [[|]|]; [|discriminate|]; injection H as <- <-; exact Z.
  - destruct (y_notify s) as [|n]; [discriminate|]. injection H as <- <-. apply good_of; [|intros ? ? ? []]. rewrite app_nil_r. destruct (y_wait s); now apply yi_queue.
  - destruct (dget (y_calls s) k) as [[|l kd|c id kd|c id|p a| | |]|] eqn:D; try discriminate.
    + destruct (dget (y_ctrl s) c) as [x|] eqn:Dx; [|discriminate]. destruct (dget (c_fut x) id) as [[| |]|] eqn:Df; try discriminate.
      injection H as <- <-. apply good_of; [|intros ? ? ? [X|[]]; discriminate]. apply yi_plain; [repeat constructor|]. apply yi_call; [exact I|].
      apply (yi_ctrl s g c x); auto.
      * pose proof (proj2 (z_ctrl _ _ Y c x Dx)) as F. cbn [client_step]. rewrite Df. cbn [fst]. intros j i port. cbn [c_fut]. rewrite dset_get. destruct (eq_dec j id); [discriminate|apply F].
      * cbn [client_step]. rewrite Df. cbn. lia.
    + injection H as <- <-. apply good_of; [|intros ? ? ? [X|[]]; discriminate]. apply yi_plain; [repeat constructor|]. now apply yi_call.
Qed.

(** ** frames *)
Definition same_core (s' s : sys) : Prop := y_conns s' = y_conns s /\ y_nctrl s' = y_nctrl s /\ y_ctrl s' = y_ctrl s.
Lemma built_core g s : same_core (built g s) s /\ y_calls (built g s) = y_calls s /\ y_cbs (built g s) = y_cbs s /\ y_wait (built g s) = y_wait s /\ y_woken (built g s) = y_woken s.
Proof.
  unfold built, same_core. revert s. induction g as [|x g IH]; intros s; [repeat split|]. cbn [fold_left].
  destruct x as [? ? [[? ?] ?]| | |]; destruct (IH s) as ((A & B & C) & D & E & F & G); try (repeat split; assumption).
  match goal with |- context [fold_left _ g ?t] => destruct (IH t) as ((A' & B' & C') & D' & E' & F' & G') end.
  rewrite A', B', C', D', E', F', G'. repeat split.
Qed.
Lemma cb_apply_core e s : let s' := fst (cb_apply e s) in same_core s' s /\ y_calls s' = y_calls s /\ y_cbs s' = fst (cb_step e (y_cbs s)) /\ y_wait s' = y_wait s /\ y_woken s' = y_woken s.
Proof. unfold cb_apply. destruct (cb_step e (y_cbs s)) as [b g]. cbn [fst]. exact (built_core g (with_cbs b s)). Qed.
Definition only_call (k : call) (s' s : sys) : Prop := forall j, j <> k -> dget (y_calls s') j = dget (y_calls s) j.
Lemma with_call_only k x s t : y_calls t = y_calls s -> only_call k (with_call k x t) s.
Proof. intros E j N. cbn [with_call y_calls]. rewrite dset_get. destruct (eq_dec j k); [congruence|]. now rewrite E. Qed.
Definition final (o : option cpc) : bool := match o with Some (PReturned _ _ | PServer _ _ | PRaised) => true | _ => false end.
Definition endsn (k : call) (g : list ylog) : nat := length (filter (ends k) g).
Lemma endsn_app k a b : endsn k (a ++ b) = endsn k a + endsn k b.
Proof. unfold endsn. now rewrite filter_app, app_length. Qed.
Lemma endsn_pos k g : ended k g <-> 0 < endsn k g.
Proof.
  unfold ended, endsn. split.
  - intros (x & X & E). assert (Z : In x (filter (ends k) g)) by (apply filter_In; now split). destruct (filter (ends k) g); [destruct Z|cbn; lia].
  - destruct (filter (ends k) g) as [|x r] eqn:F; [cbn; lia|]. intros _. exists x. apply filter_In. rewrite F. now left.
Qed.
Definition b2n (b : bool) : nat := if b then 1 else 0.
(** what a step does to the calls *)
Record step_calls (k : call) (s : sys) (s' : sys) (g' : list ylog) : Prop := {
  f_only : only_call k s' s;
  f_oth : forall j, j <> k -> endsn j g' = 0;
  f_own : final (dget (y_calls s) k) = false -> endsn k g' = b2n (final (dget (y_calls s') k));
  f_fin : final (dget (y_calls s) k) = true -> dget (y_calls s') k = dget (y_calls s) k /\ endsn k g' = 0
}.
Lemma sc_keep k s s' g' : y_calls s' = y_calls s -> (forall j, endsn j g' = 0) -> step_calls k s s' g'.
Proof.
  intros E N. split; auto.
  - intros j _. now rewrite E.
  - intros F. now rewrite E, F, N.
  - intros _. rewrite E. split; auto.
Qed.
Lemma sc_set k s t x g' : y_calls t = y_calls s -> final (dget (y_calls s) k) = false -> (forall j, j <> k -> endsn j g' = 0) -> endsn k g' = b2n (final (Some x)) ->
  step_calls k s (with_call k x t) g'.
Proof.
  intros E F O W. split; auto.
  - now apply with_call_only.
  - intros _. cbn [with_call y_calls]. rewrite dget_dset_same. exact W.
  - congruence.
Qed.
Lemma ends_other k j x : j <> k -> (forall i, ends i x = Nat.eqb k i) -> ends j x = false.
Proof. intros N H. rewrite H. apply Nat.eqb_neq. congruence. Qed.
Lemma endsn1 j x : endsn j [x] = b2n (ends j x).
Proof. unfold endsn. cbn. now destruct (ends j x). Qed.
Ltac e0 := intros; rewrite ?endsn1; cbn; rewrite ?Nat.eqb_refl; try reflexivity; try match goal with |- context [Nat.eqb ?a ?b] => destruct (Nat.eqb_spec a b); [congruence|reflexivity] end.
Lemma cb_endsn e s j : endsn j (snd (cb_apply e s)) = 0.
Proof.
  unfold cb_apply. destruct (cb_step e (y_cbs s)) as [b g]. cbn [snd]. clear b. induction g as [|x g IH]; [reflexivity|]. cbn [flat_map]. rewrite endsn_app, IH.
  now destruct x as [? ? [[? ?] ?]| | |].
Qed.
Lemma sc_request k kd c s t : y_calls t = y_calls s -> final (dget (y_calls s) k) = false -> step_calls k s (fst (request k kd c t)) (snd (request k kd c t)).
Proof.
  intros E F. unfold request. destruct (dget (y_ctrl t) c) as [x|]; cbn [fst snd]; [|now apply sc_keep].
  apply sc_set; [exact E|exact F|e0|e0].
Qed.
Lemma sc_await k p a s t : y_calls t = y_calls s -> final (dget (y_calls s) k) = false -> step_calls k s (fst (await_made k p a t)) (snd (await_made k p a t)).
Proof.
  intros E F. unfold await_made. destruct (dget (y_obs t) a) as [[|]|]; cbn [fst snd]; (apply sc_set; [exact E|exact F|e0|e0]).
Qed.
Lemma sc_look k c id s t : y_calls t = y_calls s -> final (dget (y_calls s) k) = false -> step_calls k s (fst (look k c id t)) (snd (look k c id t)).
Proof.
  intros E F. unfold look. destruct (spawned (y_cbs t) id) as [|p [|]].
  - apply sc_set; [exact E|exact F|e0|e0].
  - destruct (dget (b_protos (y_cbs t)) p) as [st|]; [|now apply sc_keep]. destruct (p_app st); [now apply sc_await|now apply sc_keep].
  - apply sc_set; [exact E|exact F|e0|e0].
Qed.
Lemma sc_begin k kd l s : dhas (y_calls s) k = false -> step_calls k s (fst (begin k kd l s)) (snd (begin k kd l s)).
Proof.
  intros D. assert (F : final (dget (y_calls s) k) = false) by (unfold dhas in D; now destruct (dget (y_calls s) k)).
  unfold begin. destruct (dget (y_conns s) l) as [[c|]|]; [now apply sc_request| |]; (apply sc_set; [reflexivity|exact F|e0|e0]).
Qed.
Definition ev_call (e : yevent) : call := match e with VConnect k _ | VListen k _ | VTcp k _ | VPoll k | VResume k | VTimeout k => k | _ => 0 end.
Lemma step_sc e s s' g' : y_step e s = Some (s', g') -> step_calls (ev_call e) s s' g'.
Proof.
  intros H. destruct e as [k l|k l|k ok|k|c p|e|a|k| |k]; cbn [y_step ev_call] in *.
  - destruct (dhas (y_calls s) k) eqn:D; [discriminate|]. pose proof (sc_begin k KConnect l s D) as Z. destruct (begin k KConnect l s). injection H as <- <-. exact Z.
  - destruct (dhas (y_calls s) k) eqn:D; [discriminate|]. pose proof (sc_begin k KListen l s D) as Z. destruct (begin k KListen l s). injection H as <- <-. exact Z.
  - destruct (dget (y_calls s) k) as [[l c kd| | | | | | |]|] eqn:D; try discriminate. assert (F : final (dget (y_calls s) k) = false) by now rewrite D. destruct ok.
    + match type of H with Some (request _ _ _ ?t) = _ => pose proof (sc_request k kd c s t eq_refl F) as Z; destruct (request k kd c t) end. injection H as <- <-. exact Z.
    + injection H as <- <-. apply sc_set; [reflexivity|exact F|e0|e0].
  - destruct (dget (y_calls s) k) as [[|l kd| | | | | |]|] eqn:D; try discriminate. assert (F : final (dget (y_calls s) k) = false) by now rewrite D.
    destruct (dget (y_conns s) l) as [[c|]|].
    + pose proof (sc_request k kd c s s eq_refl F) as Z; destruct (request k kd c s). injection H as <- <-. exact Z.
    + injection H as <- <-. now apply sc_keep.
    + injection H as <- <-. now apply sc_keep.
  - destruct (dget (y_ctrl s) c) as [x|]; [|discriminate]. destruct (handle p x) as [x' lg].
    assert (P0 : forall s' g', Some (with_ctrl c x' s, @nil ylog) = Some (s', g') -> step_calls 0 s s' g').
    { intros t h X. injection X as <- <-. now apply sc_keep. }
    destruct lg as [? ?|?|?|? [[[id kd] tcp]|] ? ?]; try (apply P0; exact H).
    destruct (dget (y_factory s) (c, id)) as [k|]; [|apply P0; exact H]. clear P0.
    match type of H with context [cb_apply ?e ?t] => pose proof (cb_apply_core e t) as Z; pose proof (cb_endsn e t) as W; destruct (cb_apply e t) end.
    injection H as <- <-. apply sc_keep; [exact (proj1 (proj2 Z))|]. intros j. exact (W j).
  - assert (B : forall e0 t h, Some (cb_apply e0 s) = Some (t, h) -> step_calls 0 s t h).
    { intros e0 t h X. pose proof (cb_apply_core e0 s) as Z. pose proof (cb_endsn e0 s) as W. destruct (cb_apply e0 s). injection X as <- <-. apply sc_keep; [exact (proj1 (proj2 Z))|exact W]. }
    destruct e as [p port|port n|p b|p|id]; try discriminate H; try (eapply B; exact H). destruct (dhas _ p); [discriminate|eapply B; exact H].
  - destruct (dget (y_obs s) a); injection H as <- <-; now apply sc_keep.
  - destruct (dget (y_calls s) k) as [[|l kd|c id kd|c id|p a| | |]|] eqn:D; try discriminate; assert (F : final (dget (y_calls s) k) = false) by now rewrite D.
    + destruct (dget (y_ctrl s) c) as [x|]; [|discriminate]. destruct (dget (c_fut x) id) as [[| |[i port|]]|]; try discriminate.
      * destruct kd.
        -- match type of H with Some (look _ _ _ ?t) = _ => pose proof (sc_look k c i s t eq_refl F) as Z; destruct (look k c i t) end. injection H as <- <-. exact Z.
        -- injection H as <- <-. apply sc_set; [reflexivity|exact F|e0|e0].
      * injection H as <- <-. apply sc_set; [reflexivity|exact F|e0|e0].
    + destruct (smem (y_woken s) k); [|discriminate].
      match type of H with Some (look _ _ _ ?t) = _ => pose proof (sc_look k c id s t eq_refl F) as Z; destruct (look k c id t) end. injection H as <- <-. exact Z.
    + destruct (dget (y_obs s) a) as [[|]|]; [|discriminate|]; injection H as <- <-; (apply sc_set; [reflexivity|exact F|e0|e0]).
  - destruct (y_notify s); [discriminate|]. injection H as <- <-. apply sc_keep; [now destruct (y_wait s)|reflexivity].
  - destruct (dget (y_calls s) k) as [[|l kd|c id kd|c id|p a| | |]|] eqn:D; try discriminate; assert (F : final (dget (y_calls s) k) = false) by now rewrite D.
    + destruct (dget (y_ctrl s) c) as [x|]; [|discriminate]. destruct (dget (c_fut x) id) as [[| |]|]; try discriminate.
      injection H as <- <-. apply sc_set; [reflexivity|exact F|e0|e0].
    + injection H as <- <-. apply sc_set; [reflexivity|exact F|e0|e0].
Qed.

(** what a step does to the control connections *)
Inductive core_change (e : yevent) (s s' : sys) (g' : list ylog) : Prop :=
| CCkeep : y_conns s' = y_conns s -> tcps g' = [] -> core_change e s s' g'
| CCtcp k kd l : e = match kd with KConnect => VConnect k l | KListen => VListen k l end -> dget (y_conns s) l = None ->
    y_conns s' = match kd with KConnect => dset (y_conns s) l None | KListen => y_conns s end -> g' = [YLTcp k l] ->
    dget (y_calls s') k = Some (PTcp l (y_nctrl s) kd) -> core_change e s s' g'
| CCup k l c kd : e = VTcp k true -> dget (y_calls s) k = Some (PTcp l c kd) -> y_conns s' = dset (y_conns s) l (Some c) -> dget (y_ctrl s') c <> None -> tcps g' = [] -> core_change e s s' g'.
Definition ctrl_grow (s s' : sys) : Prop := forall c, dget (y_ctrl s) c <> None -> dget (y_ctrl s') c <> None.
Lemma grow_set s t c x : y_ctrl t = dset (y_ctrl s) c x -> ctrl_grow s t.
Proof. intros E d. rewrite E, dset_get. destruct (eq_dec d c); [discriminate|auto]. Qed.
Lemma request_core k kd c s : let s' := fst (request k kd c s) in y_conns s' = y_conns s /\ ctrl_grow s s' /\ tcps (snd (request k kd c s)) = [] /\ y_cbs s' = y_cbs s /\ y_wait s' = y_wait s /\ y_woken s' = y_woken s /\ y_notify s' = y_notify s.
Proof. unfold request. destruct (dget (y_ctrl s) c) eqn:D; cbn; repeat split; auto; [eapply grow_set; reflexivity|intros d X; exact X]. Qed.
Lemma await_core k p a s : let s' := fst (await_made k p a s) in y_conns s' = y_conns s /\ y_ctrl s' = y_ctrl s /\ tcps (snd (await_made k p a s)) = [] /\ y_cbs s' = y_cbs s /\ y_wait s' = y_wait s /\ y_woken s' = y_woken s /\ y_notify s' = y_notify s.
Proof. unfold await_made. destruct (dget (y_obs s) a) as [[|]|]; repeat split. Qed.
Lemma look_core k c id s : let s' := fst (look k c id s) in y_conns s' = y_conns s /\ y_ctrl s' = y_ctrl s /\ tcps (snd (look k c id s)) = [].
Proof.
  unfold look. destruct (spawned (y_cbs s) id) as [|p [|]]; try (repeat split; fail). destruct (dget (b_protos (y_cbs s)) p) as [st|]; [|repeat split].
  destruct (p_app st) as [a|]; [|repeat split]. destruct (await_core k p a s) as (A & B & C & _). auto.
Qed.
Lemma cb_tcps e s : tcps (snd (cb_apply e s)) = [].
Proof.
  unfold cb_apply. destruct (cb_step e (y_cbs s)) as [b g]. cbn [snd]. clear b. induction g as [|x g IH]; [reflexivity|]. cbn [flat_map]. rewrite tcps_app, IH.
  now destruct x as [? ? [[? ?] ?]| | |].
Qed.
Lemma begin_core k kd l s : let s' := fst (begin k kd l s) in ctrl_grow s s' /\ core_change (match kd with KConnect => VConnect k l | KListen => VListen k l end) s s' (snd (begin k kd l s)).
Proof.
  unfold begin. destruct (dget (y_conns s) l) as [[c|]|] eqn:E; cbn zeta.
  - destruct (request_core k kd c s) as (A & B & C & _). split; [exact B|]. now apply CCkeep.
  - split; [intros d X; exact X|]. now apply CCkeep.
  - split; [intros d X; exact X|]. eapply (CCtcp _ _ _ _ k kd l); auto. cbn. apply dget_dset_same.
Qed.
Lemma step_core e s s' g' : y_step e s = Some (s', g') -> ctrl_grow s s' /\ core_change e s s' g'.
Proof.
  intros H. destruct e as [k l|k l|k ok|k|c p|e|a|k| |k]; cbn [y_step] in *.
  - destruct (dhas (y_calls s) k) eqn:D; [discriminate|]. pose proof (begin_core k KConnect l s) as Z. destruct (begin k KConnect l s). injection H as <- <-. exact Z.
  - destruct (dhas (y_calls s) k) eqn:D; [discriminate|]. pose proof (begin_core k KListen l s) as Z. destruct (begin k KListen l s). injection H as <- <-. exact Z.
  - destruct (dget (y_calls s) k) as [[l c kd| | | | | | |]|] eqn:D; try discriminate. destruct ok.
    + match type of H with Some (request _ _ _ ?t) = _ => set (t0 := t) in *; pose proof (request_core k kd c t0) as Z; destruct (request k kd c t0) end. injection H as <- <-.
      destruct Z as (A & B & C & _). assert (G : ctrl_grow s t0) by (eapply grow_set; reflexivity).
      split; [intros d X; apply B, G, X|]. apply (CCup _ _ _ _ k l c kd); auto. apply B. unfold t0. cbn. rewrite dget_dset_same. discriminate.
    + injection H as <- <-. split; [intros d X; exact X|]. now apply CCkeep.
  - destruct (dget (y_calls s) k) as [[|l kd| | | | | |]|] eqn:D; try discriminate.
    destruct (dget (y_conns s) l) as [[c|]|].
    + pose proof (request_core k kd c s) as Z; destruct (request k kd c s). injection H as <- <-. destruct Z as (A & B & C & _). split; [exact B|]. now apply CCkeep.
    + injection H as <- <-. split; [intros d X; exact X|]. now apply CCkeep.
    + injection H as <- <-. split; [intros d X; exact X|]. now apply CCkeep.
  - destruct (dget (y_ctrl s) c) as [x|]; [|discriminate]. destruct (handle p x) as [x' lg].
    assert (G : ctrl_grow s (with_ctrl c x' s)) by (eapply grow_set; reflexivity).
    assert (P0 : forall s' g', Some (with_ctrl c x' s, @nil ylog) = Some (s', g') -> ctrl_grow s s' /\ core_change (VPkt c p) s s' g').
    { intros t h X. injection X as <- <-. split; [exact G|]. now apply CCkeep. }
    destruct lg as [? ?|?|?|? [[[id kd] tcp]|] ? ?]; try (apply P0; exact H).
    destruct (dget (y_factory s) (c, id)) as [k|]; [|apply P0; exact H]. clear P0.
    match type of H with context [cb_apply ?e ?t] => pose proof (cb_apply_core e t) as Z; pose proof (cb_tcps e t) as W; destruct (cb_apply e t) end.
    cbn [fst snd] in *. injection H as <- <-. destruct Z as ((A & _ & C) & _). split; [intros d X; rewrite C; exact (G d X)|]. apply CCkeep; [rewrite A; reflexivity|exact W].
  - assert (B : forall e0 t h, Some (cb_apply e0 s) = Some (t, h) -> ctrl_grow s t /\ core_change (VCb e) s t h).
    { intros e0 t h X. pose proof (cb_apply_core e0 s) as Z. pose proof (cb_tcps e0 s) as W. destruct (cb_apply e0 s). cbn [fst snd] in *. injection X as <- <-. destruct Z as ((A & _ & C) & _).
      split; [intros d X; rewrite C; exact X|]. now apply CCkeep. }
    destruct e as [p port|port n|p b|p|id]; try discriminate H; try (eapply B; exact H). destruct (dhas _ p); [discriminate|eapply B; exact H].
  - destruct (dget (y_obs s) a); injection H as <- <-; (split; [intros d X; exact X|]; now apply CCkeep).
  - destruct (dget (y_calls s) k) as [[|l kd|c id kd|c id|p a| | |]|] eqn:D; try discriminate.
    + destruct (dget (y_ctrl s) c) as [x|]; [|discriminate]. destruct (dget (c_fut x) id) as [[| |[i port|]]|]; try discriminate.
      * destruct kd.
        -- match type of H with Some (look _ _ _ ?t) = _ => pose proof (look_core k c i t) as Z; destruct (look k c i t) end. injection H as <- <-. cbn [fst snd] in *. destruct Z as (A & B & C). split; [intros d X; rewrite B; exact X|]. now apply CCkeep.
        -- injection H as <- <-. split; [intros d X; exact X|]. now apply CCkeep.
      * injection H as <- <-. split; [intros d X; exact X|]. now apply CCkeep.
    + destruct (smem (y_woken s) k); [|discriminate].
      match type of H with Some (look _ _ _ ?t) = _ => pose proof (look_core k c id t) as Z; destruct (look k c id t) end. injection H as <- <-. cbn [fst snd] in *. destruct Z as (A & B & C). split; [intros d X; rewrite B; exact X|]. now apply CCkeep.
    + destruct (dget (y_obs s) a) as [[|]|]; [|discriminate|]; injection H as <- <-; (split; [intros d X; exact X|]; now apply CCkeep).
  - destruct (y_notify s); [discriminate|]. injection H as <- <-. split; [intros d X; destruct (y_wait s); exact X|]. apply CCkeep; [now destruct (y_wait s)|reflexivity].
  - destruct (dget (y_calls s) k) as [[|l kd|c id kd|c id|p a| | |]|] eqn:D; try discriminate.
    + destruct (dget (y_ctrl s) c) as [x|]; [|discriminate]. destruct (dget (c_fut x) id) as [[| |]|]; try discriminate.
      injection H as <- <-. split; [eapply grow_set; reflexivity|]. now apply CCkeep.
    + injection H as <- <-. split; [intros d X; exact X|]. now apply CCkeep.
Qed.
Lemma step_conns e s s' g' : conns_ok s -> y_step e s = Some (s', g') -> conns_ok s'.
Proof.
  intros C H l c. destruct (step_core e s s' g' H) as [G [A _|k kd m _ N A _ _|k m d kd _ _ A D _]].
  - rewrite A. intros X. apply G. exact (C l c X).
  - rewrite A. destruct kd; [|intros X; apply G; exact (C l c X)]. rewrite dset_get. destruct (eq_dec l m); [discriminate|]. intros X. apply G. exact (C l c X).
  - rewrite A, dset_get. destruct (eq_dec l m); [|intros X; apply G; exact (C l c X)]. intros X. injection X as <-. exact D.
Qed.

(** ** runs *)
Lemma run_app a b s : y_run (a ++ b) s = match y_run a s with None => None | Some (s1, g1) => match y_run b s1 with None => None | Some (s2, g2) => Some (s2, g1 ++ g2) end end.
Proof.
  revert s. induction a as [|e a IH]; intros s; cbn [Datatypes.app y_run]; [destruct (y_run b s) as [[? ?]|]; reflexivity|].
  destruct (y_step e s) as [[s1 g1]|]; [|reflexivity]. rewrite IH. destruct (y_run a s1) as [[s2 g2]|]; [|reflexivity]. destruct (y_run b s2) as [[s3 g3]|]; [|reflexivity]. now rewrite app_assoc.
Qed.
Lemma run_snoc a e s s' g' : y_run (a ++ [e]) s = Some (s', g') -> exists s1 g1 g2, y_run a s = Some (s1, g1) /\ y_step e s1 = Some (s', g2) /\ g' = g1 ++ g2.
Proof.
  rewrite run_app. destruct (y_run a s) as [[s1 g1]|]; [|discriminate]. cbn [y_run]. destruct (y_step e s1) as [[s2 g2]|] eqn:E; [|discriminate].
  intros X. injection X as <- <-. exists s1, g1, g2. rewrite app_nil_r. auto.
Qed.
Lemma yi_new : yi sys_new [].
Proof.
  split; cbn; try discriminate; try contradiction; try (intros; contradiction).
  - split; cbn; try discriminate; try contradiction; try (intros; contradiction); try constructor. 
  - constructor.
  - reflexivity.
Qed.
Lemma run_inv es s g : y_run es sys_new = Some (s, g) -> yi s g /\ conns_ok s.
Proof.
  revert s g. induction es as [|e es IH] using rev_ind; intros s g H.
  - injection H as <- <-. split; [exact yi_new|intros l c X; discriminate X].
  - apply run_snoc in H as (s1 & g1 & g2 & A & B & ->). destruct (IH _ _ A) as [Y C]. split; [exact (proj1 (step_ok e s1 g1 s g2 Y C B))|exact (step_conns _ _ _ _ C B)].
Qed.
Lemma run_count es s g k : y_run es sys_new = Some (s, g) -> endsn k g = b2n (final (dget (y_calls s) k)).
Proof.
  revert s g. induction es as [|e es IH] using rev_ind; intros s g H; [injection H as <- <-; reflexivity|].
  apply run_snoc in H as (s1 & g1 & g2 & A & B & ->). rewrite endsn_app, (IH _ _ A). destruct (step_sc e s1 s g2 B) as [O W F T].
  destruct (eq_dec k (ev_call e)) as [->|N]; [|rewrite (O k N), (W k N); apply Nat.add_0_r].
  destruct (final (dget (y_calls s1) (ev_call e))) eqn:X; [destruct (T eq_refl) as [U V]; rewrite U, V, X; reflexivity|now rewrite (F eq_refl)].
Qed.

(** ** how a call moves *)
Definition pc_next (e : yevent) (s : sys) (k : call) (old : option cpc) (new : cpc) : Prop :=
  match old with
  | None => exists l kd, e = (match kd with KConnect => VConnect k l | KListen => VListen k l end) /\
      match dget (y_conns s) l with
      | None => new = PTcp l (y_nctrl s) kd
      | Some None => new = PSleep l kd
      | Some (Some c) => exists id, new = PFuture c id kd
      end
  | Some (PTcp l c kd) => (e = VTcp k true /\ exists id, new = PFuture c id kd) \/ (e = VTcp k false /\ new = PRaised)
  | Some (PSleep l kd) => exists c id, dget (y_conns s) l = Some (Some c) /\ new = PFuture c id kd
  | Some (PFuture c id kd) =>
      new = PRaised \/ match kd with KListen => exists i, new = PServer c i | KConnect => (exists i, new = PConns c i) \/ (exists p a, new = PMade p a \/ new = PReturned p a) end
  | Some (PConns c id) => new = PRaised \/ new = PConns c id \/ (exists p a, new = PMade p a \/ new = PReturned p a)
  | Some (PMade p a) => new = PRaised \/ new = PReturned p a
  | _ => False
  end.
Definition moved (e : yevent) (s s' : sys) : Prop :=
  let k := ev_call e in dget (y_calls s') k = dget (y_calls s) k \/ exists x, dget (y_calls s') k = Some x /\ pc_next e s k (dget (y_calls s) k) x.
Lemma wc_get k x s : dget (y_calls (with_call k x s)) k = Some x.
Proof. apply dget_dset_same. Qed.
Lemma request_pc k kd c s : let s' := fst (request k kd c s) in y_calls s' = y_calls s \/ exists id, dget (y_calls s') k = Some (PFuture c id kd).
Proof. unfold request. destruct (dget (y_ctrl s) c); [right|now left]. eexists. apply wc_get. Qed.
Lemma await_pc k p a s : let s' := fst (await_made k p a s) in exists x, dget (y_calls s') k = Some x /\ (x = PRaised \/ x = PMade p a \/ x = PReturned p a).
Proof. unfold await_made. destruct (dget (y_obs s) a) as [[|]|]; (eexists; split; [apply wc_get|auto]). Qed.
Lemma look_pc k c id s : let s' := fst (look k c id s) in y_calls s' = y_calls s \/ exists x, dget (y_calls s') k = Some x /\ (x = PRaised \/ x = PConns c id \/ exists p a, x = PMade p a \/ x = PReturned p a).
Proof.
  unfold look. destruct (spawned (y_cbs s) id) as [|p [|]].
  - right. eexists. split; [apply wc_get|auto].
  - destruct (dget (b_protos (y_cbs s)) p) as [st|]; [|now left]. destruct (p_app st) as [a|]; [|now left]. right.
    destruct (await_pc k p a s) as (x & X & Y). exists x. split; [exact X|]. destruct Y as [-> | [-> | ->]]; eauto 7.
  - right. eexists. split; [apply wc_get|auto].
Qed.
Lemma begin_pc k kd l s : dhas (y_calls s) k = false -> moved (match kd with KConnect => VConnect k l | KListen => VListen k l end) s (fst (begin k kd l s)).
Proof.
  intros D. unfold dhas in D. destruct (dget (y_calls s) k) eqn:G; [discriminate|].
  assert (E : ev_call (match kd with KConnect => VConnect k l | KListen => VListen k l end) = k) by now destruct kd.
  unfold moved. rewrite E, G. unfold begin. destruct (dget (y_conns s) l) as [[c|]|] eqn:C.
  - destruct (request_pc k kd c s) as [A|[id A]]; [left; cbn zeta in A; now rewrite A|right]. exists (PFuture c id kd). split; [exact A|]. exists l, kd. split; [reflexivity|]. rewrite C. eauto.
  - right. eexists. split; [apply wc_get|]. exists l, kd. split; [reflexivity|]. now rewrite C.
  - right. eexists. split; [apply wc_get|]. exists l, kd. split; [reflexivity|]. now rewrite C.
Qed.
Lemma step_pc e s s' g' : y_step e s = Some (s', g') -> moved e s s'.
Proof.
  intros H. destruct e as [k l|k l|k ok|k|c p|e|a|k| |k]; cbn [y_step] in *.
  - destruct (dhas (y_calls s) k) eqn:D; [discriminate|]. pose proof (begin_pc k KConnect l s D) as Z. destruct (begin k KConnect l s). injection H as <- <-. exact Z.
  - destruct (dhas (y_calls s) k) eqn:D; [discriminate|]. pose proof (begin_pc k KListen l s D) as Z. destruct (begin k KListen l s). injection H as <- <-. exact Z.
  - unfold moved. cbn [ev_call]. destruct (dget (y_calls s) k) as [[l c kd| | | | | | |]|] eqn:D; try discriminate. destruct ok.
    + match type of H with Some (request _ _ _ ?t) = _ => pose proof (request_pc k kd c t) as Z; destruct (request k kd c t) end. injection H as <- <-. cbn [fst] in Z.
      destruct Z as [Z|[id Z]]; [left; rewrite Z; exact D|right]. eexists. split; [exact Z|]. left. eauto.
    + injection H as <- <-. right. eexists. split; [apply wc_get|]. right. auto.
  - unfold moved. cbn [ev_call]. destruct (dget (y_calls s) k) as [[|l kd| | | | | |]|] eqn:D; try discriminate.
    destruct (dget (y_conns s) l) as [[c|]|] eqn:C.
    + pose proof (request_pc k kd c s) as Z; destruct (request k kd c s). injection H as <- <-. cbn [fst] in Z.
      destruct Z as [Z|[id Z]]; [left; rewrite Z; exact D|right]. eexists. split; [exact Z|]. cbn. eauto.
    + injection H as <- <-. now left.
    + injection H as <- <-. now left.
  - left. destruct (dget (y_ctrl s) c) as [x|]; [|discriminate]. destruct (handle p x) as [x' lg].
    assert (P0 : forall s' g', Some (with_ctrl c x' s, @nil ylog) = Some (s', g') -> dget (y_calls s') 0 = dget (y_calls s) 0) by (intros t h X; injection X as <- <-; reflexivity).
    destruct lg as [? ?|?|?|? [[[id kd] tcp]|] ? ?]; try (eapply P0; exact H).
    destruct (dget (y_factory s) (c, id)) as [k|]; [|eapply P0; exact H]. clear P0.
    match type of H with context [cb_apply ?e ?t] => pose proof (cb_apply_core e t) as Z; destruct (cb_apply e t) end.
    cbn [fst] in *. injection H as <- <-. destruct Z as (_ & Z & _). now rewrite Z.
  - left. assert (B : forall e0 t h, Some (cb_apply e0 s) = Some (t, h) -> dget (y_calls t) 0 = dget (y_calls s) 0).
    { intros e0 t h X. pose proof (cb_apply_core e0 s) as Z. destruct (cb_apply e0 s). cbn [fst] in *. injection X as <- <-. destruct Z as (_ & Z & _). now rewrite Z. }
    destruct e as [p port|port n|p b|p|id]; try discriminate H; try (eapply B; exact H). destruct (dhas _ p); [discriminate|eapply B; exact H].
  - left. destruct (dget (y_obs s) a); injection H as <- <-; reflexivity.
  - unfold moved. cbn [ev_call]. destruct (dget (y_calls s) k) as [[|l kd|c id kd|c id|p a| | |]|] eqn:D; try discriminate.
    + destruct (dget (y_ctrl s) c) as [x|]; [|discriminate]. destruct (dget (c_fut x) id) as [[| |[i port|]]|]; try discriminate.
      * destruct kd.
        -- match type of H with Some (look _ _ _ ?t) = _ => pose proof (look_pc k c i t) as Z; destruct (look k c i t) end. injection H as <- <-. cbn [fst] in Z.
           destruct Z as [Z|(y & Z & W)]; [left; rewrite Z; exact D|right]. exists y. split; [exact Z|]. cbn. destruct W as [W|[W|W]]; eauto.
        -- injection H as <- <-. right. eexists. split; [apply wc_get|]. cbn. eauto.
      * injection H as <- <-. right. eexists. split; [apply wc_get|]. cbn. eauto.
    + destruct (smem (y_woken s) k); [|discriminate].
      match type of H with Some (look _ _ _ ?t) = _ => pose proof (look_pc k c id t) as Z; destruct (look k c id t) end. injection H as <- <-. cbn [fst] in *.
      destruct Z as [Z|(y & Z & W)]; [left; rewrite Z; exact D|right]. exists y. split; [exact Z|]. exact W.
    + destruct (dget (y_obs s) a) as [[|]|]; [|discriminate|]; injection H as <- <-; right; (eexists; split; [apply wc_get|cbn; auto]).
  - left. destruct (y_notify s); [discriminate|]. injection H as <- <-. now destruct (y_wait s).
  - unfold moved. cbn [ev_call]. destruct (dget (y_calls s) k) as [[|l kd|c id kd|c id|p a| | |]|] eqn:D; try discriminate.
    + destruct (dget (y_ctrl s) c) as [x|]; [|discriminate]. destruct (dget (c_fut x) id) as [[| |]|]; try discriminate.
      injection H as <- <-. right. eexists. split; [apply wc_get|cbn; auto].
    + injection H as <- <-. right. eexists. split; [apply wc_get|cbn; auto].
Qed.

(** what the log of a step says about the state before it *)
Definition log_ok (e : yevent) (s : sys) (x : ylog) : Prop :=
  match x with
  | YLRaise k YTcp => e = VTcp k false /\ exists l c kd, dget (y_calls s) k = Some (PTcp l c kd)
  | YLServer k c i => exists x id port, dget (y_calls s) k = Some (PFuture c id KListen) /\ dget (y_ctrl s) c = Some x /\ dget (c_fut x) id = Some (FDone (OResult i port))
  | YLMade a => e = VMade a /\ dget (y_obs s) a <> None
  | _ => True
  end.
Lemma request_log k kd c s e t x : In x (snd (request k kd c s)) -> log_ok e t x.
Proof. unfold request. destruct (dget (y_ctrl s) c); [intros [<-|[]]; exact I|intros []]. Qed.
Lemma await_log k p a s e t x : In x (snd (await_made k p a s)) -> log_ok e t x.
Proof. unfold await_made. destruct (dget (y_obs s) a) as [[|]|]; [intros [<-|[]]; exact I|intros []|intros [<-|[]]; exact I]. Qed.
Lemma look_log k c id s e t x : In x (snd (look k c id s)) -> log_ok e t x.
Proof.
  unfold look. destruct (spawned (y_cbs s) id) as [|p [|]]; [intros []| |intros [<-|[]]; exact I].
  destruct (dget (b_protos (y_cbs s)) p) as [st|]; [|intros []]. destruct (p_app st) as [a|]; [|intros []]. apply await_log.
Qed.
Lemma cb_log e0 s e t x : In x (snd (cb_apply e0 s)) -> log_ok e t x.
Proof.
  unfold cb_apply. destruct (cb_step e0 (y_cbs s)) as [b g]. cbn [snd]. intros X. apply in_flat_map in X as (y & _ & X).
  destruct y as [? ? [[? ?] ?]| | |]; [destruct X as [<-|[]]; exact I|destruct X..].
Qed.
Lemma begin_log k kd l s e t x : In x (snd (begin k kd l s)) -> log_ok e t x.
Proof. unfold begin. destruct (dget (y_conns s) l) as [[c|]|]; [apply request_log|intros []|intros [<-|[]]; exact I]. Qed.
Lemma step_log e s s' g' x : y_step e s = Some (s', g') -> In x g' -> log_ok e s x.
Proof.
  intros H X. destruct e as [k l|k l|k ok|k|c p|e|a|k| |k]; cbn [y_step] in *.
  - destruct (dhas (y_calls s) k) eqn:D; [discriminate|]. pose proof (begin_log k KConnect l s) as Z. destruct (begin k KConnect l s). injection H as <- <-. eapply Z; exact X.
  - destruct (dhas (y_calls s) k) eqn:D; [discriminate|]. pose proof (begin_log k KListen l s) as Z. destruct (begin k KListen l s). injection H as <- <-. eapply Z; exact X.
  - destruct (dget (y_calls s) k) as [[l c kd| | | | | | |]|] eqn:D; try discriminate. destruct ok.
    + match type of H with Some (request _ _ _ ?t) = _ => pose proof (request_log k kd c t) as Z; destruct (request k kd c t) end. injection H as <- <-. eapply Z; exact X.
    + injection H as <- <-. destruct X as [<-|[]]. cbn. eauto.
  - destruct (dget (y_calls s) k) as [[|l kd| | | | | |]|] eqn:D; try discriminate.
    destruct (dget (y_conns s) l) as [[c|]|] eqn:C.
    + pose proof (request_log k kd c s) as Z; destruct (request k kd c s). injection H as <- <-. eapply Z; exact X.
    + injection H as <- <-. destruct X.
    + injection H as <- <-. destruct X.
  - destruct (dget (y_ctrl s) c) as [y|]; [|discriminate]. destruct (handle p y) as [x' lg].
    assert (P0 : forall s' g', Some (with_ctrl c x' s, @nil ylog) = Some (s', g') -> In x g' -> log_ok (VPkt c p) s x) by (intros t h Z; injection Z as <- <-; intros []).
    destruct lg as [? ?|?|?|? [[[id kd] tcp]|] ? ?]; try (eapply P0; eassumption).
    destruct (dget (y_factory s) (c, id)) as [k|]; [|eapply P0; eassumption]. clear P0.
    match type of H with context [cb_apply ?e ?t] => pose proof (cb_log e t) as Z; destruct (cb_apply e t) end.
    injection H as <- <-. destruct X as [<-|X]; [exact I|]. eapply Z; exact X.
  - assert (B : forall e0 t h, Some (cb_apply e0 s) = Some (t, h) -> In x h -> log_ok (VCb e) s x).
    { intros e0 t h Y W. pose proof (cb_log e0 s) as Z. destruct (cb_apply e0 s). injection Y as <- <-. eapply Z; exact W. }
    destruct e as [p port|port n|p b|p|id]; try discriminate H; try (eapply B; eassumption). destruct (dhas _ p); [discriminate|eapply B; eassumption].
  - destruct (dget (y_obs s) a) eqn:O; injection H as <- <-; [|destruct X]. destruct X as [<-|[]]. split; [reflexivity|]. rewrite O. discriminate.
  - destruct (dget (y_calls s) k) as [[|l kd|c id kd|c id|p a| | |]|] eqn:D; try discriminate.
    + destruct (dget (y_ctrl s) c) as [y|] eqn:C; [|discriminate]. destruct (dget (c_fut y) id) as [[| |[i port|]]|] eqn:F; try discriminate.
      * destruct kd.
        -- match type of H with Some (look _ _ _ ?t) = _ => pose proof (look_log k c i t) as Z; destruct (look k c i t) end. injection H as <- <-. eapply Z; exact X.
        -- injection H as <- <-. destruct X as [<-|[]]. exists y, id, port. auto.
      * injection H as <- <-. destruct X as [<-|[]]. exact I.
    + destruct (smem (y_woken s) k); [|discriminate].
      match type of H with Some (look _ _ _ ?t) = _ => pose proof (look_log k c id t) as Z; destruct (look k c id t) end. injection H as <- <-. eapply Z; exact X.
    + destruct (dget (y_obs s) a) as [[|]|]; [|discriminate|]; injection H as <- <-; destruct X as [<-|[]]; exact I.
  - destruct (y_notify s); [discriminate|]. injection H as <- <-. destruct X.
  - destruct (dget (y_calls s) k) as [[|l kd|c id kd|c id|p a| | |]|] eqn:D; try discriminate.
    + destruct (dget (y_ctrl s) c) as [y|]; [|discriminate]. destruct (dget (c_fut y) id) as [[| |]|]; try discriminate.
      injection H as <- <-. destruct X as [<-|[]]; exact I.
    + injection H as <- <-. destruct X as [<-|[]]; exact I.
Qed.
