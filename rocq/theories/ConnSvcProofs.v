(** * Proofs about the connector service *)
From Coq Require Import List ZArith Bool Lia Arith String.
From Verif Require Import PyBase PyLemmas ConnSvcModel ConnSvcSpec.
Import ListNotations.
Open Scope nat_scope.

(** ** Plain modules *)
Section Plain.
  Variable rec : bool -> svc -> option (outcome * svc).

  Lemma body_plain l : (forall a, In a l -> plain_action a) -> forall s, v_auto s = true ->
    exists o c, body rec l s = Some (o, with_conns c s) /\ o <> OExit /\
      forall n, dget c n = match set_by n l with Some x => Some x | None => dget (v_conns s) n end.
  Proof.
    induction l as [|a l IH]; intros P s A.
    - exists ONorm, (v_conns s). repeat split; [now destruct s|discriminate].
    - pose proof (P a (or_introl eq_refl)) as Pa. destruct a; cbn in Pa; try contradiction.
      + cbn [body act set_by]. unfold set_connector. rewrite A.
        destruct (IH (fun a h => P a (or_intror h)) (with_conns (dset (v_conns s) n c) s) A) as (o & c' & E & N & G).
        exists o, c'. rewrite E. split; [reflexivity|]. split; [exact N|]. intro k. rewrite G. destruct (set_by k l); [reflexivity|].
        cbn [v_conns with_conns]. rewrite dget_dset. destruct (eq_dec k n) as [X|X], (eq_dec n k) as [Y|Y]; try reflexivity; congruence.
      + exists OExc, (v_conns s). repeat split; [now destruct s|discriminate].
  Qed.

  (** What loading leaves alone *)
  Definition same (s t : svc) : Prop :=
    v_defaults t = v_defaults s /\ v_loaded t = v_loaded s /\ v_auto t = v_auto s /\ v_reloading t = v_reloading s /\ v_path t = v_path s.

  Lemma load_module_plain m l s : (forall a, In a l -> plain_action a) -> v_auto s = true -> v_reloading s = [] ->
    exists o t, load_module rec m l s = Some (o, t) /\ o <> OExit /\ same s t /\ v_ran t = v_ran s ++ [m] /\
      forall n, dget (v_conns t) n = match set_by n l with Some x => Some x | None => dget (v_conns s) n end.
  Proof.
    intros P A R. unfold load_module. rewrite R. unfold smem at 2. destruct (in_dec eq_dec m []) as [[]|_]. destruct (smem (v_mods s) m).
    - destruct (body_plain l P (with_ran m (with_reloading [m] s)) A) as (o & c & E & N & G). rewrite E. eexists _, _. split; [reflexivity|]. split; [exact N|].
      cbn [v_conns with_conns with_reloading with_ran v_reloading v_ran]. split.
      + unfold same. cbn. destruct (eq_dec m m) as [_|X]; [|congruence]. now rewrite R.
      + split; [reflexivity|exact G].
    - destruct (body_plain l P (with_ran m (with_mods (m :: v_mods s) s)) A) as (o & c & E & N & G). rewrite E.
      destruct o; [| |congruence]; (eexists _, _; split; [reflexivity|]; split; [discriminate|]; split; [unfold same; cbn; tauto|]; split; [reflexivity|exact G]).
  Qed.

  Lemma load_all_plain d : plain d -> forall s, v_auto s = true -> v_reloading s = [] ->
    exists t, load_all rec d s = Some (ONorm, t) /\ same s t /\ v_ran t = v_ran s ++ packages d /\
      forall n, dget (v_conns t) n = match provided n d with Some x => Some x | None => dget (v_conns s) n end.
  Proof.
    induction d as [|[m o] d IH]; intros P s A R.
    - exists s. cbn. rewrite app_nil_r. unfold same. tauto.
    - assert (P' : plain d) by (intros m' l a I; apply (P m' l a); now right).
      destruct o as [l|]; cbn [load_all provided packages flat_map fst snd].
      + destruct (load_module_plain m l s (fun a => P m l a (or_introl eq_refl)) A R) as (o & t & E & N & S & V & G). rewrite E.
        destruct S as (S1 & S2 & S3 & S4 & S5). rewrite A in S3. rewrite R in S4.
        destruct (IH P' t S3 S4) as (u & E' & (U1 & U2 & U3 & U4 & U5) & V' & G').
        exists u. split; [destruct o; [exact E'|exact E'|congruence]|]. split; [unfold same; repeat split; congruence|].
        split; [rewrite V', V, <- app_assoc; reflexivity|]. intro n. rewrite G'. destruct (provided n d); [reflexivity|]. apply G.
      + destruct (IH P' s A R) as (u & E' & U & V' & G'). exists u. split; [exact E'|]. split; [exact U|]. split; [exact V'|]. intro n. rewrite G'. now destruct (provided n d).
  Qed.
End Plain.

Lemma reload_plain f cfg d force s : plain d -> v_reloading s = [] -> v_loaded s && negb force = false ->
  exists t, reload (S f) cfg (Some d) force s = Some (ONorm, t) /\ v_defaults t = v_defaults s /\ v_loaded t = true /\ v_auto t = false /\ v_reloading t = [] /\
    v_ran t = v_ran s ++ packages d /\
    forall n, dget (v_conns t) n = match provided n d with Some x => Some x | None => dget (v_defaults s) n end.
Proof.
  intros P R L. cbn [reload]. rewrite L.
  set (s2 := if smem (v_path (with_conns (v_defaults s) s)) cfg then _ else _).
  assert (F : v_reloading s2 = v_reloading s /\ v_defaults s2 = v_defaults s /\ v_ran s2 = v_ran s /\ v_conns s2 = v_defaults s) by (unfold s2; destruct (smem _ _); repeat split).
  destruct F as (F1 & F2 & F3 & F4).
  assert (F1' : v_reloading (with_auto true s2) = []) by (cbn; congruence).
  destruct (load_all_plain (reload f cfg (Some d)) d P (with_auto true s2) eq_refl F1') as (t & E & (S1 & S2 & S3 & S4 & S5) & V & G).
  rewrite E. eexists. split; [reflexivity|]. cbn in *. repeat split; try congruence. intro n. rewrite G, F4. reflexivity.
Qed.

Lemma depth_pos dir : exists f, depth dir = S f.
Proof. destruct dir; cbn [depth]; [exists (2 * List.length l); lia|now exists 0]. Qed.

(** The state and the history say the same *)
Definition agrees (h : list event) (s : svc) : Prop :=
  (forall n, dget (v_defaults s) n = chosen n h) /\ (forall n, dget (v_conns s) n = in_force n h) /\
  v_loaded s = was_loaded h /\ v_auto s = false /\ v_reloading s = [] /\ v_ran s = bodies h.

Lemma agrees_new path : agrees [] (svc_new path).
Proof. repeat split; intro n; cbn; reflexivity. Qed.

Lemma agrees_load cfg dir force h s : plain_dir dir -> agrees h s ->
  exists o s1, reload (depth dir) cfg dir force s = Some (o, s1) /\
    let (ok, h1) := load_if (force || negb (was_loaded h)) dir h in agrees h1 s1 /\ o = (if ok then ONorm else OExc).
Proof.
  intros P (D & C & L & A & R & V). destruct (depth_pos dir) as [f ->]. unfold load_if. destruct (force || negb (was_loaded h)) eqn:B.
  - assert (B' : v_loaded s && negb force = false) by (rewrite L; destruct force, (was_loaded h); cbn in *; congruence).
    destruct dir as [d|].
    + destruct (reload_plain f cfg d force s P R B') as (t & E & T1 & T2 & T3 & T4 & T6 & T5). exists ONorm, t. split; [exact E|]. split; [|reflexivity].
      split; [intro n; rewrite T1; apply D|]. split; [intro n; rewrite T5; cbn [in_force]; destruct (provided n d); [reflexivity|apply D]|]. repeat split; try assumption. cbn [bodies]. now rewrite T6, V.
    + cbn [reload]. rewrite B'. eexists _, _. split; [reflexivity|]. split; [|reflexivity].
      destruct (smem _ _); (split; [intro n; apply D|]); (split; [intro n; apply D|]); repeat split; assumption.
  - assert (B' : v_loaded s && negb force = true) by (rewrite L; destruct force, (was_loaded h); cbn in *; congruence).
    cbn [reload]. rewrite B'. exists ONorm, s. repeat split; assumption.
Qed.

Lemma agrees_call cfg dir k h s : plain_dir dir -> agrees h s ->
  exists s1, do_call cfg dir k s = Some (fst (expected dir k h), s1) /\ agrees (snd (expected dir k h)) s1.
Proof.
  intros P A. destruct k as [n c|n|f]; cbn [do_call expected].
  - eexists. split; [reflexivity|]. destruct A as (D & C & L & A & R & V). unfold set_connector. rewrite A. cbn [snd].
    assert (Q : forall d k, dget (dset d n c) k = if eq_dec n k then Some c else dget d k).
    { intros d k. rewrite dget_dset. destruct (eq_dec k n), (eq_dec n k); congruence. }
    split; [intro k; cbn [v_defaults with_conns chosen]; rewrite Q, D; reflexivity|]. split; [intro k; cbn [v_conns with_conns in_force]; rewrite Q, C; reflexivity|]. repeat split; assumption.
  - destruct (agrees_load cfg dir false h s P A) as (o & s1 & E & X). cbn [orb] in X. rewrite E. destruct (load_if _ dir h) as [ok h1]. destruct X as [X ->].
    exists s1. cbn [fst snd]. split; [|exact X]. destruct ok; [|reflexivity]. now rewrite (proj1 (proj2 X)).
  - destruct (agrees_load cfg dir f h s P A) as (o & s1 & E & X). rewrite E. destruct (load_if _ dir h) as [ok h1]. destruct X as [X ->].
    exists s1. cbn [fst snd]. split; [|exact X]. now destruct ok.
Qed.

Lemma agrees_calls cfg ks : forall h s, (forall d k, In (d, k) ks -> plain_dir d) -> agrees h s ->
  exists s1, do_calls cfg ks s = Some (fst (expected_all ks h), s1) /\ agrees (snd (expected_all ks h)) s1.
Proof.
  induction ks as [|[d k] ks IH]; intros h s P A.
  - now exists s.
  - cbn [do_calls expected_all]. destruct (agrees_call cfg d k h s (P d k (or_introl eq_refl)) A) as (s1 & E & A1). rewrite E.
    destruct (expected d k h) as [a h1]. cbn [fst snd] in A1. destruct (IH h1 s1 (fun d k i => P d k (or_intror i)) A1) as (s2 & E2 & A2). rewrite E2.
    destruct (expected_all ks h1) as [l h2]. now exists s2.
Qed.

(** ** Termination, for arbitrary modules *)
Section Term.
  Variable d : listing.
  Definition weigh (s : svc) (e : modname * option script) : nat :=
    (if smem (v_reloading s) (fst e) then 0 else 1) + (if smem (v_mods s) (fst e) then 0 else 1).
  Definition weight (s : svc) : nat := list_sum (map (weigh s) d).

  (** what a body, a load or a reload does to sys.modules and _RELOADING *)
  Definition step_ok (s t : svc) : Prop := v_reloading t = v_reloading s /\ incl (v_mods s) (v_mods t).
  Lemma step_refl s : step_ok s s. Proof. split; [reflexivity|apply incl_refl]. Qed.
  Lemma step_trans s t u : step_ok s t -> step_ok t u -> step_ok s u.
  Proof. intros [A B] [C D]. split; [congruence|eapply incl_tran; eassumption]. Qed.

  Lemma smem_false {A} `{EqDec A} (l : list A) x : smem l x = false <-> ~ In x l.
  Proof. unfold smem. destruct (in_dec eq_dec x l); split; congruence. Qed.

  Lemma smem_incl (l r : list modname) x : incl l r -> smem l x = true -> smem r x = true.
  Proof. rewrite !smem_true. auto. Qed.
  Lemma weigh_le s t e : incl (v_reloading s) (v_reloading t) -> incl (v_mods s) (v_mods t) -> weigh t e <= weigh s e.
  Proof.
    intros R M. unfold weigh. pose proof (smem_incl _ _ (fst e) R). pose proof (smem_incl _ _ (fst e) M).
    destruct (smem (v_reloading s) (fst e)), (smem (v_mods s) (fst e)); try rewrite H by reflexivity; try rewrite H0 by reflexivity; try lia;
      destruct (smem _ _); try lia; destruct (smem _ _); lia.
  Qed.
  Lemma sum_le {A} (f g : A -> nat) l : (forall x, f x <= g x) -> list_sum (map f l) <= list_sum (map g l).
  Proof. intro H. induction l as [|x l IH]; [cbn; lia|]. unfold list_sum in *. cbn [map fold_right]. specialize (H x). lia. Qed.
  Lemma sum_lt {A} (f g : A -> nat) l x : (forall x, f x <= g x) -> In x l -> f x < g x -> list_sum (map f l) < list_sum (map g l).
  Proof.
    intros H I L. induction l as [|y l IH]; [destruct I|]. destruct I as [->|I].
    - pose proof (sum_le f g l H). unfold list_sum in *. cbn [map fold_right]. lia.
    - specialize (IH I). specialize (H y). unfold list_sum in *. cbn [map fold_right]. lia.
  Qed.
  Lemma weight_le s t : incl (v_reloading s) (v_reloading t) -> incl (v_mods s) (v_mods t) -> weight t <= weight s.
  Proof. intros R M. apply sum_le. intro e. now apply weigh_le. Qed.
  Lemma weight_step s t : step_ok s t -> weight t <= weight s.
  Proof. intros [A B]. apply weight_le; [rewrite A; apply incl_refl|exact B]. Qed.

  Lemma in_sremove_other {A} `{EqDec A} (l : list A) x y : In y l -> y <> x -> In y (sremove l x).
  Proof. induction l as [|z l IH]; cbn; [tauto|]. intros [E|I] N; destruct (eq_dec x z) as [X|X]; cbn; try tauto. exfalso. congruence. Qed.

  Variable f : nat.
  Variable rec : bool -> svc -> option (outcome * svc).
  Hypothesis rec_ok : forall b s, weight s < f -> exists o t, rec b s = Some (o, t) /\ step_ok s t.

  Lemma set_step n c s : step_ok s (set_connector n c s).
  Proof. unfold set_connector. destruct (v_auto s); (split; [reflexivity|apply incl_refl]). Qed.

  Lemma body_get_ok n s : weight s < f -> exists o t, body_get rec n s = Some (o, t) /\ step_ok s t.
  Proof.
    intro W. unfold body_get. destruct (rec_ok false s W) as (o & t & E & S). rewrite E.
    destruct o; [eexists _, t|exists OExc, t|exists OExit, t]; (split; [reflexivity|exact S]).
  Qed.
  Lemma act_ok a s : weight s < f -> exists o t, act rec a s = Some (o, t) /\ step_ok s t.
  Proof.
    intro W. destruct a; cbn [act].
    - eexists _, _. split; [reflexivity|apply set_step].
    - now apply body_get_ok.
    - destruct (body_get_ok n s W) as (o & t & E & S). rewrite E. destruct o; eexists _, _; (split; [reflexivity|exact S]).
    - now apply rec_ok.
    - eexists _, _. split; [reflexivity|apply step_refl].
    - eexists _, _. split; [reflexivity|apply step_refl].
  Qed.
  Lemma body_ok l : forall s, weight s < f -> exists o t, body rec l s = Some (o, t) /\ step_ok s t.
  Proof.
    induction l as [|a l IH]; intros s W; cbn [body].
    - eexists _, _. split; [reflexivity|apply step_refl].
    - destruct (act_ok a s W) as (o & t & E & S). rewrite E. destruct o; [|eexists _, _; split; [reflexivity|exact S]..].
      pose proof (weight_step _ _ S). destruct (IH t) as (o & u & E' & S'); [lia|]. exists o, u. split; [exact E'|]. eapply step_trans; eassumption.
  Qed.
  Lemma load_module_ok m l s : In (m, Some l) d -> weight s < S f -> exists o t, load_module rec m l s = Some (o, t) /\ step_ok s t.
  Proof.
    intros I W. unfold load_module. destruct (smem (v_mods s) m) eqn:M.
    - destruct (smem (v_reloading s) m) eqn:R; [eexists _, _; split; [reflexivity|apply step_refl]|].
      set (s1 := with_ran m (with_reloading (m :: v_reloading s) s)).
      assert (W1 : weight s1 < weight s).
      { apply sum_lt with (x := (m, Some l)); [|exact I|].
        - intro e. apply weigh_le; cbn; [apply incl_tl|]; apply incl_refl.
        - unfold weigh. cbn [fst]. change (v_mods s1) with (v_mods s). rewrite R. replace (smem (v_reloading s1) m) with true; [lia|]. symmetry. apply smem_true. now left. }
      destruct (body_ok l s1) as (o & t & E & [S1 S2]); [lia|]. rewrite E. eexists _, _. split; [reflexivity|]. split; cbn.
      + rewrite S1. cbn. destruct (eq_dec m m); congruence.
      + exact S2.
    - set (s1 := with_ran m (with_mods (m :: v_mods s) s)).
      assert (W1 : weight s1 < weight s).
      { apply sum_lt with (x := (m, Some l)); [|exact I|].
        - intro e. apply weigh_le; cbn; [|apply incl_tl]; apply incl_refl.
        - unfold weigh. cbn [fst]. change (v_reloading s1) with (v_reloading s). rewrite M. replace (smem (v_mods s1) m) with true; [lia|]. symmetry. apply smem_true. now left. }
      destruct (body_ok l s1) as (o & t & E & [S1 S2]); [lia|]. rewrite E. apply smem_false in M.
      destruct o; eexists _, _; (split; [reflexivity|]); split; try exact S1; cbn; intros x X.
      + apply S2. now right.
      + apply in_sremove_other; [apply S2; now right|]. intros ->. exact (M X).
      + apply in_sremove_other; [apply S2; now right|]. intros ->. exact (M X).
  Qed.
  Lemma load_all_ok r : incl r d -> forall s, weight s < S f -> exists o t, load_all rec r s = Some (o, t) /\ step_ok s t.
  Proof.
    induction r as [|[m o] r IH]; intros I s W; cbn [load_all].
    - eexists _, _. split; [reflexivity|apply step_refl].
    - assert (I' : incl r d) by (intros x X; apply I; now right). destruct o as [l|]; [|now apply IH].
      destruct (load_module_ok m l s (I _ (or_introl eq_refl)) W) as (o & t & E & S). rewrite E.
      pose proof (weight_step _ _ S). destruct (IH I' t) as (o' & u & E' & S'); [lia|].
      destruct o; [exists o', u; split; [exact E'|eapply step_trans; eassumption]..|eexists _, _; split; [reflexivity|exact S]].
  Qed.
End Term.

Lemma reload_ok cfg d f : forall force s, weight d s < f -> exists o t, reload f cfg (Some d) force s = Some (o, t) /\ step_ok s t.
Proof.
  induction f as [|f IH]; intros force s W; [lia|]. cbn [reload]. destruct (v_loaded s && negb force).
  - eexists _, _. split; [reflexivity|apply step_refl].
  - set (s2 := if smem (v_path (with_conns (v_defaults s) s)) cfg then _ else _).
    assert (S2 : step_ok s (with_auto true s2)) by (unfold s2; destruct (smem _ _); (split; [reflexivity|apply incl_refl])).
    pose proof (weight_step d _ _ S2) as W2.
    destruct (load_all_ok d f (reload f cfg (Some d)) IH d (incl_refl d) (with_auto true s2)) as (o & t & E & S); [lia|]. rewrite E.
    destruct o; eexists _, _; (split; [reflexivity|]); (eapply step_trans; [exact S2|exact S]).
Qed.

Lemma weight_depth d s : weight d s < depth (Some d).
Proof.
  cbn [depth]. unfold weight. enough (list_sum (map (weigh s) d) <= 2 * List.length d) by lia.
  induction d as [|e d IH]; [cbn; lia|]. unfold list_sum in *. cbn [map fold_right List.length]. unfold weigh at 1.
  destruct (smem _ _), (smem _ _); lia.
Qed.

Lemma reload_total cfg dir force s : exists o t, reload (depth dir) cfg dir force s = Some (o, t) /\ step_ok s t.
Proof.
  destruct dir as [d|]; [apply reload_ok, weight_depth|]. cbn [depth reload]. destruct (_ && _); eexists _, _; (split; [reflexivity|]).
  - apply step_refl.
  - destruct (smem _ _); (split; [reflexivity|apply incl_refl]).
Qed.

(** More fuel changes nothing *)
Lemma act_mono r1 r2 : (forall b s x, r1 b s = Some x -> r2 b s = Some x) -> forall a s x, act r1 a s = Some x -> act r2 a s = Some x.
Proof.
  intro H. assert (G : forall n s x, body_get r1 n s = Some x -> body_get r2 n s = Some x).
  { intros n s x E. unfold body_get in *. destruct (r1 false s) as [y|] eqn:F; [|discriminate]. now rewrite (H _ _ _ F). }
  intros [n c|n|n|b| |] s x E; cbn [act] in *; auto.
  destruct (body_get r1 n s) as [y|] eqn:F; [|discriminate]. now rewrite (G _ _ _ F).
Qed.
Lemma body_mono r1 r2 : (forall b s x, r1 b s = Some x -> r2 b s = Some x) -> forall l s x, body r1 l s = Some x -> body r2 l s = Some x.
Proof.
  intro H. induction l as [|a l IH]; intros s x E; cbn [body] in *; [exact E|].
  destruct (act r1 a s) as [[o t]|] eqn:F; [|discriminate]. rewrite (act_mono _ _ H _ _ _ F). destruct o; auto.
Qed.
Lemma load_module_mono r1 r2 : (forall b s x, r1 b s = Some x -> r2 b s = Some x) -> forall m l s x, load_module r1 m l s = Some x -> load_module r2 m l s = Some x.
Proof.
  intros H m l s x E. unfold load_module in *. destruct (smem (v_mods s) m); [destruct (smem (v_reloading s) m); [exact E|]|];
    (destruct (body r1 l _) as [[o t]|] eqn:F; [|discriminate]); rewrite (body_mono _ _ H _ _ _ F); exact E.
Qed.
Lemma load_all_mono r1 r2 : (forall b s x, r1 b s = Some x -> r2 b s = Some x) -> forall d s x, load_all r1 d s = Some x -> load_all r2 d s = Some x.
Proof.
  intro H. induction d as [|[m [l|]] d IH]; intros s x E; cbn [load_all] in *; auto.
  destruct (load_module r1 m l s) as [[o t]|] eqn:F; [|discriminate]. rewrite (load_module_mono _ _ H _ _ _ _ F). destruct o; auto.
Qed.
Lemma reload_mono cfg dir f : forall g b s x, f <= g -> reload f cfg dir b s = Some x -> reload g cfg dir b s = Some x.
Proof.
  induction f as [|f IH]; intros g b s x L E; [discriminate|]. destruct g as [|g]; [lia|]. cbn [reload] in *.
  destruct (_ && _); [exact E|]. destruct dir as [d|]; [|exact E].
  destruct (load_all (reload f cfg (Some d)) d _) as [[o t]|] eqn:F; [|discriminate].
  rewrite (load_all_mono _ (reload g cfg (Some d)) (fun b s x => IH g b s x ltac:(lia)) _ _ _ F). exact E.
Qed.

(** ** What holds of the two dictionaries and sys.path whatever the modules do *)
Section Dicts.
  Variable cfg : pystr.
  Variable I : dict pystr conn -> dict pystr conn -> list pystr -> Prop.
  Variable dir : option listing.
  Hypothesis I_reset : forall d c p, I d c p -> I d d (if smem p cfg then p else cfg :: p).
  Hypothesis I_set : forall l m b n k d c p, dir = Some l -> In (m, Some b) l -> In (ASet n k) b -> I d c p -> I d (dset c n k) p /\ I (dset d n k) (dset c n k) p.
  Definition hold (s : svc) : Prop := I (v_defaults s) (v_conns s) (v_path s).

  Lemma hold_body rec l m b : dir = Some l -> In (m, Some b) l -> (forall f s o t, rec f s = Some (o, t) -> hold s -> hold t) ->
    forall r, incl r b -> forall s o t, body rec r s = Some (o, t) -> hold s -> hold t.
  Proof.
    intros D Im R. induction r as [|a r IH]; intros Ir s o t E H; cbn [body] in E; [now injection E as <- <-|].
    assert (G : forall n o t, body_get rec n s = Some (o, t) -> hold t).
    { intros n o1 t1 X. unfold body_get in X. destruct (rec false s) as [[[] t2]|] eqn:F; [..|discriminate]; injection X as <- <-; exact (R _ _ _ _ F H). }
    assert (A : forall o t, act rec a s = Some (o, t) -> hold t).
    { intros o1 t1 X. destruct a as [n c|n|n|f| |]; cbn [act] in X.
      - injection X as <- <-. destruct (I_set l m b n c (v_defaults s) (v_conns s) (v_path s) D Im (Ir _ (or_introl eq_refl)) H). unfold set_connector. destruct (v_auto s); assumption.
      - eapply G; eassumption.
      - destruct (body_get rec n s) as [[[] t2]|] eqn:F; [..|discriminate]; injection X as <- <-; eapply G; eassumption.
      - exact (R _ _ _ _ X H).
      - now injection X as <- <-.
      - now injection X as <- <-. }
    destruct (act rec a s) as [[[] t1]|] eqn:F; [|injection E as <- <-; now eapply A..|discriminate].
    apply (IH (fun x i => Ir x (or_intror i)) _ _ _ E). now apply (A ONorm).
  Qed.

  Lemma hold_load_all rec l : dir = Some l -> (forall f s o t, rec f s = Some (o, t) -> hold s -> hold t) ->
    forall r, incl r l -> forall s o t, load_all rec r s = Some (o, t) -> hold s -> hold t.
  Proof.
    intros D R. induction r as [|[m [b|]] r IH]; intros Ir s o t E H; cbn [load_all] in E; [now injection E as <- <-| |].
    2:{ eapply IH; [|exact E|exact H]. intros x X. apply Ir. now right. }
    assert (Im : In (m, Some b) l) by (apply Ir; now left).
    assert (M : forall o t, load_module rec m b s = Some (o, t) -> hold t).
    { intros o1 t1 X. unfold load_module in X. destruct (smem (v_mods s) m); [destruct (smem (v_reloading s) m); [now injection X as <- <-|]|].
      - destruct (body rec b _) as [[o2 t2]|] eqn:F; [|discriminate]. injection X as <- <-. exact (hold_body rec l m b D Im R b (incl_refl b) _ _ _ F H).
      - destruct (body rec b _) as [[[] t2]|] eqn:F; [..|discriminate]; injection X as <- <-; exact (hold_body rec l m b D Im R b (incl_refl b) _ _ _ F H). }
    destruct (load_module rec m b s) as [[[] t1]|] eqn:F; [..|discriminate].
    1,2: apply (IH (fun x i => Ir x (or_intror i)) _ _ _ E); eapply M; reflexivity.
    injection E as <- <-. eapply M; reflexivity.
  Qed.

  Lemma hold_reload f : forall force s o t, reload f cfg dir force s = Some (o, t) -> hold s -> hold t.
  Proof.
    induction f as [|f IH]; intros force s o t E H; [discriminate|]. cbn [reload] in E. destruct (_ && _); [now injection E as <- <-|].
    set (s2 := if smem (v_path (with_conns (v_defaults s) s)) cfg then _ else _) in E.
    assert (H2 : hold s2) by (pose proof (I_reset _ _ _ H) as X; unfold s2; cbn [v_path with_conns]; destruct (smem (v_path s) cfg); exact X).
    assert (Hd : dir = None \/ exists l, dir = Some l) by (destruct dir as [l|]; eauto). destruct Hd as [Hd|[l Hd]]; rewrite Hd in E; [now injection E as <- <-|].
    destruct (load_all (reload f cfg (Some l)) l _) as [[o1 t1]|] eqn:F; [|discriminate].
    assert (H1 : hold t1).
    { refine (hold_load_all (reload f cfg (Some l)) l Hd _ l (incl_refl l) _ _ _ F H2). intros f' s' o' t' X. rewrite <- Hd in X. eapply IH; exact X. }
    destruct o1; injection E as <- <-; exact H1.
  Qed.
End Dicts.

(** ** No exit *)
Lemma noexit_body rec b : ~ In AExit b -> (forall f s o t, rec f s = Some (o, t) -> o <> OExit) -> forall s o t, body rec b s = Some (o, t) -> o <> OExit.
Proof.
  intros N R. induction b as [|a b IH]; intros s o t E; cbn [body] in E; [injection E as <- <-; discriminate|].
  assert (G : forall n o t, body_get rec n s = Some (o, t) -> o <> OExit).
  { intros n o1 t1 X. unfold body_get in X. destruct (rec false s) as [[[] t2]|] eqn:F; [..|discriminate]; injection X as <- <-.
    - destruct (dhas _ _); discriminate. - discriminate. - now apply R in F. }
  assert (A : forall o t, act rec a s = Some (o, t) -> o <> OExit).
  { intros o1 t1 X. destruct a as [n c|n|n|f| |]; cbn [act] in X; try (injection X as <- <-; discriminate).
    - eapply G; eassumption.
    - destruct (body_get rec n s) as [[[] t2]|] eqn:F; [..|discriminate]; injection X as <- <-; try discriminate. now apply G in F.
    - now apply R in X.
    - exfalso. apply N. now left. }
  destruct (act rec a s) as [[[] t1]|] eqn:F; [|injection E as <- <-; now eapply A..|discriminate].
  eapply IH; [|exact E]. intro X. apply N. now right.
Qed.
Lemma noexit_load_all rec l : no_exit (Some l) -> (forall f s o t, rec f s = Some (o, t) -> o <> OExit) -> forall s o t, load_all rec l s = Some (o, t) -> o <> OExit.
Proof.
  intros N R. induction l as [|[m [b|]] l IH]; intros s o t E; cbn [load_all] in E; [injection E as <- <-; discriminate| |].
  - assert (N' : no_exit (Some l)) by (intros l' m' b' [= <-] X; apply (N _ m' b' eq_refl); now right).
    assert (Nb : ~ In AExit b) by (apply (N _ m b eq_refl); now left).
    assert (M : forall o t, load_module rec m b s = Some (o, t) -> o <> OExit).
    { intros o1 t1 X. unfold load_module in X. destruct (smem (v_mods s) m); [destruct (smem (v_reloading s) m); [injection X as <- <-; discriminate|]|].
      - destruct (body rec b _) as [[o2 t2]|] eqn:F; [|discriminate]. injection X as <- <-. exact (noexit_body rec b Nb R _ _ _ F).
      - destruct (body rec b _) as [[[] t2]|] eqn:F; [..|discriminate]; injection X as <- <-; exact (noexit_body rec b Nb R _ _ _ F). }
    destruct (load_module rec m b s) as [[[] t1]|] eqn:F; [..|discriminate]; try (eapply IH; [exact N'|exact E]).
    exfalso. exact (M _ _ eq_refl eq_refl).
  - eapply IH; [|exact E]. intros l' m' b' [= <-] X. apply (N _ m' b' eq_refl). now right.
Qed.
Lemma noexit_reload cfg dir f : no_exit dir -> forall force s o t, reload f cfg dir force s = Some (o, t) -> o <> OExit.
Proof.
  intro N. induction f as [|f IH]; intros force s o t E; [discriminate|]. cbn [reload] in E. destruct (_ && _); [injection E as <- <-; discriminate|].
  destruct dir as [l|]; [|injection E as <- <-; discriminate].
  destruct (load_all (reload f cfg (Some l)) l _) as [[o1 t1]|] eqn:F; [|discriminate]. pose proof (noexit_load_all _ _ N IH _ _ _ F).
  destruct o1; injection E as <- <-; congruence.
Qed.

(** What a reload leaves: loaded and not loading, unless it failed *)
Lemma reload_after cfg dir f force s o t : reload f cfg dir force s = Some (o, t) -> v_auto s = false ->
  (o = ONorm -> v_loaded t = true /\ v_auto t = false) /\ (o = OExc -> dir = None /\ v_auto t = false).
Proof.
  intros E A. destruct f as [|f]; [discriminate|]. cbn [reload] in E. destruct (_ && _) eqn:B.
  - injection E as <- <-. apply andb_true_iff in B as [B _]. split; [auto|discriminate].
  - destruct dir as [l|].
    + destruct (load_all _ l _) as [[[] t1]|]; [..|discriminate]; injection E as <- <-; split; try discriminate; intros _; now split.
    + injection E as <- <-. split; [discriminate|]. intros _. split; [reflexivity|]. destruct (smem _ _); exact A.
Qed.
Lemma reload_norm cfg dir f force s o t : reload f cfg dir force s = Some (o, t) -> o = ONorm -> v_loaded t = true.
Proof.
  intros E ->. destruct f as [|f]; [discriminate|]. cbn [reload] in E. destruct (_ && _) eqn:B.
  - injection E as <-. now apply andb_true_iff in B as [B _].
  - destruct dir as [l|]; [|discriminate]. destruct (load_all _ l _) as [[[] t1]|]; try discriminate; injection E as <-; reflexivity.
Qed.
Lemma reload_loaded cfg dir f s : v_loaded s = true -> reload (S f) cfg dir false s = Some (ONorm, s).
Proof. intro L. cbn [reload]. now rewrite L. Qed.
Lemma reload_nodir cfg f force s : v_loaded s = false -> exists t, reload (S f) cfg None force s = Some (OExc, t) /\ v_loaded t = false.
Proof. intro L. cbn [reload]. rewrite L. eexists. split; [reflexivity|]. now destruct (smem _ _). Qed.

(** ** Hosts *)
Lemma starts_spec p s : starts p s = true <-> exists r, s = p ++ r.
Proof.
  revert s. induction p as [|x p IH]; intros s; cbn [starts].
  - split; [intros _; now exists s|reflexivity].
  - destruct s as [|y s]; [split; [discriminate|intros [r [=]]]|]. rewrite andb_true_iff, Z.eqb_eq, IH. split.
    + intros [-> [r ->]]. now exists r.
    + intros [r E]. cbn in E. injection E as -> ->. split; [reflexivity|eauto].
Qed.
Lemma contains_spec sep s : contains sep s = true <-> exists f h, s = f ++ sep ++ h.
Proof.
  induction s as [|x s IH]; cbn [contains]; rewrite orb_true_iff, starts_spec.
  - split.
    + intros [[r E]|[=]]. now exists [], r.
    + intros (f & h & E). left. symmetry in E. apply app_eq_nil in E as [_ E]. exists h. now symmetry.
  - rewrite IH. split.
    + intros [[r E]|(f & h & E)]; [now exists [], r|exists (x :: f), h; cbn; now rewrite E].
    + intros (f & h & E). destruct f as [|y f]; [left; exists h; exact E|right]. cbn in E. injection E as -> E. eauto.
Qed.
Lemma split_none sep s : forall cur, contains sep s = false -> split_str sep 0 cur s = [rev cur ++ s].
Proof.
  induction s as [|x s IH]; intros cur C; cbn [split_str]; [now rewrite app_nil_r|].
  cbn [contains] in C. apply orb_false_iff in C as [C1 C2]. rewrite C1, IH by exact C2. cbn [rev]. now rewrite <- app_assoc.
Qed.
Lemma split_skip sep a : forall cur s, split_str sep (List.length a) cur (a ++ s) = split_str sep 0 cur s.
Proof. induction a as [|x a IH]; intros cur s; [reflexivity|]. cbn [app List.length split_str]. apply IH. Qed.
(** the first separator *)
Lemma split_first x sep s : forall cur, contains (x :: sep) s = true ->
  exists f h, s = f ++ (x :: sep) ++ h /\ split_str (x :: sep) 0 cur s = (rev cur ++ f) :: split_str (x :: sep) 0 [] h /\
    forall f' h', s = f' ++ (x :: sep) ++ h' -> List.length f <= List.length f'.
Proof.
  induction s as [|y s IH]; intros cur C; cbn [contains] in C; [discriminate|]. cbn [split_str].
  destruct (starts (x :: sep) (y :: s)) eqn:S.
  - apply starts_spec in S as [r E]. exists [], r. rewrite app_nil_r. split; [exact E|]. split; [|intros; cbn; lia].
    injection E as -> ->. cbn [List.length]. replace (S (List.length sep) - 1) with (List.length sep) by lia. now rewrite split_skip.
  - cbn [orb] in C. destruct (IH (y :: cur) C) as (f & h & E & P & M). exists (y :: f), h. rewrite P. cbn [rev]. rewrite <- app_assoc. split; [cbn; now rewrite E|]. split; [reflexivity|].
    intros f' h' E'. destruct f' as [|z f']; [|cbn in E'; injection E' as _ E'; apply M in E'; cbn; lia].
    exfalso. enough (starts (x :: sep) (y :: s) = true) by congruence. apply starts_spec. now exists h'.
Qed.

Lemma split_nonempty sep s : forall k c, exists y r, split_str sep k c s = y :: r.
Proof. induction s as [|x l IH]; intros k c; cbn [split_str]; [eauto|]. destruct k; [destruct (starts _ _); [eauto|apply IH]|apply IH]. Qed.

Lemma app_split {A} (f f' r r' : list A) : f ++ r = f' ++ r' -> List.length f <= List.length f' -> exists g, f' = f ++ g /\ r = g ++ r'.
Proof.
  revert f'. induction f as [|x f IH]; intros f' E L; [exists f'; split; [reflexivity|exact E]|].
  destruct f' as [|y f']; [cbn in L; lia|]. cbn in E. injection E as -> E. destruct (IH f' E ltac:(cbn in L; lia)) as (g & -> & ->). now exists g.
Qed.

Lemma scheme_split s : (forall f h, ~ splits s f h) /\ contains scheme s = false \/
  (exists f h, contains scheme s = true /\ splits s f h /\ split_str scheme 0 [] s = [f; h] /\ (forall f' h', splits s f' h' -> f' = f /\ h' = h)) \/
  (exists f h f' h' a b c r, contains scheme s = true /\ splits s f h /\ splits s f' h' /\ f <> f' /\ split_str scheme 0 [] s = a :: b :: c :: r).
Proof.
  destruct (contains scheme s) eqn:C.
  2:{ left. split; [|reflexivity]. intros f h E. enough (contains scheme s = true) by congruence. apply contains_spec. now exists f, h. }
  right. change scheme with (58%Z :: [47%Z; 47%Z]) in *. destruct (split_first _ _ _ [] C) as (f & h & E & P & M). cbn [rev app] in P.
  destruct (contains [58%Z; 47%Z; 47%Z] h) eqn:C2.
  - right. apply contains_spec in C2 as (f2 & h2 & E2).
    assert (C2 : contains [58%Z; 47%Z; 47%Z] h = true) by (apply contains_spec; eauto).
    destruct (split_first _ _ _ [] C2) as (f3 & h3 & E3 & P3 & _). cbn [rev app] in P3.
    assert (N : exists y r, split_str [58%Z; 47%Z; 47%Z] 0 [] h3 = y :: r).
    { apply split_nonempty. }
    destruct N as (y & r & N). exists f, h, (f ++ scheme ++ f2), h2, f, f3, y, r. split; [reflexivity|]. split; [exact E|].
    split; [unfold splits; rewrite E, E2; change (lit "://") with scheme; change scheme with [58%Z; 47%Z; 47%Z]; now rewrite <- !app_assoc|].
    split; [|now rewrite P, P3, N]. intro X. apply (f_equal (@List.length Z)) in X. rewrite !app_length in X. cbn in X. lia.
  - left. exists f, h. split; [reflexivity|]. split; [exact E|]. rewrite (split_none _ h [] C2) in P. split; [exact P|].
    intros f' h' E'. unfold splits in E'. change (lit "://") with [58%Z; 47%Z; 47%Z] in E'. pose proof (M _ _ E') as L. pose proof E' as E0. rewrite E in E'.
    destruct (app_split _ _ _ _ E' L) as (g & -> & G). cbn [app] in G. destruct g as [|a g].
    + cbn [app] in G. injection G as ->. now rewrite app_nil_r.
    + exfalso. cbn [app] in G. injection G as <- G. destruct g as [|b g]; [cbn [app] in G; discriminate|]. cbn [app] in G. injection G as <- G.
      destruct g as [|c g]; [cbn [app] in G; discriminate|]. cbn [app] in G. injection G as <- G.
      enough (contains [58%Z; 47%Z; 47%Z] h = true) by congruence. apply contains_spec. exists g, h'. exact G.
Qed.
