(** * C66: managing a WAN over its verbs *)
From Coq Require Import String.
From Coq Require Import List ZArith Bool Lia.
From Verif Require Import PyBase PyLemmas AddrModel SwitchModel SpmpModel SpmpSpec SpmpProps WanModel WanSpec WanProofs WanProps WanNetModel WanNetSpec WanApiModel WanApiSpec WanApiProofs WanApiProofs2.
Import ListNotations.
Open Scope Z_scope.

(** the settings' five functions and the process's name are the same everywhere *)
Record config (S0 : Type) := Config { c_lost : nat -> bool; c_peer : nat -> pystr; c_1 : S0 -> list pystr -> S0 * opres; c_2 : S0 -> list pystr -> S0 * opres; c_3 : S0 -> list pystr -> S0 * opres; c_4 : S0 -> list pystr -> S0 * opres; c_5 : S0 -> list pystr -> S0 * opres; c_name : pystr }.
Arguments c_lost {S0}. Arguments c_peer {S0}. Arguments c_1 {S0}. Arguments c_2 {S0}. Arguments c_3 {S0}. Arguments c_4 {S0}. Arguments c_5 {S0}. Arguments c_name {S0}. Arguments Config {S0}.
Definition happens {S0} (c : config S0) (e : wevent) (x : wstate) : wstate * list slog := w_step (c_lost c) (c_peer c) (c_1 c) (c_2 c) (c_3 c) (c_4 c) (c_5 c) (c_name c) e x.
Definition managed {S0} (c : config S0) (s : S0) (es : list wevent) : wstate := fst (w_run (c_lost c) (c_peer c) (c_1 c) (c_2 c) (c_3 c) (c_4 c) (c_5 c) (c_name c) es (net_new, s)).
(** a local request, in a state: the state after it, and what was run and sent *)
Definition ask {S0} (c : config S0) (id : Z) (verb : string) (args : list pystr) (x : wstate) : wstate * list slog := happens c (WRequest local (request id verb args)) x.

Lemma list_text_eq ps : py_list ps = list_text ps.
Proof. unfold py_list, list_text. now rewrite commas_join. Qed.
Lemma route_text_eq p : print_route p = route_text p. Proof. apply list_text_eq. Qed.
(** Every event comes to the calls of the specification: C39 and C52 hold of a WAN
    managed over its verbs. *)
Theorem C66_calls : forall (S0 : Type) (c : config S0) e x,
  fst (fst (happens c e x)) = net_run (c_lost c) (event_calls (c_peer c) e (fst x)) (fst x).
Proof. intros S0 c e x. apply step_calls. Qed.

Lemma ask_eq {S0} (c : config S0) id verb args x op : dget (wan_api (c_lost c) (c_peer c) (c_1 c) (c_2 c) (c_3 c) (c_4 c) (c_5 c)) (lit verb) = Some op ->
  ask c id verb args x = (fst (op x args), match snd (op x args) with OpValue s => answer id verb args s | OpRaises m => [SRun (lit verb) args; SSend (Spmp id (lit verb) args [] (match m with [] => None | _ => Some m end))] end).
Proof.
  intro E. unfold ask, happens, w_step, process. cbn [wan_server s_security s_api request m_request m_args m_id m_error]. replace (negb (local_access local (request id verb args))) with false by reflexivity. cbn [request m_request m_args] in *. rewrite E. destruct (op x args) as [x' [s|m]]; cbn [fst snd]; [reflexivity|]. now destruct m.
Qed.

(** add-switches adds the locations it names up to the first that is not a number or
    is there already; it answers None for each, or, had it to stop, with an error. *)
Theorem C66_add : forall (S0 : Type) (c : config S0) id args x,
  let '(x', log) := ask c id "add-switches" args x in
  let new := addable (wan_prefixes (n_routes (fst x))) args in
  wan_prefixes (n_routes (fst x')) = wan_prefixes (n_routes (fst x)) ++ new /\
  (forall a b, wan_route (n_routes (fst x')) a b = wan_route (n_routes (fst x)) a b) /\
  snd x' = snd x /\ n_conn (fst x') = n_conn (fst x) /\
  (List.length new = List.length args -> log = answer id "add-switches" args (list_text (repeat (lit "None") (List.length args)))) /\
  (List.length new <> List.length args -> refusal id "add-switches" args log).
Proof.
  intros S0 c id args x. rewrite (ask_eq c id "add-switches" args x (on_net (add_switches 0)) eq_refl). unfold on_net. pose proof (add_calls (c_lost c) args 0 (fst x)) as A. pose proof (add_result args 0 (fst x)) as R. destruct (add_switches 0 args (fst x)) as [g o]. cbn [fst snd] in *. subst g.
  assert (K : forall zs g known, known = wan_prefixes (n_routes g) -> (forall z r, zs = z :: r -> True) -> NoDup zs -> (forall z, In z zs -> ~ In z known) ->
     wan_prefixes (n_routes (net_run (c_lost c) (map NReg zs) g)) = known ++ zs /\ (forall a b, wan_route (n_routes (net_run (c_lost c) (map NReg zs) g)) a b = wan_route (n_routes g) a b) /\ n_conn (net_run (c_lost c) (map NReg zs) g) = n_conn g).
  { induction zs as [|z zs IH]; intros g known -> _ N D; [cbn; now rewrite app_nil_r|]. inversion N; subst. cbn [map]. unfold net_run. cbn [fold_left net_step].
    assert (Dz : dhas (n_routes g) z = false) by (apply not_true_iff_false; rewrite dhas_in; apply D; now left).
    assert (E : net_register z g = (with_sw (with_routes g (dset (n_routes g) z [])) z sw_empty, Ok tt)) by (unfold net_register, wan_register; now rewrite Dz). rewrite E. cbn [fst]. set (g1 := with_sw _ _ _).
    assert (P1 : wan_prefixes (n_routes g1) = wan_prefixes (n_routes g) ++ [z]) by (apply reg_keys; exact Dz).
    destruct (IH g1 (wan_prefixes (n_routes g) ++ [z]) (eq_sym P1)) as (A1 & A2 & A3); auto.
    { intros y Y X. apply in_app_or in X as [X|[<-|[]]]; [apply (D y); [now right|exact X]|contradiction]. }
    unfold net_run in *. rewrite A1, A3, <- app_assoc. split; [reflexivity|]. split; [|reflexivity]. intros a b. rewrite A2. unfold g1, wan_route, get2. cbn [n_routes with_sw with_routes].
    destruct (Z.eq_dec a z) as [->|Na]; [|now rewrite dget_dset_other].
    rewrite dget_dset_same. unfold dhas in Dz. now destruct (dget (n_routes g) z). }
  assert (W : forall args known, NoDup (addable known args) /\ forall z, In z (addable known args) -> ~ In z known).
  { clear. induction args as [|a r IH]; intro known; cbn [addable]; [split; [constructor|intros z []]|]. destruct (parse_int a) as [z|]; [|split; [constructor|intros z []]]. destruct (in_dec Z.eq_dec z known); [split; [constructor|intros y []]|]. destruct (IH (known ++ [z])) as [A B]. split.
    - constructor; [|exact A]. intro X. apply (B z X). apply in_or_app. right. now left.
    - intros y [<-|Y]; [assumption|]. intro X. apply (B y Y). apply in_or_app. now left. }
  destruct (W args (wan_prefixes (n_routes (fst x)))) as [W1 W2]. destruct (K (addable (wan_prefixes (n_routes (fst x))) args) (fst x) _ eq_refl (fun _ _ _ => Logic.I) W1 W2) as (K1 & K2 & K3).
  split; [exact K1|]. split; [exact K2|]. split; [reflexivity|]. split; [exact K3|]. destruct R as [[L ->]|[L (m & M & ->)]].
  - split; [intros _; now rewrite list_text_eq|]. intro X. contradiction.
  - split; [intro X; lia|]. intros _. exists m. split; [exact M|]. destruct m; [contradiction|reflexivity].
Qed.

(** set-direct-connections with an argument that is not a number, or none: an error and no
    change; otherwise the direct connections are set, and the answer is an error exactly if
    a location is not there. *)
Theorem C66_direct : forall (S0 : Type) (c : config S0) id args x,
  let '(x', log) := ask c id "set-direct-connections" args x in
  snd x' = snd x /\
  match ints_of args with
  | Some (r :: ds) =>
      fst x' = fst (net_set (c_lost c) r ds (fst x)) /\
      (snd (wan_set r ds (n_routes (fst x))) = Ok tt -> log = answer id "set-direct-connections" args (lit "None")) /\
      (snd (wan_set r ds (n_routes (fst x))) <> Ok tt -> refusal id "set-direct-connections" args log)
  | _ => x' = x /\ refusal id "set-direct-connections" args log
  end.
Proof.
  intros S0 c id args x. rewrite (ask_eq c id "set-direct-connections" args x (on_net (set_direct (c_lost c))) eq_refl). unfold on_net. destruct args as [|p ds].
  - cbn. split; [reflexivity|]. split; [now destruct x|]. eexists. split; [|reflexivity]. discriminate.
  - cbn [set_direct]. rewrite parse_ints_of. destruct (ints_of (p :: ds)) as [[|r zs]|].
    + split; [reflexivity|]. split; [now destruct x|]. eexists. split; [|reflexivity]. discriminate.
    + destruct (net_set_routes (c_lost c) r zs (fst x)) as [_ O]. rewrite <- O. destruct (net_set (c_lost c) r zs (fst x)) as [g [[]|e]]; cbn [fst snd]; (split; [reflexivity|]); (split; [reflexivity|]); split; intro X; try contradiction; try discriminate X; try reflexivity.
      destruct (dhas (n_routes (fst x)) r); eexists; (split; [|reflexivity]); discriminate.
    + split; [reflexivity|]. split; [now destruct x|]. eexists. split; [|reflexivity]. discriminate.
Qed.

(** The locations are those of the map the requests describe, and whatever was refused
    on the way, get-route answers with a path over the direct connections of that map, or []. *)
Theorem C66_map : forall (S0 : Type) (c : config S0) (s : S0) es id a b sa sb,
  parse_int sa = Ok a -> parse_int sb = Ok b ->
  wan_prefixes (n_routes (fst (managed c s es))) = g_nodes (map_after es) /\
  exists p, ask c id "get-route" [sa; sb] (managed c s es) = (managed c s es, answer id "get-route" [sa; sb] (route_text p)) /\
    (p <> [] -> walk (g_edges (map_after es)) a p b) /\ (In (a, b) (g_edges (map_after es)) -> p = [b]).
Proof.
  intros S0 c s es id a b sa sb A B. unfold managed.
  rewrite (map_new (c_lost c) (c_peer c) (c_1 c) (c_2 c) (c_3 c) (c_4 c) (c_5 c) (c_name c) es s).
  set (x := fst (w_run _ _ _ _ _ _ _ _ es (net_new, s))). assert (R := run_ops (c_lost c) (c_peer c) (c_1 c) (c_2 c) (c_3 c) (c_4 c) (c_5 c) (c_name c) es (net_new, s)). fold x in R. cbn [fst n_routes net_new] in R. change (@nil (Z * dict Z (list Z))) with (@routes_new Z) in R. rewrite R.
  set (os := all_ops _ _ _ _ _ _ _ _ es (net_new, s)) in *. split; [apply (C39_calls Z _ os)|].
  exists (wan_route (wan_run os routes_new) a b). split; [|apply C39_always_valid].
  rewrite (ask_eq c id "get-route" [sa; sb] x (query get_route) eq_refl). unfold query, get_route, parse_ints. rewrite A, B. cbn [fst snd]. now rewrite R, route_text_eq.
Qed.

(** After a set-direct-connections that was answered without error, until the next such
    request: the path is a shortest one, and [] means there is none. *)
Theorem C66_shortest : forall (S0 : Type) (c : config S0) (s : S0) es1 id1 args es2 id a b sa sb,
  snd (ask c id1 "set-direct-connections" args (managed c s es1)) = answer id1 "set-direct-connections" args (lit "None") ->
  (forall peer r, In (WRequest peer r) es2 -> m_request r <> lit "set-direct-connections") ->
  parse_int sa = Ok a -> parse_int sb = Ok b -> a <> b ->
  let es := es1 ++ WRequest local (request id1 "set-direct-connections" args) :: es2 in
  exists p, ask c id "get-route" [sa; sb] (managed c s es) = (managed c s es, answer id "get-route" [sa; sb] (route_text p)) /\
    (reachable (g_edges (map_after es)) a b -> shortest (g_edges (map_after es)) a p b) /\
    (~ reachable (g_edges (map_after es)) a b -> p = []).
Proof.
  intros S0 c s es1 id1 args es2 id a b sa sb Hok Hno A B Hab es.
  pose (e1 := WRequest local (request id1 "set-direct-connections" args)). assert (Ees : es = es1 ++ e1 :: es2) by reflexivity.
  pose proof (C66_direct S0 c id1 args (managed c s es1)) as D. destruct (ask c id1 "set-direct-connections" args (managed c s es1)) as [x1 lg] eqn:E1. cbn [snd] in Hok. subst lg. destruct D as [_ D].
  destruct (ints_of args) as [[|r ds]|] eqn:Ia; [destruct D as [_ (e & Ne & D)]; discriminate D| |destruct D as [_ (e & Ne & D)]; discriminate D].
  destruct D as (_ & _ & D). destruct (snd (wan_set r ds (n_routes (fst (managed c s es1))))) as [[]|er] eqn:Ew; [|destruct D as (e & Ne & D); [discriminate|discriminate D]]. clear D.
  set (run := w_run (c_lost c) (c_peer c) (c_1 c) (c_2 c) (c_3 c) (c_4 c) (c_5 c) (c_name c)). set (ops := all_ops (c_lost c) (c_peer c) (c_1 c) (c_2 c) (c_3 c) (c_4 c) (c_5 c) (c_name c)).
  assert (R1 : n_routes (fst (managed c s es1)) = wan_run (ops es1 (net_new, s)) routes_new) by (unfold managed; rewrite run_ops; reflexivity).
  assert (Regs : forall fs x, (forall peer q, In (WRequest peer q) fs -> m_request q <> lit "set-direct-connections") -> exists ps, ops fs x = map WReg ps).
  { induction fs as [|e fs IH]; intros x N; [now exists []|]. destruct (IH (fst (w_step (c_lost c) (c_peer c) (c_1 c) (c_2 c) (c_3 c) (c_4 c) (c_5 c) (c_name c) e x))) as [ps P]; [intros peer q Q; apply (N peer); now right|].
    assert (X : exists qs, wops (event_calls (c_peer c) e (fst x)) = map WReg qs).
    { destruct e as [n|n y|n|[h|] q]; try (now exists []). cbn [event_calls]. destruct (list_eq_dec Z.eq_dec h (lit "127.0.0.1")); [|now exists []]. unfold request_calls. destruct (list_eq_dec Z.eq_dec (m_request q) (lit "add-switches")); [eexists; apply wops_regs|]. destruct (list_eq_dec Z.eq_dec (m_request q) (lit "set-direct-connections")) as [X|X]; [exfalso; apply (N (Some h) q); [now left|exact X]|]. destruct (list_eq_dec Z.eq_dec (m_request q) (lit "set-location")); [|now exists []]. destruct (m_args q) as [|nm [|pf [|? ?]]]; try (now exists []). destruct (parse_int pf); [|now exists []]. destruct (find _ _); now exists []. }
    destruct X as [qs X]. exists (qs ++ ps). unfold ops in *. cbn [all_ops]. now rewrite X, P, map_app. }
  assert (Ops : exists ps, ops es (net_new, s) = ops es1 (net_new, s) ++ [WSet r ds] ++ map WReg ps).
  { destruct (Regs es2 (fst (w_step (c_lost c) (c_peer c) (c_1 c) (c_2 c) (c_3 c) (c_4 c) (c_5 c) (c_name c) e1 (managed c s es1))) Hno) as [ps P]. exists ps. rewrite Ees. unfold ops in *. rewrite all_ops_app. f_equal. cbn [all_ops]. unfold managed in P. rewrite P. f_equal. unfold e1, local, event_calls, request_calls. cbn [request m_request m_args]. destruct (list_eq_dec Z.eq_dec (lit "127.0.0.1") (lit "127.0.0.1")) as [_|X]; [|exfalso; now apply X]. destruct (list_eq_dec Z.eq_dec (lit "set-direct-connections") (lit "add-switches")) as [X|_]; [discriminate X|]. destruct (list_eq_dec Z.eq_dec (lit "set-direct-connections") (lit "set-direct-connections")) as [_|X]; [|exfalso; now apply X]. now rewrite Ia. }
  destruct Ops as [ps Ops]. rewrite R1 in Ew. pose proof (C39_shortest Z _ _ r ds ps a b Ew Hab) as Sh. cbv zeta in Sh. rewrite <- Ops in Sh.
  assert (M : map_after es = g_run (ops es (net_new, s)) g_new) by (apply (map_new (c_lost c) (c_peer c) (c_1 c) (c_2 c) (c_3 c) (c_4 c) (c_5 c) (c_name c) es s)). rewrite M.
  assert (R : n_routes (fst (managed c s es)) = wan_run (ops es (net_new, s)) routes_new) by (unfold managed; rewrite run_ops; reflexivity).
  exists (wan_route (wan_run (ops es (net_new, s)) routes_new) a b). split; [|exact Sh].
  rewrite (ask_eq c id "get-route" [sa; sb] (managed c s es) (query get_route) eq_refl). unfold query, get_route, parse_ints. rewrite A, B. cbn [fst snd]. now rewrite R, route_text_eq.
Qed.
