(** * C66, continued: locations, questions, and what does not hold *)
From Coq Require Import String.
From Coq Require Import List ZArith Bool Lia.
From Verif Require Import PyBase PyLemmas AddrModel SwitchModel SpmpModel SpmpSpec SpmpProps WanModel WanSpec WanProofs WanProps WanNetModel WanNetSpec WanApiModel WanApiSpec WanApiProofs WanApiProofs2 WanApiProps.
Import ListNotations.
Open Scope Z_scope.

Lemma sw_do_conn f p g : n_conn (sw_do f p g) = n_conn g.
Proof. unfold sw_do. destruct (dget (n_sw g) p); [destruct (f s); reflexivity|reflexivity]. Qed.
Lemma prefix_conn n p t g rt : dget (n_conn g) n = Some rt -> n_conn (set_prefix n p t g) = dset (n_conn g) n (Router (r_addr rt) p t).
Proof.
  intro E. unfold set_prefix. rewrite E. set (g1 := match r_there rt, r_prefix rt, r_addr rt with true, Some q, Some _ => sw_do (sw_unregister (Dev n)) q g | _, _, _ => g end).
  assert (C : n_conn g1 = n_conn g) by (unfold g1; destruct (r_there rt); [|reflexivity]; destruct (r_prefix rt); [|reflexivity]; destruct (r_addr rt); [apply sw_do_conn|reflexivity]).
  destruct t, p, (r_addr rt); rewrite ?sw_do_conn; unfold with_conn; cbn [n_conn]; now rewrite C.
Qed.
Lemma find_in peername n g m : find (fun k => if list_eq_dec Z.eq_dec (peername k) n then true else false) (map fst (n_conn g)) = Some m -> peername m = n /\ exists rt, dget (n_conn g) m = Some rt.
Proof.
  intro E. apply find_some in E as [I0 E]. destruct (list_eq_dec Z.eq_dec (peername m) n) as [X|]; [|discriminate]. split; [exact X|]. clear -I0. induction (n_conn g) as [|[k v] r IH]; [destruct I0|]. cbn. destruct (eq_dec m k); [eauto|]. destruct I0 as [I0|I0]; [cbn in I0; congruence|auto].
Qed.

(** set-location moves the first connection of that name, and no other, to the prefix;
    a name that no connection has, and a prefix that is not a number, change nothing. *)
Theorem C66_location : forall (S0 : Type) (c : config S0) id name prefix x,
  let '(x', log) := ask c id "set-location" [name; prefix] x in
  match parse_int prefix with
  | Raise _ => x' = x /\ refusal id "set-location" [name; prefix] log
  | Ok p =>
      (forall n, In n (map fst (n_conn (fst x))) -> c_peer c n <> name) /\ x' = x /\ log = answer id "set-location" [name; prefix] (lit "No such connection " ++ name) \/
      exists n rt, c_peer c n = name /\ dget (n_conn (fst x)) n = Some rt /\ log = answer id "set-location" [name; prefix] (lit "Changed") /\
        dget (n_conn (fst x')) n = Some (Router (r_addr rt) (Some p) (dhas (n_sw (fst x)) p)) /\
        (forall m, m <> n -> dget (n_conn (fst x')) m = dget (n_conn (fst x)) m) /\
        n_routes (fst x') = n_routes (fst x) /\ snd x' = snd x
  end.
Proof.
  intros S0 c id name prefix x. rewrite (ask_eq c id "set-location" [name; prefix] x (set_location (c_peer c)) eq_refl). cbn [set_location]. destruct (parse_int prefix) as [p|e].
  - rewrite find_name. destruct (find _ (map fst (n_conn (fst x)))) as [n|] eqn:F.
    + right. destruct (find_in _ _ _ _ F) as [N (rt & R)]. exists n, rt. split; [exact N|]. split; [exact R|]. cbn [fst snd]. split; [reflexivity|]. assert (Lo : fst (net_locate n p (fst x)) = set_prefix n (Some p) (dhas (n_sw (fst x)) p) (fst x)) by (unfold net_locate; replace (dhas (n_conn (fst x)) n) with true by (unfold dhas; now rewrite R); reflexivity). rewrite Lo, (prefix_conn _ _ _ _ _ R), dget_dset_same. split; [reflexivity|]. split; [intros m M; now rewrite dget_dset_other|]. split; [apply set_prefix_routes|reflexivity].
    + left. split; [|split; reflexivity]. intros n I0 E. pose proof (find_none _ _ F n I0) as X. cbn in X. destruct (list_eq_dec Z.eq_dec (c_peer c n) name); [discriminate|contradiction].
  - cbn [fst snd]. split; [reflexivity|]. eexists. split; [|reflexivity]. discriminate.
Qed.

(** list-connections answers with a line for each connection there is, its name and its
    prefix; so after set-location it shows the connection at its new place. *)
Definition shown (peername : nat -> pystr) (nr : nat * router) : pystr :=
  [9] ++ peername (fst nr) ++ lit ": " ++ match r_prefix (snd nr) with Some z => print_int z | None => lit "None" end ++ [10].
Theorem C66_connections : forall (S0 : Type) (c : config S0) id x,
  ask c id "list-connections" [] x = (x, answer id "list-connections" [] (lit "WAN connections" ++ [10] ++ concat (map (shown (c_peer c)) (n_conn (fst x))))).
Proof.
  intros S0 c id x. rewrite (ask_eq c id "list-connections" [] x (query (no_args (print_connections (c_peer c)))) eq_refl). unfold query, no_args, print_connections. cbn [fst snd]. now rewrite flat_map_concat_map.
Qed.
Theorem C66_moved : forall (S0 : Type) (c : config S0) id name prefix p x x',
  parse_int prefix = Ok p -> ask c id "set-location" [name; prefix] x = (x', answer id "set-location" [name; prefix] (lit "Changed")) ->
  exists n rt, c_peer c n = name /\ r_prefix rt = Some p /\ In (n, rt) (n_conn (fst x')) /\ List.length (n_conn (fst x')) = List.length (n_conn (fst x)).
Proof.
  intros S0 c id name prefix p x x' P E. rewrite (ask_eq c id "set-location" [name; prefix] x (set_location (c_peer c)) eq_refl) in E. cbn [set_location] in E. rewrite P, find_name in E.
  destruct (find _ (map fst (n_conn (fst x)))) as [n|] eqn:F; [|discriminate E]. destruct (find_in _ _ _ _ F) as [N (rt & R)]. exists n, (Router (r_addr rt) (Some p) (dhas (n_sw (fst x)) p)). split; [exact N|]. split; [reflexivity|]. cbn [fst snd] in E. injection E as <-. cbn [fst].
  assert (Lo : fst (net_locate n p (fst x)) = set_prefix n (Some p) (dhas (n_sw (fst x)) p) (fst x)) by (unfold net_locate; replace (dhas (n_conn (fst x)) n) with true by (unfold dhas; now rewrite R); reflexivity). rewrite Lo, (prefix_conn _ _ _ _ _ R). clear - R. generalize (Router (r_addr rt) (Some p) (dhas (n_sw (fst x)) p)). revert R. generalize (n_conn (fst x)). intros d R r'.
  induction d as [|[k v] d IH]; [discriminate|]. cbn in *. destruct (eq_dec n k) as [->|Nk]; [split; [now left|reflexivity]|]. destruct (IH R) as [A B]. split; [now right|cbn; now rewrite B].
Qed.

(** Questions change nothing; nor does remove-switches, and what is not a verb. *)
Theorem C66_questions : forall (S0 : Type) (c : config S0) peer r x,
  In (m_request r) (map lit ["verbs"; "list-connections"; "remove-switches"; "get-route"; "get-routes"]%string) \/ ~ In (m_request r) verb_names ->
  fst (happens c (WRequest peer r) x) = x.
Proof.
  intros S0 c peer r x H. unfold happens, w_step, process. cbn [wan_server s_security s_api]. destruct (negb (local_access peer r)); [reflexivity|].
  destruct (dget (wan_api (c_lost c) (c_peer c) (c_1 c) (c_2 c) (c_3 c) (c_4 c) (c_5 c)) (m_request r)) as [op|] eqn:E; [|reflexivity].
  assert (Q : forall args, fst (op x args) = x).
  { intro args. destruct H as [H|H].
    - repeat (destruct H as [H|H]; [rewrite <- H in E; injection E as <-; reflexivity|]). destruct H.
    - exfalso. apply H. assert (G : forall (ks : list pystr) (vs : list (operation wstate)) v (o : operation (wstate (Settings := S0))), dget (combine ks vs) v = Some o -> In v ks).
      { clear. induction ks as [|k ks IH]; intros [|w vs] v o E; cbn in E; try discriminate. destruct (eq_dec v k); [left; congruence|]. right. eauto. }
      exact (G _ _ _ _ E). }
  specialize (Q (m_args r)). destruct (op x (m_args r)) as [x' [v|m]]; exact Q.
Qed.

(** A verb that is given too many arguments or too few is refused, and changes nothing. *)
Theorem C66_arguments : forall (S0 : Type) (c : config S0) id verb args x,
  (In verb ["verbs"; "list-connections"; "get-routes"]%string /\ args <> [] \/ In verb ["get-route"; "set-location"]%string /\ List.length args <> 2%nat \/ verb = "set-direct-connections"%string /\ args = []) ->
  fst (ask c id verb args x) = x /\ refusal id verb args (snd (ask c id verb args x)).
Proof.
  intros S0 c id verb args x H.
  assert (F : forall op m, dget (wan_api (c_lost c) (c_peer c) (c_1 c) (c_2 c) (c_3 c) (c_4 c) (c_5 c)) (lit verb) = Some op -> op x args = (x, OpRaises m) -> m <> [] -> fst (ask c id verb args x) = x /\ refusal id verb args (snd (ask c id verb args x))).
  { intros op m E O N. rewrite (ask_eq c id verb args x op E), O. cbn [fst snd]. split; [reflexivity|]. exists m. split; [exact N|]. destruct m; [contradiction|reflexivity]. }
  assert (Na : argument_error <> []) by discriminate.
  destruct H as [[H N]|[[H N]|[-> ->]]].
  - destruct args as [|a r]; [contradiction|]. destruct H as [<-|[<-|[<-|[]]]]; (eapply F; [reflexivity|reflexivity|exact Na]).
  - destruct H as [<-|[<-|[]]]; (destruct args as [|a [|b [|d r]]]; [|  |exfalso; now apply N|]; (eapply F; [reflexivity|reflexivity|exact Na])).
  - eapply F; [reflexivity| |exact Na]. destruct x. reflexivity.
Qed.

(** A request from another host changes nothing, is not answered, and its connection is closed. *)
Theorem C66_remote : forall (S0 : Type) (c : config S0) peer r x, peer <> Some (lit "127.0.0.1") -> happens c (WRequest peer r) x = (x, [SClose]).
Proof.
  intros S0 c peer r x N. unfold happens, w_step, process. cbn [wan_server s_security]. assert (L : local_access peer r = false).
  { unfold local_access. destruct peer as [h|]; [|reflexivity]. unfold eqb. destruct (eq_dec h local_host) as [->|]; [exfalso; apply N; reflexivity|reflexivity]. }
  now rewrite L.
Qed.

(** The answers can be read: two routes that print alike are the same, *)
Theorem C66_readable : forall p q, route_text p = route_text q -> p = q.
Proof. intros p q. rewrite <- !route_text_eq. apply print_route_inj. Qed.

(** and get-routes answers with a line for each route in the table, in its order; two tables
    that print alike hold the same routes. *)
Definition table (g : wnet) : list (Z * Z * list Z) :=
  flat_map (fun s => map (fun dr => (s, fst dr, snd dr)) (wan_routes (n_routes g) s)) (wan_prefixes (n_routes g)).
Definition table_line (e : Z * Z * list Z) : pystr := let '(s, d, p) := e in [9] ++ print_int s ++ lit "->" ++ print_int d ++ lit ": " ++ route_text p ++ [10].
Lemma flat_map_flat {A B C} (f : B -> list C) (g : A -> list B) l : flat_map f (flat_map g l) = flat_map (fun a => flat_map f (g a)) l.
Proof. induction l as [|a l IH]; [reflexivity|]. cbn. now rewrite flat_map_app, IH. Qed.
Lemma flat_map_mapped {A B C} (f : B -> list C) (g : A -> B) l : flat_map f (map g l) = flat_map (fun a => f (g a)) l.
Proof. induction l as [|a l IH]; [reflexivity|]. cbn. now rewrite IH. Qed.
Lemma line_inj e f x y : table_line e ++ x = table_line f ++ y -> e = f /\ x = y.
Proof.
  destruct e as [[s d] p], f as [[s' d'] p'].
  assert (T : forall s d p z, table_line (s, d, p) ++ z = 9 :: (print_int s ++ [45]) ++ 62 :: print_int d ++ 58 :: 32 :: print_route p ++ 10 :: z).
  { clear. intros. rewrite route_text_eq. change (table_line (s, d, p)) with (9 :: print_int s ++ 45 :: 62 :: print_int d ++ 58 :: 32 :: route_text p ++ [10]). rewrite <- app_assoc. cbn [app]. f_equal. rewrite <- app_assoc. f_equal. cbn [app]. do 2 f_equal. rewrite <- app_assoc. f_equal. cbn [app]. do 2 f_equal. now rewrite <- app_assoc. }
  rewrite !T. intro E. injection E as E.
  assert (N62 : forall z, ~ In 62 (print_int z ++ [45])) by (intros z X; apply in_app_or in X as [X|[X|[]]]; [revert X; apply print_int_no; [discriminate|lia]|discriminate]).
  apply (app_sep_inj 62) in E as [E1 E]; [|apply N62|apply N62|right; eexists; reflexivity|right; eexists; reflexivity]. apply app_inj_tail in E1 as [E1 _]. apply print_int_inj in E1. subst s'.
  injection E as E. apply (app_sep_inj 58) in E as [E1 E]; [|apply print_int_no; [discriminate|lia]|apply print_int_no; [discriminate|lia]|right; eexists; reflexivity|right; eexists; reflexivity]. apply print_int_inj in E1. subst d'.
  apply (f_equal (skipn 2)) in E. change (print_route p ++ 10 :: x = print_route p' ++ 10 :: y) in E. apply (app_sep_inj 10) in E as [E1 E]; [|apply print_route_line; try discriminate; lia|apply print_route_line; try discriminate; lia|right; eexists; reflexivity|right; eexists; reflexivity]. apply print_route_inj in E1. subst p'. injection E as ->. now split.
Qed.
Theorem C66_table : forall (S0 : Type) (c : config S0) id x,
  ask c id "get-routes" [] x = (x, answer id "get-routes" [] (lit "WAN Routes" ++ [10] ++ flat_map table_line (table (fst x)))).
Proof.
  intros S0 c id x. rewrite (ask_eq c id "get-routes" [] x (query (no_args print_routes)) eq_refl). unfold query, no_args, print_routes, table. cbn [fst snd]. do 4 f_equal. rewrite flat_map_flat, !flat_map_concat_map. f_equal. apply map_ext. intro s. rewrite flat_map_mapped, !flat_map_concat_map. f_equal. apply map_ext. intro dr. cbn [table_line]. now rewrite route_text_eq.
Qed.
Theorem C66_table_readable : forall t u, flat_map table_line t = flat_map table_line u -> t = u.
Proof.
  induction t as [|e t IH]; intros [|f u] E; try reflexivity.
  - destruct f as [[? ?] ?]. discriminate E.
  - destruct e as [[? ?] ?]. discriminate E.
  - cbn [flat_map] in E. apply line_inj in E as [-> E]. f_equal. auto.
Qed.

(** ** What does not hold *)
Definition quiet : config unit := Config (fun _ => false) (fun n => print_int (Z.of_nat n)) (fun s _ => (s, OpValue [])) (fun s _ => (s, OpValue [])) (fun s _ => (s, OpValue [])) (fun s _ => (s, OpValue [])) (fun s _ => (s, OpValue [])) (lit "WAN").
Definition req (verb : string) (args : list string) : wevent := WRequest local (request 1 verb (map lit args)).
(** remove-switches answers as if it had removed; nothing is. *)
Theorem C66_remove_refuted : forall (S0 : Type) (c : config S0) id args zs x, ints_of args = Some zs ->
  ask c id "remove-switches" args x = (x, answer id "remove-switches" args (list_text (map (fun _ => lit "None") zs))).
Proof. intros S0 c id args zs x E. rewrite (ask_eq c id "remove-switches" args x (query (fun _ => remove_switches)) eq_refl). unfold query, remove_switches. rewrite parse_ints_of, E, list_text_eq. reflexivity. Qed.
(** add-switches that is refused may have added some. *)
Theorem C66_add_refuted : exists es, refusal 1 "add-switches" [lit "7"; lit "seven"] (snd (ask quiet 1 "add-switches" [lit "7"; lit "seven"] (managed quiet tt es))) /\
  wan_prefixes (n_routes (fst (fst (ask quiet 1 "add-switches" [lit "7"; lit "seven"] (managed quiet tt es))))) = [7].
Proof. exists []. split; [eexists; split; [|vm_compute; reflexivity]; discriminate|vm_compute; reflexivity]. Qed.
(** set-direct-connections that is refused has taken the location's connections down. *)
Theorem C66_direct_refuted : exists es args, refusal 1 "set-direct-connections" args (snd (ask quiet 1 "set-direct-connections" args (managed quiet tt es))) /\
  snd (ask quiet 1 "get-route" [lit "1"; lit "2"] (managed quiet tt es)) = answer 1 "get-route" [lit "1"; lit "2"] (lit "[2]") /\
  snd (ask quiet 1 "get-route" [lit "1"; lit "2"] (fst (ask quiet 1 "set-direct-connections" args (managed quiet tt es)))) = answer 1 "get-route" [lit "1"; lit "2"] (lit "[]").
Proof.
  exists [req "add-switches" ["1"; "2"]; req "set-direct-connections" ["1"; "2"]]%string, [lit "1"; lit "9"]. split; [eexists; split; [|vm_compute; reflexivity]; discriminate|]. split; vm_compute; reflexivity.
Qed.
(** set-location to a place where there is no switch is answered "Changed"; the device's packets go nowhere. *)
Theorem C66_nowhere_refuted : exists es, snd (ask quiet 1 "set-location" [lit "0"; lit "5"] (managed quiet tt es)) = answer 1 "set-location" [lit "0"; lit "5"] (lit "Changed") /\
  (forall fuel dest, exists k, net_send (c_lost quiet) (S fuel) 0 dest (fst (fst (ask quiet 1 "set-location" [lit "0"; lit "5"] (managed quiet tt es)))) = Some (k, [])).
Proof.
  exists [req "add-switches" ["1"]; WConnect 0; WAnnounce 0 (lit "1.0.0.4")]%string. split; [vm_compute; reflexivity|]. intros fuel dest. set (x := ask _ _ _ _ _). assert (E : dget (n_conn (fst (fst x))) 0%nat = Some (Router (Some (lit "1.0.0.4")) (Some 5) false)) by (vm_compute; reflexivity).
  unfold net_send. rewrite E. unfold router_outbound. cbn [r_there]. destruct (negb (is_valid_string ClsBlock dest)); eexists; reflexivity.
Qed.

(** ** Non-vacuity: a WAN of four places, managed *)
Definition c66_history : list wevent := [req "add-switches" ["1"; "2"; " 3 "; "4"]; WConnect 0; WAnnounce 0 (lit "1.0.0.4"); req "set-location" ["0"; "2"];
  req "set-direct-connections" ["2"; "1"; "3"]; req "set-direct-connections" ["4"; "3"]; req "add-switches" ["5"; "x"]; WRequest (Some (lit "10.0.0.9")) (request 1 "add-switches" [lit "6"])]%string.
Example C66_example :
  g_nodes (map_after c66_history) = [1; 2; 3; 4; 5] /\
  snd (ask quiet 3 "get-route" [lit "1"; lit "4"] (managed quiet tt c66_history)) = answer 3 "get-route" [lit "1"; lit "4"] (lit "[2, 3, 4]") /\
  snd (ask quiet 3 "list-connections" [] (managed quiet tt c66_history)) = answer 3 "list-connections" [] (lit "WAN connections" ++ [10; 9] ++ lit "0: 2" ++ [10]) /\
  snd (ask quiet 4 "set-direct-connections" [lit "4"; lit "3"] (managed quiet tt (firstn 5 c66_history))) = answer 4 "set-direct-connections" [lit "4"; lit "3"] (lit "None") /\
  (forall peer r, In (WRequest peer r) (skipn 6 c66_history) -> m_request r <> lit "set-direct-connections").
Proof.
  split; [vm_compute; reflexivity|]. split; [vm_compute; reflexivity|]. split; [vm_compute; reflexivity|]. split; [vm_compute; reflexivity|]. intros peer r [E|[E|[]]]; injection E as _ <-; discriminate.
Qed.
Print Assumptions C66_calls. Print Assumptions C66_add. Print Assumptions C66_direct. Print Assumptions C66_map. Print Assumptions C66_shortest. Print Assumptions C66_location. Print Assumptions C66_connections. Print Assumptions C66_moved. Print Assumptions C66_questions. Print Assumptions C66_remote. Print Assumptions C66_arguments. Print Assumptions C66_readable. Print Assumptions C66_table. Print Assumptions C66_table_readable.
Print Assumptions C66_remove_refuted. Print Assumptions C66_add_refuted. Print Assumptions C66_direct_refuted. Print Assumptions C66_nowhere_refuted.
