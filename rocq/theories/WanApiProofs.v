(** * The verbs come to calls of the WAN *)
From Coq Require Import String.
From Coq Require Import List ZArith Bool Lia.
From Verif Require Import PyBase PyLemmas AddrModel SwitchModel SpmpModel WanModel WanSpec WanProofs WanNetModel WanNetSpec WanNetProofs5 WanApiModel WanApiSpec.
Import ListNotations.
Open Scope Z_scope.

Lemma parse_ints_of args : parse_ints args = ints_of args.
Proof. induction args as [|a r IH]; [reflexivity|]. cbn. rewrite IH. fold (ints_of r). destruct (parse_int a); [|reflexivity]. now destruct (ints_of r). Qed.
Lemma name_ints_of args zs : name_ints args zs <-> ints_of args = Some zs.
Proof.
  split.
  - induction 1 as [|a z args zs P N IH]; [reflexivity|]. cbn. fold (ints_of args). now rewrite P, IH.
  - revert zs. induction args as [|a r IH]; intros zs E; cbn in E; [injection E as <-; constructor|]. fold (ints_of r) in E. destruct (parse_int a) eqn:P; [|discriminate]. destruct (ints_of r) eqn:R; [|discriminate]. injection E as <-. constructor; auto.
Qed.
Lemma reg_keys (p : Z) (a : routes Z) : dhas a p = false -> wan_prefixes (dset a p []) = wan_prefixes a ++ [p].
Proof.
  unfold wan_prefixes, dkeys, dhas. induction a as [|[k v] a IH]; [reflexivity|]. cbn. destruct (eq_dec p k); [discriminate|]. intro N. cbn. now rewrite IH.
Qed.
Lemma dhas_in (a : routes Z) p : dhas a p = true <-> In p (wan_prefixes a).
Proof.
  unfold wan_prefixes, dkeys, dhas. induction a as [|[k v] a IH]; cbn; [split; [discriminate|tauto]|]. destruct (eq_dec p k) as [->|N]; [split; auto|]. rewrite IH. intuition congruence.
Qed.
Section A.
Context {S0 : Type}.
Variables (lost : nat -> bool) (peername : nat -> pystr) (f1 f2 f3 f4 f5 : S0 -> list pystr -> S0 * opres) (name : pystr).
Notation api := (wan_api lost peername f1 f2 f3 f4 f5).
Notation step := (w_step lost peername f1 f2 f3 f4 f5 name).
Notation run := (w_run lost peername f1 f2 f3 f4 f5 name).
Notation sv := (wan_server lost peername f1 f2 f3 f4 f5 name).
Notation netrun := (net_run lost).
Lemma net_register_ok p g : dhas (n_routes g) p = false -> exists g', net_register p g = (g', Ok tt) /\ wan_prefixes (n_routes g') = wan_prefixes (n_routes g) ++ [p].
Proof. intro D. unfold net_register, wan_register. rewrite D. eexists. split; [reflexivity|]. now apply reg_keys. Qed.
Lemma net_register_dup p g : dhas (n_routes g) p = true -> net_register p g = (g, Raise GenericException).
Proof. intro D. unfold net_register, wan_register. now rewrite D. Qed.
Lemma add_calls args : forall k g, fst (add_switches k args g) = netrun (map NReg (addable (wan_prefixes (n_routes g)) args)) g.
Proof.
  induction args as [|a r IH]; intros k g; [reflexivity|]. cbn [add_switches addable]. destruct (parse_int a) as [z|]; [|reflexivity]. destruct (in_dec Z.eq_dec z (wan_prefixes (n_routes g))) as [Y|N].
  - apply dhas_in in Y. now rewrite net_register_dup.
  - assert (D : dhas (n_routes g) z = false) by (apply not_true_iff_false; now rewrite dhas_in). destruct (net_register_ok z g D) as (g' & E & K). rewrite E, IH, K. cbn [map]. unfold net_run. cbn [fold_left net_step]. now rewrite E.
Qed.
Lemma add_result args : forall k g,
  (List.length (addable (wan_prefixes (n_routes g)) args) = List.length args /\ snd (add_switches k args g) = OpValue (py_list (repeat (lit "None") (k + List.length args)))) \/
  ((List.length (addable (wan_prefixes (n_routes g)) args) < List.length args)%nat /\ exists m, m <> [] /\ snd (add_switches k args g) = OpRaises m).
Proof.
  induction args as [|a r IH]; intros k g; [left; cbn; now rewrite Nat.add_0_r|]. cbn [add_switches addable]. destruct (parse_int a) as [z|].
  - destruct (in_dec Z.eq_dec z (wan_prefixes (n_routes g))) as [Y|N].
    + right. apply dhas_in in Y. rewrite net_register_dup by exact Y. split; [cbn; lia|]. eexists. split; [|reflexivity]. discriminate.
    + assert (D : dhas (n_routes g) z = false) by (apply not_true_iff_false; now rewrite dhas_in). destruct (net_register_ok z g D) as (g' & E & K). rewrite E. destruct (IH (S k) g') as [[L R]|[L R]]; rewrite K in L; [left|right]; cbn [List.length].
      * split; [lia|]. rewrite R. do 3 f_equal. lia.
      * split; [lia|exact R].
  - right. split; [cbn; lia|]. eexists. split; [|reflexivity]. discriminate.
Qed.
Lemma direct_calls args g : fst (set_direct lost args g) = netrun (match ints_of args with Some (r :: ds) => [NSet r ds] | _ => [] end) g.
Proof.
  destruct args as [|a r]; [reflexivity|]. cbn [set_direct]. rewrite parse_ints_of. destruct (ints_of (a :: r)) as [[|z zs]|]; try reflexivity. unfold net_run. cbn [fold_left net_step]. destruct (net_set lost z zs g) as [g' [u|e]]; reflexivity.
Qed.
Lemma find_name n g : by_name peername n g = find (fun m => if list_eq_dec Z.eq_dec (peername m) n then true else false) (map fst (n_conn g)).
Proof.
  unfold by_name. induction (n_conn g) as [|[m rt] c IH]; [reflexivity|]. cbn [filter map find fst]. unfold eqb. destruct (eq_dec (peername m) n) as [E|E]; destruct (list_eq_dec Z.eq_dec (peername m) n); try contradiction; [reflexivity|exact IH].
Qed.
Lemma location_calls args (x : wstate) : fst (fst (set_location peername x args)) = netrun (match args with
    | [n; prefix] => match parse_int prefix, find (fun m => if list_eq_dec Z.eq_dec (peername m) n then true else false) (map fst (n_conn (fst x))) with Ok p, Some m => [NLocate m p] | _, _ => [] end
    | _ => [] end) (fst x) /\ snd (fst (set_location (Settings := S0) peername x args)) = snd x.
Proof.
  destruct args as [|n [|p [|? ?]]]; try (split; reflexivity). cbn [set_location]. rewrite <- find_name. destruct (parse_int p); [|split; reflexivity]. destruct (by_name peername n (fst x)); split; reflexivity.
Qed.
(** an operation's effect on the network *)
Lemma op_calls v op : dget api v = Some op -> forall x args, fst (fst (op x args)) = netrun (request_calls peername v args (fst x)) (fst x).
Proof.
  intros E x args. unfold wan_api, verb_names in E. cbn [map combine dget] in E. unfold request_calls.
  repeat (match type of E with context [if eq_dec v ?k then _ else _] => destruct (eq_dec v k) as [->|] end;
    [injection E as <-; repeat match goal with |- context [list_eq_dec Z.eq_dec (lit ?a) (lit ?b)] => let d := eval vm_compute in (if list_eq_dec Z.eq_dec (lit a) (lit b) then true else false) in destruct (list_eq_dec Z.eq_dec (lit a) (lit b)) as [X|X]; [match d with false => discriminate X | _ => idtac end|match d with true => exfalso; apply X; reflexivity | _ => idtac end]; clear X end|]).
  all: try discriminate.
  all: try reflexivity.
  all: try (unfold setting; destruct (_ (snd x) args); reflexivity).
  - apply location_calls.
  - unfold on_net. pose proof (add_calls args 0 (fst x)) as A. destruct (add_switches 0 args (fst x)). exact A.
  - unfold on_net. pose proof (direct_calls args (fst x)) as A. destruct (set_direct lost args (fst x)). exact A.
Qed.
Lemma unknown_calls v : dget api v = None -> forall args g, request_calls peername v args g = [].
Proof.
  intros E args g. unfold request_calls. destruct (list_eq_dec Z.eq_dec v (lit "add-switches")) as [->|]; [discriminate E|]. destruct (list_eq_dec Z.eq_dec v (lit "set-direct-connections")) as [->|]; [discriminate E|]. destruct (list_eq_dec Z.eq_dec v (lit "set-location")) as [->|]; [discriminate E|]. reflexivity.
Qed.
Lemma step_calls e x : fst (fst (step e x)) = netrun (event_calls peername e (fst x)) (fst x).
Proof.
  destruct e as [n|n a|n|peer r]; try reflexivity. cbn [w_step event_calls]. unfold process. cbn [wan_server s_security s_api].
  unfold local_access. destruct peer as [h|]; [|reflexivity]. unfold eqb. destruct (eq_dec h local_host) as [->|N].
  - cbn [negb]. destruct (list_eq_dec Z.eq_dec local_host (lit "127.0.0.1")) as [_|X]; [|exfalso; apply X; reflexivity].
    destruct (dget api (m_request r)) as [op|] eqn:E.
    + rewrite <- (op_calls _ _ E). destruct (op x (m_args r)) as [x' [s|m]]; reflexivity.
    + now rewrite unknown_calls.
  - cbn [negb]. destruct (list_eq_dec Z.eq_dec h (lit "127.0.0.1")) as [X|_]; [exfalso; apply N; exact X|reflexivity].
Qed.
End A.
