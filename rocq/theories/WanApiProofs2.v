(** * The map after a history of requests, and the printed answers *)
From Coq Require Import String.
From Coq Require Import List ZArith Bool Lia.
From Verif Require Import PyBase PyLemmas AddrModel SwitchModel SpmpModel WanModel WanSpec WanProofs WanNetModel WanNetSpec WanNetProofs5 WanApiModel WanApiSpec WanApiProofs.
Import ListNotations.
Open Scope Z_scope.

Lemma sw_do_routes f p g : n_routes (sw_do f p g) = n_routes g.
Proof. unfold sw_do. destruct (dget (n_sw g) p); [destruct (f s); reflexivity|reflexivity]. Qed.
Lemma set_prefix_routes n p t g : n_routes (set_prefix n p t g) = n_routes g.
Proof.
  unfold set_prefix. destruct (dget (n_conn g) n) as [rt|]; [|reflexivity].
  assert (X1 : n_routes (match r_there rt, r_prefix rt, r_addr rt with true, Some q, Some _ => sw_do (sw_unregister (Dev n)) q g | _, _, _ => g end) = n_routes g).
  { destruct (r_there rt); [|reflexivity]. destruct (r_prefix rt); [|reflexivity]. destruct (r_addr rt); [apply sw_do_routes|reflexivity]. }
  destruct t, p, (r_addr rt); cbn; rewrite ?sw_do_routes; cbn; exact X1.
Qed.
Definition wops (h : list nop) : list (wop Z) := flat_map (fun o => match o with NReg p => [WReg p] | NSet r ds => [WSet r ds] | _ => [] end) h.
Section A.
Variable lost : nat -> bool.
Lemma create_routes r qs : forall g, n_routes (fold_left (fun g q => link_create lost r q g) qs g) = n_routes g.
Proof.
  induction qs as [|q qs IH]; intros g; cbn; [reflexivity|]. rewrite IH. unfold link_create. cbn.
  assert (An : forall l a g, n_routes (announce_to lost l a g) = n_routes g). { intros l a g0. unfold announce_to. destruct (lost (n_draws g0)); [reflexivity|]. destruct (end_at g0 l); [rewrite sw_do_routes|]; reflexivity. }
  now rewrite !An.
Qed.
Lemma net_set_routes r ds g : n_routes (fst (net_set lost r ds g)) = fst (wan_set r ds (n_routes g)) /\ snd (net_set lost r ds g) = snd (wan_set r ds (n_routes g)).
Proof.
  unfold net_set. destruct (dhas (n_routes g) r) eqn:D; cbn [negb].
  - destruct (wan_set r ds (n_routes g)) as [a [u|e]] eqn:W; cbn [fst snd]; [rewrite create_routes|]; split; reflexivity.
  - unfold wan_set. rewrite D. split; reflexivity.
Qed.
Lemma run_routes h : forall g, n_routes (net_run lost h g) = wan_run (wops h) (n_routes g).
Proof.
  induction h as [|o h IH]; intro g; [reflexivity|]. unfold net_run in *. cbn [fold_left]. rewrite IH. cbn [wops flat_map]. fold (wops h). destruct o as [n|n a|n p|n|p|r ds]; cbn [net_step app wan_run wan_step].
  - unfold net_connect. now destruct (dhas (n_conn g) n).
  - unfold net_announce. destruct (dhas (n_conn g) n && is_valid_string ClsBlock a); [|reflexivity]. cbn. now rewrite set_prefix_routes.
  - unfold net_locate. destruct (dhas (n_conn g) n); cbn [fst]; [now rewrite set_prefix_routes|reflexivity].
  - unfold net_lost. destruct (dhas (n_conn g) n); [|reflexivity]. cbn. now rewrite set_prefix_routes.
  - f_equal. unfold net_register, wan_register. now destruct (dhas (n_routes g) p).
  - f_equal. apply net_set_routes.
Qed.
Context {S0 : Type}.
Variables (peername : nat -> pystr) (f1 f2 f3 f4 f5 : S0 -> list pystr -> S0 * opres) (name : pystr).
Notation step := (w_step lost peername f1 f2 f3 f4 f5 name).
Notation run := (w_run lost peername f1 f2 f3 f4 f5 name).
Lemma wops_regs zs : wops (map NReg zs) = map WReg zs.
Proof. induction zs as [|z zs IH]; [reflexivity|]. cbn. now f_equal. Qed.
(** one event: the route table and the map go together *)
Lemma event_effect_ops e g G : wan_prefixes (n_routes g) = g_nodes G -> event_effect e G = g_run (wops (event_calls peername e g)) G.
Proof.
  intro N. destruct e as [n|n a|n|[h|] r]; try reflexivity. cbn [event_effect event_calls]. destruct (list_eq_dec Z.eq_dec h (lit "127.0.0.1")); [|reflexivity]. unfold request_effect, request_calls.
  destruct (list_eq_dec Z.eq_dec (m_request r) (lit "add-switches")); [now rewrite wops_regs, N|]. destruct (list_eq_dec Z.eq_dec (m_request r) (lit "set-direct-connections")).
  - destruct (ints_of (m_args r)) as [[|z zs]|]; reflexivity.
  - destruct (list_eq_dec Z.eq_dec (m_request r) (lit "set-location")); [|reflexivity]. destruct (m_args r) as [|nm [|p [|? ?]]]; try reflexivity. destruct (parse_int p); [|reflexivity]. destruct (find _ _); reflexivity.
Qed.
Fixpoint all_ops (es : list wevent) (x : wstate) : list (wop Z) :=
  match es with [] => [] | e :: r => wops (event_calls peername e (fst x)) ++ all_ops r (fst (step e x)) end.
Lemma run_cons e es x : fst (run (e :: es) x) = fst (run es (fst (step e x))).
Proof. cbn [w_run]. destruct (step e x) as [x1 l1]. cbn [fst]. now destruct (run es x1). Qed.
Lemma run_app' es fs : forall x, fst (run (es ++ fs) x) = fst (run fs (fst (run es x))).
Proof. induction es as [|e es IH]; intro x; [reflexivity|]. cbn [app]. now rewrite !run_cons, IH. Qed.
Lemma run_ops es : forall x, n_routes (fst (fst (run es x))) = wan_run (all_ops es x) (n_routes (fst x)).
Proof.
  induction es as [|e es IH]; intro x; [reflexivity|]. rewrite run_cons, IH. cbn [all_ops]. rewrite run_app. f_equal. now rewrite step_calls, run_routes.
Qed.
Lemma g_app os : forall ps (g : graph Z), g_run (os ++ ps) g = g_run ps (g_run os g).
Proof. induction os as [|o os IH]; intros ps g; [reflexivity|]. cbn. apply IH. Qed.
Lemma all_ops_app es fs : forall x, all_ops (es ++ fs) x = all_ops es x ++ all_ops fs (fst (run es x)).
Proof. induction es as [|e es IH]; intro x; [reflexivity|]. cbn [app all_ops]. now rewrite IH, run_cons, app_assoc. Qed.
Lemma map_ops es : forall x G os, n_routes (fst x) = wan_run os routes_new -> G = g_run os g_new -> fold_left (fun g e => event_effect e g) es G = g_run (all_ops es x) G.
Proof.
  induction es as [|e es IH]; intros x G os R HG; [reflexivity|]. cbn [fold_left all_ops]. rewrite g_app.
  assert (K : wan_prefixes (n_routes (fst x)) = g_nodes G) by (rewrite R, HG; unfold wan_prefixes; exact (i_keys _ _ (run_inv os _ _ (inv_new (P:=Z))))).
  rewrite (event_effect_ops e (fst x) G K). apply (IH (fst (step e x)) _ (os ++ wops (event_calls peername e (fst x)))).
  - now rewrite step_calls, run_routes, run_app, R.
  - now rewrite g_app, HG.
Qed.
Lemma map_new es (s : S0) : map_after es = g_run (all_ops es (net_new, s)) g_new.
Proof. unfold map_after. apply (map_ops es (net_new, s) g_new []); reflexivity. Qed.
End A.

(** ** Texts *)
Lemma commas_join ps : commas ps = match ps with [] => [] | p :: r => p ++ flat_map (fun q => 44 :: 32 :: q) r end.
Proof. induction ps as [|p r IH]; [reflexivity|]. destruct r as [|q r]; [cbn; now rewrite app_nil_r|]. cbn [commas] in *. rewrite IH. reflexivity. Qed.
Lemma app_sep_inj (c : Z) a b x y : ~ In c a -> ~ In c b -> (x = [] \/ exists x', x = c :: x') -> (y = [] \/ exists y', y = c :: y') -> a ++ x = b ++ y -> a = b /\ x = y.
Proof.
  revert b. induction a as [|u a IH]; intros [|v b] A B X Y E; cbn in E.
  - now split.
  - destruct X as [->|[x' ->]]; [discriminate|]. injection E as <- _. exfalso. apply B. now left.
  - destruct Y as [->|[y' ->]]; [discriminate|]. injection E as -> _. exfalso. apply A. now left.
  - injection E as <- E. destruct (IH b) as [-> ->]; auto; [intro; apply A; now right|intro; apply B; now right].
Qed.
Lemma tail_inj rs : forall ss, Forall (fun p => ~ In 44 p) rs -> Forall (fun p => ~ In 44 p) ss -> flat_map (fun q => 44 :: 32 :: q) rs = flat_map (fun q => 44 :: 32 :: q) ss -> rs = ss.
Proof.
  induction rs as [|p r IH]; intros [|q s] A B E; try reflexivity; try discriminate. cbn in E. injection E as E. inversion A; inversion B; subst.
  destruct (app_sep_inj 44 p q (flat_map (fun q => 44 :: 32 :: q) r) (flat_map (fun q => 44 :: 32 :: q) s)) as [-> E2]; auto; try (destruct r; [now left|right; eexists; reflexivity]); try (destruct s; [now left|right; eexists; reflexivity]).
  f_equal. now apply IH.
Qed.
Lemma commas_inj rs ss : Forall (fun p => p <> [] /\ ~ In 44 p) rs -> Forall (fun p => p <> [] /\ ~ In 44 p) ss -> commas rs = commas ss -> rs = ss.
Proof.
  intros A B E. rewrite !commas_join in E.
  assert (A' : Forall (fun p => ~ In 44 p) rs) by (eapply Forall_impl; [|exact A]; now intros ? []). assert (B' : Forall (fun p => ~ In 44 p) ss) by (eapply Forall_impl; [|exact B]; now intros ? []).
  destruct rs as [|p r], ss as [|q s]; [reflexivity|inversion B as [|? ? [X _]]; destruct q; [contradiction|discriminate]|inversion A as [|? ? [X _]]; destruct p; [contradiction|discriminate]|].
  inversion A'; inversion B'; subst.
  destruct (app_sep_inj 44 p q (flat_map (fun q => 44 :: 32 :: q) r) (flat_map (fun q => 44 :: 32 :: q) s)) as [-> E2]; auto; try (destruct r; [now left|right; eexists; reflexivity]); try (destruct s; [now left|right; eexists; reflexivity]).
  f_equal. now apply tail_inj.
Qed.
Lemma print_nonempty z : print_int z <> []. Proof. intro E. pose proof (parse_print z) as P. rewrite E in P. discriminate. Qed.
Lemma ints_clean zs : Forall (fun p => p <> [] /\ ~ In 44 p) (map print_int zs).
Proof. apply Forall_map, Forall_forall. intros z _. split; [apply print_nonempty|apply print_int_no; [discriminate|lia]]. Qed.
Lemma map_print_inj a : forall b, map print_int a = map print_int b -> a = b.
Proof. induction a as [|x a IH]; intros [|y b] E; try discriminate; [reflexivity|]. injection E as E1 E2. apply print_int_inj in E1. subst. f_equal. auto. Qed.
Lemma print_route_inj a b : print_route a = print_route b -> a = b.
Proof. unfold print_route, py_list. intro E. injection E as E. apply app_inj_tail in E as [E _]. apply commas_inj in E; [|apply ints_clean|apply ints_clean]. now apply map_print_inj. Qed.
Lemma print_route_line z r : z <> 91 -> z <> 93 -> z <> 44 -> z <> 32 -> z <> ch_minus -> ~ (48 <= z <= 57) -> ~ In z (print_route r).
Proof.
  intros A B C D E F I0. unfold print_route, py_list in I0. cbn in I0. destruct I0 as [I0|I0]; [congruence|]. apply in_app_or in I0 as [I0|[I0|[]]]; [|congruence]. rewrite commas_join in I0. destruct (map print_int r) as [|p q] eqn:M; [destruct I0|].
  assert (W : Forall (fun p => ~ In z p) (p :: q)) by (rewrite <- M; apply Forall_map, Forall_forall; intros; now apply print_int_no). inversion W as [|? ? W1 W2]; subst. apply in_app_or in I0 as [I0|I0]; [contradiction|]. apply in_flat_map in I0 as (y & Y & I0). rewrite Forall_forall in W2. destruct I0 as [I0|[I0|I0]]; try congruence. now apply (W2 y).
Qed.
