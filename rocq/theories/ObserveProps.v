(** * C53: observing protocols (network/common/Protocol.py 87-193) *)
From Coq Require Import String.
From Coq Require Import List ZArith Bool Lia Permutation.
From Verif Require Import PyBase ObserveModel ObserveSpec ObserveProofs ObserveProofs2.
Import ListNotations.
Open Scope nat_scope.

(** C53. For every environment (what protocols, transports and listeners do when
    called, nested calls included) and every history, what happens is what the
    specification without replaced methods says: the protocol's own method runs
    once per call, then every present listener is told; exceptions included. *)
Theorem C53_observation_exact :
  forall (E : env) (n : nat) (ops : list op) (o : ost),
  orun E n ops ost0 = Some o -> s_out (run E n ops pst0) = o_out o.
Proof. intros E n ops o R. apply (i_out _ _ (sim_run E n ops _ _ _ inv_new R)). Qed.
Print Assumptions C53_observation_exact.

(** C53. Observing changes nothing for the observed: if the listeners only look
    and the programs do not see them, the calls of the protocols' own methods
    and of the transports' own write, and the exceptions, are those of the same
    program with every Listen and StopListening removed, in the same order. *)
Theorem C53_observing_changes_nothing :
  forall (E : env) (n : nat) (ops : list op),
  silent E -> blind E -> (forall p, style E p <> NoAttr) -> orun E n ops ost0 <> None ->
  unnoted (s_out (run E n ops pst0)) = s_out (run (unobserved_env E) n (unobserved ops) pst0).
Proof.
  intros E n ops Si Bl St R. destruct (orun E n ops ost0) as [o|] eqn:O; [|congruence].
  assert (N0 : N ost0 ost0) by (constructor; auto).
  destruct (n_run E n ops Si Bl St _ _ _ N0 O) as (o' & O' & N').
  rewrite (i_out _ _ (sim_run _ _ _ _ _ _ inv_new O)), (i_out _ _ (sim_run _ _ _ _ _ _ inv_new O')).
  apply (n_out _ _ N').
Qed.
Print Assumptions C53_observing_changes_nothing.

(** C53. Nothing is left behind: after any history, a protocol nobody listens to
    has its own methods back, and a transport whose protocol nobody listens to
    has its own write back. *)
Theorem C53_nothing_left_behind :
  forall (E : env) (n : nat) (ops : list op), orun E n ops ost0 <> None ->
  let s := run E n ops pst0 in
  (forall p, s_obs s p = None -> forall k, s_slot s p k = Some MOrig) /\
  (forall t, s_write s t = MOrig \/
     exists p a, s_obs s p = Some a /\ s_write s t = MWrap a /\ ad_listeners (s_ad s a) <> []).
Proof.
  intros E n ops R s. destruct (orun E n ops ost0) as [o|] eqn:O; [|congruence].
  pose proof (sim_run _ _ _ _ _ _ inv_new O) as I. fold s in I. split.
  - intros p Hp k. pose proof (i_sess _ _ I p) as D. destruct (o_sess o p) as [x|].
    + rewrite (so_obs _ _ _ _ D) in Hp. discriminate.
    + apply D.
  - intros t. pose proof (i_tap _ _ I t) as T. destruct (o_tap o t) as [p|] eqn:Tp; auto. right.
    destruct T as (x & P & Tx). pose proof (i_sess _ _ I p) as D. rewrite P in D.
    exists p, (x_id x). split; [apply D|]. pose proof (so_tap _ _ _ _ D) as Z. rewrite Tx in Z. split; [apply Z|].
    rewrite (so_ls _ _ _ _ D). apply D.
Qed.
Print Assumptions C53_nothing_left_behind.

(** ** who is told *)
(** nobody reacts to anything *)
Definition quiet (E : env) : Prop :=
  (forall tr p e, app E tr p e = React [] false) /\ (forall tr t d, peer E tr t d = React [] false) /\ silent E.
(** those who listen to [p] after a history: Listen adds, StopListening removes,
    connection_lost removes all *)
Definition hear1 (p : nat) (ls : list nat) (c : op) : list nat :=
  match c with
  | Listen q l => if q =? p then set_add l ls else ls
  | Stop q l => if q =? p then set_remove l ls else ls
  | Lost q => if q =? p then [] else ls
  | _ => ls
  end.
Definition audience (ops : list op) (p : nat) : list nat := fold_left (hear1 p) ops [].
Definition ls_of (o : ost) (p : nat) : list nat := match o_sess o p with Some x => x_ls x | None => [] end.

Lemma operform_quiet f (s : ost) : operform f (React [] false) s = (s, Fine).
Proof. reflexivity. Qed.
Lemma otell_quiet E f x p e : silent E -> forall ls s, o_sess s p = Some x ->
  otell E f x p e ls s = (Ost (o_sess s) (o_tap s) (o_trans s) (o_next s) (o_out s ++ map (fun l => ONote l p e) ls), Fine).
Proof.
  intros Si. induction ls as [|l r IH]; intros s P; cbn [otell map]; [rewrite app_nil_r; now destruct s|].
  rewrite Si, operform_quiet. unfold oThen. cbn [fst snd].
  assert (Sm : same_audience x (oemit (ONote l p e) s) p = true).
  { unfold same_audience. simpl. rewrite P, Nat.eqb_refl. now destruct (list_eq_dec Nat.eq_dec (x_ls x) (x_ls x)). }
  rewrite Sm. rewrite IH by auto. cbn [oemit o_sess o_tap o_trans o_next o_out]. now rewrite <- app_assoc.
Qed.

Definition inv_ls (o : ost) : Prop := forall p x, o_sess o p = Some x -> x_ls x <> [].
Lemma oreport_out E f p e s : silent E -> 
  let r := oreport E f p e s in
  o_out (fst r) = o_out s ++ match o_sess s p with Some x => map (fun l => ONote l p e) (order E (x_ls x)) | None => [] end /\
  (snd r <> Misuse -> forall q, ls_of (fst r) q =
     match e with ELost => if q =? p then [] else ls_of s q | _ => ls_of s q end).
Proof.
  intros Si. unfold oreport. destruct (o_sess s p) as [x|] eqn:P.
  - rewrite (otell_quiet _ _ _ _ _ Si _ _ P). unfold oThen. cbn [fst snd].
    set (s1 := Ost _ _ _ _ _). assert (P1 : o_sess s1 p = Some x) by exact P.
    destruct e as [u| |d|d]; try (cbn [fst snd]; split; [reflexivity|]; intros _ q; reflexivity).
    + assert (T : forall v, o_out (fst (o_tapping p v s1)) = o_out s1 /\ (snd (o_tapping p v s1) <> Misuse -> forall q, ls_of (fst (o_tapping p v s1)) q = ls_of s1 q)).
      { intros v. unfold o_tapping. rewrite P1. destruct (x_tap x); [split; auto|]. destruct (o_tap s1 v); [split; auto|].
        split; auto. intros _ q. unfold ls_of. cbn [fst o_sess]. unfold fset. destruct (Nat.eqb_spec q p) as [->|]; auto. now rewrite P1. }
      destruct (style E p); try (split; [reflexivity|]; intros _ q; reflexivity);
        (destruct (o_trans s1 p) as [v|]; [destruct (T v) as [-> T2]; split; [reflexivity|exact T2]|split; [reflexivity|]; intros _ q; reflexivity]).
    + cbn [fst snd]. unfold o_end. rewrite P1. split; [reflexivity|]. intros _ q. unfold ls_of. cbn [o_sess]. unfold fset.
      destruct (Nat.eqb_spec q p) as [->|]; auto.
  - cbn [fst snd]. rewrite app_nil_r. split; auto. intros _ q. destruct e; auto.
    destruct (Nat.eqb_spec q p) as [->|]; auto. unfold ls_of. now rewrite P.
Qed.

Lemma set_remove_nil l ls : set_remove l ls = [] -> existsb (Nat.eqb l) ls = false -> ls = [].
Proof. intros R X. rewrite (remove_absent _ _ X) in R. auto. Qed.

Lemma ocall_quiet E n p e s : quiet E -> (forall d, e <> ESent d) ->
  let r := ocall E (oexec E n) p e s in
  o_out (fst r) = o_out s ++ OCall p e :: map (fun l => ONote l p e) (match o_sess s p with Some x => order E (x_ls x) | None => [] end) /\
  (snd r <> Misuse -> forall q, ls_of (fst r) q = match e with ELost => if q =? p then [] else ls_of s q | _ => ls_of s q end).
Proof.
  intros (Qa & Qp & Si) Ne. unfold ocall, oown. rewrite Qa, operform_quiet. unfold oThen. cbn [fst snd].
  set (s1 := match e with EMade t => _ | _ => _ end).
  assert (Es : forall q, ls_of (oemit (OCall p e) s1) q = ls_of s q).
  { intros q. unfold s1, ls_of. destruct e; auto. destruct (style E p); auto. }
  assert (Eo : o_out (oemit (OCall p e) s1) = o_out s ++ [OCall p e]).
  { unfold s1. destruct e; auto. destruct (style E p); auto. }
  assert (Ep : o_sess (oemit (OCall p e) s1) = o_sess s).
  { unfold s1. destruct e; auto. destruct (style E p); auto. }
  destruct (o_sess s p) as [x|] eqn:P.
  - destruct (oreport_out E (oexec E n) p e (oemit (OCall p e) s1) Si) as [A B]. split.
    + rewrite A, Eo, Ep, P, <- app_assoc. reflexivity.
    + intros M q. rewrite (B M q). destruct e; rewrite Es; auto.
  - cbn [fst snd map]. split; auto. intros _ q. destruct e; rewrite Es; auto.
    destruct (Nat.eqb_spec q p) as [->|]; auto. unfold ls_of. now rewrite P.
Qed.

Lemma audience_step E n c s : quiet E -> n <> 0 -> snd (oexec E n c s) <> Misuse ->
  forall p, ls_of (fst (oexec E n c s)) p = hear1 p (ls_of s p) c.
Proof.
  intros Q Nz M p. destruct n as [|n]; [congruence|]. destruct c as [q l|q l|q t|q|q d|t d]; cbn [oexec hear1] in *.
  - cbn [fst]. unfold o_listen, ls_of. destruct (o_sess s q) as [x|] eqn:Sq; cbn [o_sess]; unfold fset;
      rewrite Nat.eqb_sym; (destruct (Nat.eqb_spec q p) as [->|]; [rewrite Sq|]); auto.
  - cbn [fst]. unfold o_stop, ls_of. destruct (o_sess s q) as [x|] eqn:Sq.
    + destruct (set_remove l (x_ls x)) as [|z r] eqn:R.
      * destruct (existsb (Nat.eqb l) (x_ls x)) eqn:Ex.
        -- unfold o_end. rewrite Sq. cbn [o_sess]. unfold fset. rewrite Nat.eqb_sym. destruct (Nat.eqb_spec q p) as [->|]; auto. rewrite Sq. auto.
        -- destruct (Nat.eqb_spec q p) as [->|]; auto. rewrite Sq, R. now apply set_remove_nil in R.
      * cbn [o_sess]. unfold fset. rewrite Nat.eqb_sym. destruct (Nat.eqb_spec q p) as [->|]; auto. rewrite Sq. auto.
    + destruct (Nat.eqb_spec q p) as [->|]; auto. now rewrite Sq.
  - destruct (ocall_quiet E n q (EMade t) s Q ltac:(discriminate)) as [_ B]. now rewrite (B M p).
  - destruct (ocall_quiet E n q ELost s Q ltac:(discriminate)) as [_ B]. rewrite (B M p), Nat.eqb_sym. auto.
  - destruct (ocall_quiet E n q (EData d) s Q ltac:(discriminate)) as [_ B]. now rewrite (B M p).
  - destruct Q as (Qa & Qp & Si). unfold owrite in *. rewrite Qp, operform_quiet in *. unfold oThen in *. cbn [fst snd] in *.
    destruct (o_tap s t) as [q|]; auto. destruct (oreport_out E (oexec E n) q (ESent d) (oemit (OWrite t d) s) Si) as [_ B].
    now rewrite (B M p).
Qed.
Lemma audience_run E n ops : quiet E -> n <> 0 -> forall s o, orun E n ops s = Some o ->
  forall p, ls_of o p = fold_left (hear1 p) ops (ls_of s p).
Proof.
  intros Q Nz. induction ops as [|c r IH]; intros s o R p; cbn [orun fold_left] in *; [now inversion R|].
  pose proof (audience_step E n c s Q Nz) as A. destruct (oexec E n c s) as [s1 v]. cbn [fst snd] in A.
  destruct v; [|..]; try discriminate; rewrite (IH _ _ R p), <- A by discriminate; auto.
Qed.

(** does [l] listen to [p] after a history? *)
Definition hears1 (p l : nat) (b : bool) (c : op) : bool :=
  match c with
  | Listen q m => if (q =? p) && (m =? l) then true else b
  | Stop q m => if (q =? p) && (m =? l) then false else b
  | Lost q => if q =? p then false else b
  | _ => b
  end.
Definition hears (ops : list op) (p l : nat) : bool := fold_left (hears1 p l) ops false.
Lemma existsb_in l ls : existsb (Nat.eqb l) ls = true <-> In l ls.
Proof.
  rewrite existsb_exists. split; [intros (x & I & X); apply Nat.eqb_eq in X; now subst|].
  intros I. exists l. split; auto. apply Nat.eqb_refl.
Qed.
Lemma audience_hears ops : forall p ls (b : nat -> bool), NoDup ls -> (forall l, In l ls <-> b l = true) ->
  let r := fold_left (hear1 p) ops ls in NoDup r /\ forall l, In l r <-> fold_left (hears1 p l) ops (b l) = true.
Proof.
  induction ops as [|c r IH]; intros p ls b Nd Hb; cbn [fold_left]; [auto|].
  apply (IH p (hear1 p ls c) (fun l => hears1 p l (b l) c)).
  - destruct c as [q m|q m|q t|q|q d|t d]; simpl; auto; destruct (q =? p); auto; [|apply NoDup_filter; auto|constructor].
    unfold set_add. destruct (existsb (Nat.eqb m) ls) eqn:X; auto.
    apply (Permutation_NoDup (l := m :: ls)); [apply Permutation_cons_append|constructor; auto].
    intros I. apply existsb_in in I. congruence.
  - intros l. destruct c as [q m|q m|q t|q|q d|t d]; simpl; auto; destruct (q =? p); simpl; auto.
    + unfold set_add. destruct (Nat.eqb_spec m l) as [->|Ne].
      * split; auto. intros _. destruct (existsb (Nat.eqb l) ls) eqn:X; [now apply existsb_in|]. apply in_or_app. right. now left.
      * rewrite <- Hb. destruct (existsb (Nat.eqb m) ls); [tauto|]. rewrite in_app_iff. simpl. intuition congruence.
    + unfold set_remove. rewrite filter_In. destruct (Nat.eqb_spec m l) as [->|Ne].
      * rewrite Nat.eqb_refl. simpl. intuition discriminate.
      * rewrite <- Hb. destruct (Nat.eqb_spec l m); [congruence|]. simpl. tauto.
    + intuition discriminate.
Qed.

(** C53. With nobody reacting: whatever the history, a call of a protocol's
    method runs its own method once and then tells every one of its listeners
    once (in the order of the set), and nobody else. *)
Theorem C53_each_listener_once :
  forall (E : env) (n : nat) (ops : list op) (p : nat) (e : ev), quiet E -> n <> 0 ->
  (forall ls, Permutation (order E ls) ls) ->
  (e = ELost \/ (exists d, e = EData d) \/ (exists t, e = EMade t)) ->
  let c := match e with EMade t => Made p t | ELost => Lost p | EData d | ESent d => Data p d end in
  orun E n (ops ++ [c]) ost0 <> None -> style E p <> NoAttr ->
  exists told, NoDup told /\ (forall l, In l told <-> hears ops p l = true) /\
  s_out (run E n (ops ++ [c]) pst0) =
    s_out (run E n ops pst0) ++ OCall p e :: map (fun l => ONote l p e) told.
Proof.
  intros E n ops p e Q Nz Or He c R St.
  destruct (audience_hears ops p [] (fun _ => false) (NoDup_nil _) ltac:(simpl; intuition discriminate)) as [Nd Hh].
  fold (audience ops p) in Nd, Hh.
  exists (match audience ops p with [] => [] | ls => order E ls end).
  assert (Pm : Permutation (match audience ops p with [] => [] | ls => order E ls end) (audience ops p)) by (destruct (audience ops p); auto).
  split; [now apply (Permutation_NoDup (Permutation_sym Pm))|].
  split; [intros l; unfold hears; rewrite <- Hh; split; apply Permutation_in; auto using Permutation_sym|]. clear Nd Hh Pm Or. destruct (orun E n (ops ++ [c]) ost0) as [o2|] eqn:O2; [|congruence]. clear R.
  assert (Rapp : forall l1 l2 s, orun E n (l1 ++ l2) s = match orun E n l1 s with Some s1 => orun E n l2 s1 | None => None end).
  { induction l1 as [|a l1 IH]; intros l2 s; cbn [List.app orun]; auto. destruct (oexec E n a s) as [s1 v]. destruct v; auto. }
  pose proof O2 as O2'. rewrite Rapp in O2. destruct (orun E n ops ost0) as [o1|] eqn:O1; [|discriminate].
  rewrite (C53_observation_exact _ _ _ _ O2'), (C53_observation_exact _ _ _ _ O1).
  pose proof (sim_run _ _ _ _ _ _ inv_new O1) as I.
  pose proof (audience_run E n ops Q Nz _ _ O1 p) as Au. change (ls_of ost0 p) with (@nil nat) in Au. fold (audience ops p) in Au.
  assert (Ls : (match o_sess o1 p with Some x => order E (x_ls x) | None => [] end) = match audience ops p with [] => [] | ls => order E ls end).
  { rewrite <- Au. unfold ls_of. pose proof (i_sess _ _ I p) as D. destruct (o_sess o1 p) as [x|]; auto.
    pose proof (so_ne _ _ _ _ D). destruct (x_ls x); congruence. }
  cbn [orun] in O2. destruct n as [|n]; [congruence|].
  assert (X : oexec E (S n) c o1 = ocall E (oexec E n) p e o1).
  { unfold c. destruct He as [->|[(d & ->)|(t & ->)]]; reflexivity. }
  rewrite X in O2.
  assert (Nx : forall d, e <> ESent d) by (intros d; destruct He as [->|[(d' & ->)|(t & ->)]]; discriminate).
  destruct (ocall_quiet E n p e o1 Q Nx) as [A _].
  destruct (ocall E (oexec E n) p e o1) as [s1 v] eqn:Oc. cbn [fst] in A. rewrite Ls in A. rewrite <- A.
  destruct v; [now inversion O2| |discriminate].
  exfalso. clear - Oc Q St. destruct Q as (Qa & Qp & Si). unfold ocall, oown in Oc. rewrite Qa, operform_quiet in Oc. unfold oThen at 1 in Oc. cbn [fst snd] in Oc.
  destruct (o_sess o1 p) as [x0|]; [|inversion Oc].
  unfold oreport in Oc. destruct (o_sess (oemit _ _) p) as [x1|] eqn:P; [|inversion Oc].
  rewrite (otell_quiet _ _ _ _ _ Si _ _ P) in Oc. unfold oThen in Oc. cbn [fst snd] in Oc.
  destruct e; try (inversion Oc; fail). destruct (style E p); try congruence;
    (match type of Oc with context[o_trans ?a ?b] => destruct (o_trans a b) as [v|] end; [|inversion Oc]); unfold o_tapping in Oc;
    (match type of Oc with context[o_sess ?a ?b] => destruct (o_sess a b) as [y|] end; [|inversion Oc]);
    (destruct (x_tap y); [inversion Oc|]); (match type of Oc with context[o_tap ?a ?b] => destruct (o_tap a b) end; inversion Oc).
Qed.
Print Assumptions C53_each_listener_once.

(** ** Findings *)
Definition calm (st : nat -> tstyle) : env :=
  Env (fun _ _ _ => React [] false) (fun _ _ _ => React [] false) (fun _ _ _ _ => React [] false) st (fun l => l).
(** a listener that stops listening when told breaks the call *)
Theorem C53_self_removing_listener_refuted :
  let E := Env (fun _ _ _ => React [] false) (fun _ _ _ => React [] false)
               (fun _ l p _ => React [Stop p l] false) (fun _ => Keeps) (fun l => l) in
  s_out (run E 5 [Listen 0 7; Data 0 (lit "x")] pst0) =
  [OCall 0 (EData (lit "x")); ONote 7 0 (EData (lit "x")); OExn XRuntime].
Proof. vm_compute; reflexivity. Qed.
Print Assumptions C53_self_removing_listener_refuted.
(** who starts to listen after connection_made is not told of writes *)
Theorem C53_late_listener_hears_no_writes_refuted :
  forall d, s_out (run (calm (fun _ => Keeps)) 5 [Made 0 0; Listen 0 7; Write 0 d; Data 0 d] pst0) =
  [OCall 0 (EMade 0); OWrite 0 d; OCall 0 (EData d); ONote 7 0 (EData d)].
Proof. intros. vm_compute; reflexivity. Qed.
Print Assumptions C53_late_listener_hears_no_writes_refuted.
(** connection_made twice with the same transport: every later write dies in
    endless recursion and nothing is written *)
Theorem C53_second_connection_made_refuted :
  forall d, s_out (run (calm (fun _ => Keeps)) 5 [Listen 0 7; Made 0 0; Made 0 0; Write 0 d] pst0) =
  [OCall 0 (EMade 0); ONote 7 0 (EMade 0); OCall 0 (EMade 0); ONote 7 0 (EMade 0); OExn XRecursion].
Proof. intros. vm_compute; reflexivity. Qed.
Print Assumptions C53_second_connection_made_refuted.
(** two observed protocols on one transport: the write is lost in the end *)
Theorem C53_shared_transport_refuted :
  forall d, s_out (run (calm (fun _ => Keeps)) 5
    [Listen 0 7; Listen 1 8; Made 0 0; Made 1 0; Stop 0 7; Write 0 d; Stop 1 8; Write 0 d] pst0) =
  [OCall 0 (EMade 0); ONote 7 0 (EMade 0); OCall 1 (EMade 0); ONote 8 1 (EMade 0); OWrite 0 d; OExn XNone].
Proof. intros. vm_compute; reflexivity. Qed.
Print Assumptions C53_shared_transport_refuted.
(** a connection_lost that raises leaves the protocol observed and its
    listeners untold *)
Theorem C53_lost_that_raises_refuted :
  let E := Env (fun _ _ e => React [] (match e with ELost => true | _ => false end)) (fun _ _ _ => React [] false)
               (fun _ _ _ _ => React [] false) (fun _ => Keeps) (fun l => l) in
  let s := run E 5 [Listen 0 7; Lost 0] pst0 in
  s_out s = [OCall 0 ELost; OExn XApp] /\ s_obs s 0 = Some 0.
Proof. vm_compute; auto. Qed.
Print Assumptions C53_lost_that_raises_refuted.
(** observing a protocol that has no attribute transport makes its
    connection_made raise *)
Theorem C53_no_transport_attribute_refuted :
  s_out (run (calm (fun _ => NoAttr)) 5 [Listen 0 7; Made 0 0] pst0) = [OCall 0 (EMade 0); ONote 7 0 (EMade 0); OExn XAttr] /\
  s_out (run (calm (fun _ => NoAttr)) 5 [Made 0 0] pst0) = [OCall 0 (EMade 0)].
Proof. vm_compute; auto. Qed.
Print Assumptions C53_no_transport_attribute_refuted.

(** ** Non-vacuity: an echo application, two listeners, writes nested in
    data_received, the end of the connection *)
Definition echo : env :=
  Env (fun _ p e => match e with EData d => React [Write p d] false | _ => React [] false end)
      (fun _ _ _ => React [] false) (fun _ _ _ _ => React [] false) (fun _ => Keeps) (fun l => l).
Example echo_ok : silent echo /\ blind echo /\ (forall p, style echo p <> NoAttr) /\
  orun echo 9 [Listen 3 7; Listen 3 8; Made 3 3; Data 3 (lit "a"); Stop 3 7; Data 3 (lit "b"); Lost 3; Data 3 (lit "c")] ost0 <> None.
Proof.
  split; [intros ? ? ? ?; reflexivity|]. split; [split; reflexivity|]. split; [intros ? X; discriminate X|].
  intros X. vm_compute in X. discriminate X.
Qed.
Example echo_trace :
  s_out (run echo 9 [Listen 3 7; Listen 3 8; Made 3 3; Data 3 (lit "a"); Stop 3 7; Data 3 (lit "b"); Lost 3; Data 3 (lit "c")] pst0) =
  [OCall 3 (EMade 3); ONote 7 3 (EMade 3); ONote 8 3 (EMade 3);
   OCall 3 (EData (lit "a")); OWrite 3 (lit "a"); ONote 7 3 (ESent (lit "a")); ONote 8 3 (ESent (lit "a")); ONote 7 3 (EData (lit "a")); ONote 8 3 (EData (lit "a"));
   OCall 3 (EData (lit "b")); OWrite 3 (lit "b"); ONote 8 3 (ESent (lit "b")); ONote 8 3 (EData (lit "b"));
   OCall 3 ELost; ONote 8 3 ELost;
   OCall 3 (EData (lit "c")); OWrite 3 (lit "c")].
Proof. vm_compute; reflexivity. Qed.
Example quiet_ok : quiet (calm (fun _ => Keeps)) /\
  orun (calm (fun _ => Keeps)) 1 ([Listen 0 1; Listen 0 2; Made 0 5] ++ [Data 0 (lit "z")]) ost0 <> None /\
  hears [Listen 0 1; Listen 0 2; Made 0 5] 0 2 = true.
Proof.
  split; [repeat split|]. split; [|reflexivity]. intros X. vm_compute in X. discriminate X.
Qed.
