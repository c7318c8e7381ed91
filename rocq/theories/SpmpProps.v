(** * C40: the management protocol; C48: its client *)
From Coq Require Import String.
From Coq Require Import List ZArith Bool Lia.
From Verif Require Import PyBase PyLemmas SpmpModel SpmpSpec SpmpProofs.
Import ListNotations.
Open Scope nat_scope.

(** C40. Over any sequence of requests: the operations run are exactly those of
    the authorised requests the device knows, in order and with the arguments
    given; there is exactly one answer for each authorised request, in order
    and with its id; the connection is closed once for each other one. *)
Theorem C40_requests : forall (D : Type) (sv : server D) (peer : option pystr) (rs : list spmp) (x : D),
  let g := snd (serve sv peer rs x) in
  runs g = map (fun r => (m_request r, m_args r)) (filter (fun r => authorised sv peer r && knows sv r) rs) /\
  map (fun p => (m_id p, m_request p, m_args p)) (replies g) =
    map (fun r => (m_id r, m_request r, m_args r)) (filter (authorised sv peer) rs) /\
  closes g = length (filter (fun r => negb (authorised sv peer r)) rs).
Proof. intros D sv peer rs x. exact (serve_all sv peer rs x). Qed.
Print Assumptions C40_requests.

(** C40. An unauthorised request has no effect on the device. *)
Theorem C40_unauthorised_harmless : forall (D : Type) (sv : server D) (peer : option pystr) (rs : list spmp) (x : D),
  (forall r, In r rs -> authorised sv peer r = false) ->
  fst (serve sv peer rs x) = x /\ runs (snd (serve sv peer rs x)) = [] /\ replies (snd (serve sv peer rs x)) = [].
Proof.
  intros D sv peer rs x H. assert (F : filter (authorised sv peer) rs = []).
  { induction rs as [|r rs IH]; [reflexivity|]. cbn. rewrite (H r) by (now left). apply IH. intros q I. apply H. now right. }
  destruct (serve_all sv peer rs x) as (R & P & _). split; [|split].
  - clear R P F. revert x. induction rs as [|r rs IH]; intros x; [reflexivity|]. cbn [serve].
    destruct (process_cases sv peer r x) as [[_ E]|[A _]]; [|rewrite H in A by (now left); discriminate]. rewrite E.
    assert (H' : forall q, In q rs -> authorised sv peer q = false) by (intros q I; apply H; now right). specialize (IH H' x).
    destruct (serve sv peer rs x). exact IH.
  - rewrite R. clear R P. replace (filter _ rs) with (@nil spmp); [reflexivity|]. clear F.
    induction rs as [|r rs IH]; [reflexivity|]. cbn. rewrite (H r) by (now left). cbn. apply IH. intros q I. apply H. now right.
  - rewrite F in P. now destruct (replies _).
Qed.
Print Assumptions C40_unauthorised_harmless.
(** With the local access policy, nothing is run or answered for a peer that is
    not the local host, or unknown. *)
Theorem C40_local_access : forall (D : Type) (api : dict pystr (operation D)) (name : pystr) (peer : option pystr) (rs : list spmp) (x : D),
  peer <> Some (lit "127.0.0.1") ->
  let sv := Server api (Some local_access) name in
  fst (serve sv peer rs x) = x /\ runs (snd (serve sv peer rs x)) = [] /\ replies (snd (serve sv peer rs x)) = [].
Proof.
  intros D api name peer rs x N sv. apply C40_unauthorised_harmless. intros r _. cbn. unfold local_access.
  destruct peer as [h|]; [|reflexivity]. unfold eqb. destruct (eq_dec h local_host) as [->|]; [elim N; reflexivity|reflexivity].
Qed.
Print Assumptions C40_local_access.

(** C40. What the answer says, for a request that carries no error itself: the
    value of the operation; or its error message, if that is not empty; or that
    the request is unknown.  The device changes as the operation says. *)
Theorem C40_answer : forall (D : Type) (sv : server D) (peer : option pystr) (r : spmp) (x : D),
  authorised sv peer r = true -> m_error r = None ->
  match dget (s_api sv) (m_request r) with
  | None => exists e, e <> [] /\ process sv peer r x = (x, [SSend (Spmp (m_id r) (m_request r) (m_args r) [] (Some e))])
  | Some op =>
      fst (process sv peer r x) = fst (op x (m_args r)) /\
      match snd (op x (m_args r)) with
      | OpValue v => replies (snd (process sv peer r x)) = [Spmp (m_id r) (m_request r) (m_args r) v None]
      | OpRaises m => m <> [] -> replies (snd (process sv peer r x)) = [Spmp (m_id r) (m_request r) (m_args r) [] (Some m)]
      end
  end.
Proof.
  intros D sv peer r x A E. unfold authorised in A. unfold process.
  destruct (match s_security sv with Some pol => negb (pol peer r) | None => false end) eqn:B.
  { destruct (s_security sv); [rewrite A in B|]; discriminate. }
  destruct (dget (s_api sv) (m_request r)) as [op|].
  - destruct (op x (m_args r)) as [x' [v|m]]; cbn [fst snd]; rewrite E; [split; reflexivity|].
    split; [reflexivity|]. intros N. destruct m; [contradiction|reflexivity].
  - exists (unknown_text (m_request r) (s_name sv)). split; [discriminate|reflexivity].
Qed.
Print Assumptions C40_answer.

(** C40. In a mixed stream the management packets are served as if they came
    alone, the others all reach the main protocol, in order. *)
Theorem C40_mixed_stream : forall (D : Type) (sv : server D) (peer : option pystr) (ps : list mixed) (x : D),
  let rs := flat_map (fun p => match p with MSpmp r => [r] | MOther _ => [] end) ps in
  let os := flat_map (fun p => match p with MSpmp _ => [] | MOther b => [b] end) ps in
  to_main (snd (hidden sv peer ps x)) = os /\ served (snd (hidden sv peer ps x)) = snd (serve sv peer rs x) /\
  fst (hidden sv peer ps x) = fst (serve sv peer rs x).
Proof. intros D sv peer ps x. exact (hidden_split sv peer ps x). Qed.
Print Assumptions C40_mixed_stream.

(** ** C40, refuted variants *)
Definition failing : operation nat := fun x _ => (S x, OpRaises []).
Definition counting : operation nat := fun x _ => (S x, OpValue (lit "done")).
Definition req (id : Z) (cmd : string) (e : option pystr) : spmp := Spmp id (lit cmd) [] [] e.
(** an operation that raises an exception without a message is reported as a success *)
Theorem C40_failures_reported_refuted : exists (sv : server nat) (r : spmp),
  authorised sv None r = true /\ m_error r = None /\
  (exists op, dget (s_api sv) (m_request r) = Some op /\ snd (op 0 (m_args r)) = OpRaises []) /\
  replies (snd (process sv None r 0)) = [Spmp (m_id r) (m_request r) (m_args r) [] None].
Proof. exists (Server [(lit "reset", failing)] None (lit "dev")), (req 5 "reset" None). vm_compute. repeat split. eexists. repeat split. Qed.
Print Assumptions C40_failures_reported_refuted.
(** an error sent along with a request comes back with a successful answer *)
Theorem C40_success_reported_refuted : exists (sv : server nat) (r : spmp),
  (exists op, dget (s_api sv) (m_request r) = Some op /\ snd (op 0 (m_args r)) = OpValue (lit "done")) /\
  replies (snd (process sv None r 0)) = [Spmp (m_id r) (m_request r) (m_args r) (lit "done") (m_error r)] /\ m_error r <> None.
Proof. exists (Server [(lit "reset", counting)] None (lit "dev")), (req 5 "reset" (Some (lit "x"))). vm_compute. repeat split; [eexists; repeat split|discriminate]. Qed.
Print Assumptions C40_success_reported_refuted.
(** closing the connection does not stop the requests that came along: with a
    policy that looks at the packet, a request after a refused one still runs *)
Theorem C40_close_stops_refuted : exists (sv : server nat) (rs : list spmp) (g1 g2 : list slog) (c : pystr) (a : list pystr),
  snd (serve sv None rs 0) = g1 ++ SClose :: g2 /\ In (SRun c a) g2.
Proof.
  exists (Server [(lit "reset", counting)] (Some (fun _ r => eqb (m_args r) [lit "secret"])) (lit "dev")),
    [req 1 "reset" None; Spmp 2 (lit "reset") [lit "secret"] [] None].
  exists [], [SRun (lit "reset") [lit "secret"]; SSend (Spmp 2 (lit "reset") [lit "secret"] (lit "done") None)], (lit "reset"), [lit "secret"].
  vm_compute. split; [reflexivity|left; reflexivity].
Qed.
Print Assumptions C40_close_stops_refuted.

Example spmp_example :
  let sv := Server [(lit "reset", counting)] (Some local_access) (lit "dev") in
  serve sv (Some (lit "127.0.0.1")) [req 7 "reset" None; req 8 "frob" None] 0 =
    (1, [SRun (lit "reset") []; SSend (Spmp 7 (lit "reset") [] (lit "done") None);
         SSend (Spmp 8 (lit "frob") [] [] (Some (lit "Unknown request 'frob' to device [dev]")))]) /\
  serve sv (Some (lit "10.0.0.1")) [req 7 "reset" None] 0 = (0, [SClose]).
Proof. vm_compute. split; reflexivity. Qed.

(** ** The client *)

(** C48. What a query returns is a response with the id of its request: at the
    moment it returned, the last one that had come. *)
Theorem C48_query_returns_its_id : forall (es : list qevent) (s : qclient) (q : query) (v : pystr * option pystr),
  q_run es qclient_new = Some s -> dget (q_done s) q = Some v ->
  exists id p r, es = p ++ r /\ In (QQuery q id) p /\ latest p id = Some v.
Proof. intros es s q v R H. exact (qs_done _ _ (run_safe es s R) q v H). Qed.
Print Assumptions C48_query_returns_its_id.

(** C48. If the other side answers in the order of the requests and no id is
    used twice, every query that was answered has returned with its answer once
    nothing is left to run, in whatever order the tasks ran; and no other has. *)
Theorem C48_answered_queries_return : forall (es : list qevent) (s : qclient) (q : query) (id : Z),
  q_run es qclient_new = Some s -> answered_in_order es -> quiescent s -> In (QQuery q id) es ->
  (In id (response_ids es) -> dget (q_done s) q = latest es id) /\ (~ In id (response_ids es) -> dget (q_done s) q = None).
Proof.
  intros es s q id R AO [W N] I. destruct (run_order es s R AO) as (n & m & Hq). destruct Hq as [Hm Hr Hn Hw Hk Hf Hi Hks Hd Hnd].
  rewrite N in Hn. assert (n = m) by lia. subst n. clear Hn.
  assert (Iq : In (q, id) (queries es)). { unfold queries. apply in_flat_map. exists (QQuery q id). split; [exact I|now left]. }
  pose proof (run_safe es s R) as Sf.
  split.
  - intros Ir. rewrite Hr in Ir.
    assert (If : In (q, id) (firstn m (queries es))).
    { apply in_map_iff in Ir as ([q' i] & Ei & Ir). cbn in Ei. subst i. destruct AO as [ND _].
      assert (q' = q); [|now subst].
      pose proof (firstn_in _ _ _ Ir) as Ir'. clear - ND Iq Ir'. induction (queries es) as [|[q0 i0] l IH]; [destruct Iq|].
      cbn in ND. inversion ND as [|? ? NI ND']; subst. destruct Iq as [E1|Iq]; destruct Ir' as [E2|Ir'']; auto.
      - congruence.
      - injection E1 as -> ->. exfalso. apply NI. apply (in_map snd) in Ir''. exact Ir''.
      - injection E2 as -> ->. exfalso. apply NI. apply (in_map snd) in Iq. exact Iq. }
    destruct (Hf q) as [X|X]; [apply in_map_iff; exists (q, id); auto|rewrite W in X; destruct X|].
    destruct (dget (q_done s) q) as [v|] eqn:E; [|congruence]. symmetry.
    destruct (qs_done _ _ Sf q v E) as (id' & p & r & Ep & Iq' & L).
    (* the same query, and no later response with its id *)
    assert (id' = id).
    { assert (Iq2 : In (q, id') (queries es)). { rewrite Ep, queries_app. apply in_or_app. left. apply in_flat_map. exists (QQuery q id'). split; [exact Iq'|now left]. }
      apply Hi in Iq2. apply Hi in Iq. congruence. }
    subst id'. rewrite Ep. unfold latest in *. rewrite fold_left_app, L.
    assert (NDr : NoDup (response_ids es)).
    { rewrite Hr. destruct AO as [ND _]. rewrite <- firstn_map. clear - ND. revert m. induction (map snd (queries es)) as [|y l IH]; intros [|m]; cbn; try constructor.
      - inversion ND; subst. intros X. apply firstn_in in X. contradiction.
      - inversion ND; subst. auto. }
    rewrite Ep, response_ids_app in NDr.
    assert (Ip : In id (response_ids p)) by (eapply latest_in; unfold latest; exact L).
    apply fold_latest_none. intros Xr.
    clear - NDr Ip Xr. induction (response_ids p) as [|y l IH]; [destruct Ip|]. cbn in NDr. inversion NDr as [|? ? NI ND']; subst.
    destruct Ip as [->|Ip]; [apply NI, in_or_app; now right|auto].
  - intros Nr. destruct (dget (q_done s) q) as [v|] eqn:E; [|reflexivity]. exfalso. apply Nr. rewrite Hr.
    assert (X : In q (map fst (firstn m (queries es)))) by (apply Hd; congruence). apply in_map_iff in X as ([q' i] & Eq & X). cbn in Eq. subst q'.
    assert (i = id). { pose proof (firstn_in _ _ _ X) as X'. apply Hi in X'. apply Hi in Iq. congruence. } subst i.
    apply in_map_iff. exists (q, id). auto.
Qed.
Print Assumptions C48_answered_queries_return.

(** ** C48, refuted variants *)
(** the responses come the other way round: the query that was answered is never
    told, although nothing is left to run *)
Theorem C48_answered_return_any_order_refuted : exists (es : list qevent) (s : qclient) (q : query) (id : Z),
  q_run es qclient_new = Some s /\ quiescent s /\ NoDup (map snd (queries es)) /\ In (QQuery q id) es /\
  In id (response_ids es) /\ (forall i, In i (response_ids es) -> In i (map snd (queries es))) /\ dget (q_done s) q = None.
Proof.
  exists [QQuery 0%nat 10%Z; QQuery 1%nat 11%Z; QResponse 11%Z (lit "b", None); QNotify; QWake 0%nat], 
    (QClient [(11%Z, (lit "b", None))] [(0%nat, 10%Z); (1%nat, 11%Z)] [1%nat; 0%nat] [] 0 []), 1%nat, 11%Z.
  split; [vm_compute; reflexivity|]. split; [split; reflexivity|]. split.
  { cbn. repeat constructor; cbn; intuition congruence. }
  split; [cbn; auto|]. split; [cbn; auto|]. split; [|reflexivity]. cbn. intros i [<-|[]]. auto.
Qed.
Print Assumptions C48_answered_return_any_order_refuted.
(** an id drawn again: the second query returns at once with the old answer *)
Theorem C48_fresh_answer_refuted : exists (es : list qevent) (s : qclient) (q : query) (id : Z) (v : pystr * option pystr),
  q_run (es ++ [QQuery q id]) qclient_new = Some s /\ (forall e, In e es -> forall i, e <> QQuery q i) /\ dget (q_done s) q = Some v.
Proof.
  exists [QQuery 0%nat 10%Z; QResponse 10%Z (lit "old", None); QNotify; QWake 0%nat]. eexists. exists 1%nat, 10%Z, (lit "old", None).
  split; [vm_compute; reflexivity|]. split; [|reflexivity].
  intros e H i Ee. subst e. cbn in H. intuition discriminate.
Qed.
Print Assumptions C48_fresh_answer_refuted.

Example query_example :
  let es := [QQuery 0%nat 10%Z; QQuery 1%nat 11%Z; QResponse 10%Z (lit "a", None); QResponse 11%Z (lit "b", None); QNotify; QNotify; QWake 1%nat; QWake 0%nat] in
  answered_in_order es /\
  exists s, q_run es qclient_new = Some s /\ quiescent s /\ q_done s = [(1%nat, (lit "b", None)); (0%nat, (lit "a", None))].
Proof.
  split.
  - split; [cbn; repeat constructor; cbn; intuition congruence|]. intros p r E. exists (length (response_ids p)).
    do 9 (destruct p as [|?e p]; [reflexivity|cbn [app] in E; first [injection E as <- E|discriminate E]]).
  - eexists. split; [vm_compute; reflexivity|]. split; [split; reflexivity|reflexivity].
Qed.
