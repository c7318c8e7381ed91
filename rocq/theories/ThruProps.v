(** * C71: the throughput test *)
From Coq Require Import String.
From Coq Require Import List ZArith Bool Lia.
From Verif Require Import PyBase PyLemmas AddrModel PacketModel PacketSpec StreamModel PacketDeser EchoModel ThruModel ThruSpec ThruProofs.
Import ListNotations.
Open Scope Z_scope.

Lemma prompts t0 es : no_loss es -> timely t0 es -> Forall (prompt t0) es.
Proof.
  intros N (_ & T). apply Forall_forall. intros e H. rewrite Forall_forall in T. specialize (T e H). destruct e; auto. now destruct (N p).
Qed.
Lemma results_none E c depth d1 d2 p : results p (n_test (run_new E c depth d1 d2)) = None.
Proof. reflexivity. Qed.
Lemma first_dec es : (exists f, first_connected f es) \/ (forall q t, ~ In (Made q t) es).
Proof.
  induction es as [|e es IH]; [right; auto|]. destruct e as [p now|p|p n now|p|now].
  1: left; exists p, [], now, es; split; [reflexivity|intros q t []].
  all: (destruct IH as [(f & a & now' & b & -> & N)|N];
    [left; exists f; eexists (_ :: a), now', b; split; [reflexivity|intros q t [H|H]; [discriminate|now apply N in H]]
    |right; intros q t [H|H]; [discriminate|now apply N in H]]).
Qed.

(** C71.  However the data of the two sides are cut and delivered, and whoever
    is connected first: nothing raises; what a side has received so far are
    the first of the data of the other side, in order, all found correct; and
    what it has sent, the first of its own. *)
Theorem C71_in_order (hash : bytes -> bytes) (E : env) (c depth : nat) (d1 d2 : list bytes) t0 f es : test_registered E c -> (0 < depth)%nat ->
  Forall sendable_data d1 -> Forall sendable_data d2 -> first_connected f es -> no_loss es -> timely t0 es ->
  let r := run_all hash E c depth d1 d2 es in
  n_raised r = [] /\
  forall p, connects p es -> let mine := data_sent f p d1 d2 in let theirs := data_sent f (negb p) d1 d2 in
    exists i k, results p (n_test r) = Some (k, length theirs) /\ (k <= length theirs)%nat /\
      heard (Bool.eqb p f) (notes r) = map (fun b => (hash b, hash b)) (firstn k theirs) /\
      told (Bool.eqb p f) (notes r) = map (fun b => (zlen b, hash b)) (firstn i mine).
Proof.
  intros reg Dp O1 O2 F N T r. destruct (known_all hash E c depth d1 d2 f reg Dp O1 O2 t0 es (proj1 T) (prompts _ _ N T) F) as (h & I & C & _). fold r in I.
  pose proof (results_inv hash E c depth d1 d2 f t0 h r) as R. split; [apply I|]. intros p Cp mine theirs.
  assert (M : gm h p = true). { apply connects_time in Cp. rewrite C in Cp. destruct (gm h p); [reflexivity|congruence]. }
  specialize (R p). destruct I as ((Mf & K) & St & Ra & X & ns & sg & w & st & Et & No & Ts).
  exists (gs h p), (gg h p). rewrite M in R. split; [apply R; split; [split; assumption|]; repeat (split; [assumption|]); exists ns, sg, w, st; auto|].
  split; [apply K|]. unfold notes. rewrite Et. cbn [mk y_cfg f_notes]. apply No.
Qed.
Print Assumptions C71_in_order.

(** C71.  When nothing is under way any more, both sides have received
    everything; *)
Theorem C71_all_received (hash : bytes -> bytes) (E : env) (c depth : nat) (d1 d2 : list bytes) t0 f es : test_registered E c -> (0 < depth)%nat ->
  Forall sendable_data d1 -> Forall sendable_data d2 -> first_connected f es -> no_loss es -> timely t0 es ->
  connects true es -> connects false es -> let r := run_all hash E c depth d1 d2 es in quiet r ->
  forall p, let n := length (data_sent f (negb p) d1 d2) in results p (n_test r) = Some (n, n).
Proof.
  intros reg Dp O1 O2 F N T C1 C2 r (Q1 & Q2 & Q3 & Q4) p. destruct (known_all hash E c depth d1 d2 f reg Dp O1 O2 t0 es (proj1 T) (prompts _ _ N T) F) as (h & I & C & _). fold r in I.
  assert (M : forall q, gm h q = true). { intro q. assert (Cq : connects q es) by (destruct q; assumption). apply connects_time in Cq. rewrite C in Cq. destruct (gm h q); [reflexivity|congruence]. }
  cbv zeta. rewrite (results_inv hash E c depth d1 d2 f t0 h r p I), M. destruct I as ((Mf & K) & St & Ra & X & ns & sg & w & st & Et & No & Ts).
  assert (G : gt h (negb p) = 0%nat) by (rewrite Et in Q1, Q2; cbn in Q1, Q2; destruct p; assumption).
  pose proof (K (negb p)) as (_ & _ & Kp). rewrite M in Kp. specialize (Kp G). destruct (X p) as (_ & D). rewrite Kp, skipn_all in D.
  assert (P : pipe p r = []) by (destruct p; assumption). rewrite P in D. cbn [map concat app] in D.
  destruct (skipn (gg h p) (data_sent f (negb p) d1 d2)) as [|b l] eqn:Sk.
  - assert (L := skipn_length (gg h p) (data_sent f (negb p) d1 d2)). rewrite Sk in L. cbn in L. destruct (K p) as (Kg & _). assert (Z : gg h p = length (data_sent f (negb p) d1 d2)) by lia. now rewrite Z.
  - cbn [map drained] in D. destruct D as (pre & z & Nz & _ & Z). symmetry in Z. apply app_eq_nil in Z. tauto.
Qed.
Print Assumptions C71_all_received.
(** and every such run, at whatever point, can go on to that end. *)
Theorem C71_can_finish (hash : bytes -> bytes) (E : env) (c depth : nat) (d1 d2 : list bytes) t0 f es now : test_registered E c -> (0 < depth)%nat ->
  Forall sendable_data d1 -> Forall sendable_data d2 -> first_connected f es -> no_loss es -> timely t0 es ->
  connects true es -> connects false es -> t0 <= now ->
  exists es', Forall (fun e => match e with Timer _ | Arrive _ _ _ => True | _ => False end) es' /\ timely t0 (es ++ es') /\ quiet (run_all hash E c depth d1 d2 (es ++ es')).
Proof.
  intros reg Dp O1 O2 F N T C1 C2 Tn. destruct (known_all hash E c depth d1 d2 f reg Dp O1 O2 t0 es (proj1 T) (prompts _ _ N T) F) as (h & I & C & _).
  assert (M : forall q, gm h q = true). { intro q. assert (Cq : connects q es) by (destruct q; assumption). apply connects_time in Cq. rewrite C in Cq. destruct (gm h q); [reflexivity|congruence]. }
  destruct (to_the_end hash E c depth d1 d2 f reg Dp O1 O2 t0 h _ now I Tn (M true) (M false)) as (es' & h' & P & K & _ & _ & Q).
  exists es'. split; [exact K|]. split; [|unfold run_all in *; rewrite fold_left_app; exact Q].
  split; [apply T|]. apply Forall_app. split; [apply T|]. eapply Forall_impl; [|exact P]. intros [] Z; cbn in *; auto.
Qed.
Print Assumptions C71_can_finish.

(** C71.  The connections are closed by the test once, when the later of the
    two has received everything, and not before. *)
Theorem C71_closes (hash : bytes -> bytes) (E : env) (c depth : nat) (d1 d2 : list bytes) t0 es : test_registered E c -> (0 < depth)%nat ->
  Forall sendable_data d1 -> Forall sendable_data d2 -> no_loss es -> timely t0 es ->
  let r := run_all hash E c depth d1 d2 es in
  (complete true r /\ complete false r -> forall p, closes_of p r = 1%nat) /\
  (~ (complete true r /\ complete false r) -> forall p, closes_of p r = 0%nat).
Proof.
  intros reg Dp O1 O2 N T r. destruct (first_dec es) as [(f & F)|F].
  - destruct (known_all hash E c depth d1 d2 f reg Dp O1 O2 t0 es (proj1 T) (prompts _ _ N T) F) as (h & I & _). fold r in I.
    rewrite (complete_inv hash E c depth d1 d2 f Dp t0 h r true I), (complete_inv hash E c depth d1 d2 f Dp t0 h r false I). destruct I as (_ & _ & _ & _ & ns & sg & w & st & Et & _).
    assert (Cl : forall p, closes_of p r = b2n (fin d1 d2 f h true && fin d1 d2 f h false)) by (intro p; unfold closes_of; rewrite Et; destruct p; reflexivity).
    split; [intros (Ea & Eb) p; now rewrite Cl, Ea, Eb|]. intros Nb p. rewrite Cl. destruct (fin d1 d2 f h true), (fin d1 d2 f h false); try reflexivity. destruct Nb; auto.
  - unfold r. rewrite (idle_run hash E c depth d1 d2) by exact F. split; [intros ((n & _ & H) & _); discriminate|intros _ []; reflexivity].
Qed.
Print Assumptions C71_closes.
(** C71, refuted: every test ends.  With nothing to send on one side, the
    connections are never closed. *)
Theorem C71_empty_refuted (hash : bytes -> bytes) (E : env) (c depth : nat) (d1 d2 : list bytes) t0 es : test_registered E c -> (0 < depth)%nat ->
  Forall sendable_data d1 -> Forall sendable_data d2 -> no_loss es -> timely t0 es -> d1 = [] \/ d2 = [] ->
  forall p, closes_of p (run_all hash E c depth d1 d2 es) = 0%nat.
Proof.
  intros reg Dp O1 O2 N T Em. pose proof (C71_closes hash E c depth d1 d2 t0 es reg Dp O1 O2 N T) as (_ & H). apply H. intros (A & B).
  destruct (first_dec es) as [(f & F)|F].
  - destruct (known_all hash E c depth d1 d2 f reg Dp O1 O2 t0 es (proj1 T) (prompts _ _ N T) F) as (h & I & _).
    rewrite (complete_inv hash E c depth d1 d2 f Dp t0 h _ true I) in A. rewrite (complete_inv hash E c depth d1 d2 f Dp t0 h _ false I) in B. unfold fin in A, B. apply andb_prop in A as (A & _). apply andb_prop in B as (B & _).
    unfold data_sent in A, B. destruct Em as [-> | ->], f; cbn in A, B; discriminate.
  - rewrite (idle_run hash E c depth d1 d2) in A by exact F. destruct A as (n & _ & A). discriminate.
Qed.
Print Assumptions C71_empty_refuted.

(** C71.  The throughput of a side: the bytes it sends, over the time from its
    own connection to the moment the other side received the last of them. *)
Theorem C71_throughput (hash : bytes -> bytes) (E : env) (c depth : nat) (d1 d2 : list bytes) t0 f es p : test_registered E c -> (0 < depth)%nat ->
  Forall sendable_data d1 -> Forall sendable_data d2 -> first_connected f es -> no_loss es -> timely t0 es ->
  connects p es -> let run es := run_all hash E c depth d1 d2 es in complete (negb p) (run es) ->
  exists t1 t2 a n b, connect_time p es = Some t1 /\ es = a ++ Arrive (negb p) n t2 :: b /\
    ~ complete (negb p) (run a) /\ complete (negb p) (run (a ++ [Arrive (negb p) n t2])) /\
    throughput p (n_test (run es)) = Some (total (data_sent f p d1 d2), t2 - t1).
Proof.
  intros reg Dp O1 O2 F N T Cp run Co. destruct (known_all hash E c depth d1 d2 f reg Dp O1 O2 t0 es (proj1 T) (prompts _ _ N T) F) as (h & I & C & Fi & _). fold (run es) in I.
  assert (M : gm h p = true). { apply connects_time in Cp. rewrite C in Cp. destruct (gm h p); [reflexivity|congruence]. }
  rewrite (complete_inv hash E c depth d1 d2 f Dp t0 h _ _ I) in Co. destruct (Fi _ Co) as (a & n & b & Es & A1 & A2).
  exists (ga h p), (ge h (negb p)), a, n, b. split; [rewrite C, M; reflexivity|]. split; [exact Es|]. split; [exact A1|]. split; [exact A2|].
  assert (Mn : gm h (negb p) = true).
  { destruct (gm h (negb p)) eqn:Q; [reflexivity|]. destruct I as ((_ & K) & _). specialize (K (negb p)). rewrite Q in K. destruct K as (_ & _ & _ & _ & G).
    unfold fin in Co. rewrite G in Co. apply andb_prop in Co as (X & Y). apply Nat.eqb_eq in Y. rewrite <- Y in X. discriminate. }
  destruct I as ((Mf & _) & _ & _ & _ & ns & sg & w & st & Et & _). rewrite Et. unfold throughput. cbn [mk y_cfg f_data]. unfold table.
  assert (Mn' : gm h (negb f) = true) by (destruct p, f; assumption). rewrite Mn'.
  assert (Tot : forall l z, fold_left (fun n t => n + zlen t) l z = z + total l) by (induction l as [|x l IH]; intro z; cbn [fold_left total]; [lia|rewrite IH; lia]).
  destruct p, f; cbn [negb entry_of key_eqb Bool.eqb ent en_tx en_end en_start]; rewrite Tot; reflexivity.
Qed.
Print Assumptions C71_throughput.

(** C71, refuted: a test that stalls is given up.  The watchdog is called once,
    a second after the first connection; a test in which nothing arrives any
    more after that is never closed, whatever the time and the events. *)
Lemma stalled_step hash E c depth r e : f_watch (y_cfg (n_test r)) = false -> 0 < f_signal (y_cfg (n_test r)) -> (match e with Arrive _ _ _ => False | Made _ now => 0 < now | _ => True end) ->
  let r' := run_step hash E c depth r e in f_watch (y_cfg (n_test r')) = false /\ 0 < f_signal (y_cfg (n_test r')) /\ forall p, closes_of p r' = closes_of p r.
Proof.
  intros W S0 Q. assert (TR : forall p y, f_watch (y_cfg y) = false -> 0 < f_signal (y_cfg y) -> let '(y', _, _) := transmit hash E c p y in
    f_watch (y_cfg y') = false /\ 0 < f_signal (y_cfg y') /\ forall q, pr_closes (peer_of q y') = pr_closes (peer_of q y)).
  { intros p y Wy Sy. unfold transmit. destruct (pr_tx (peer_of p y)) as [|b l]; [auto|]. destruct (pr_up (peer_of p y)); [destruct (serialize E (test_packet c b))|]; destruct p; (split; [exact Wy|split; [exact Sy|intros []; reflexivity]]). }
  assert (CL : forall p x, closes_of p x = pr_closes (peer_of p (n_test x))) by reflexivity.
  destruct e as [p now|p|p n now|p|now]; cbn [run_step]; [| |contradiction| |].
  - destruct (started p r); [auto|]. unfold made.
    set (y0 := with_peer p _ (n_test r)). assert (W0 : f_watch (y_cfg y0) = false) by (destruct p; exact W). assert (S1 : 0 < f_signal (y_cfg y0)) by (destruct p; exact S0).
    assert (C0 : forall q, pr_closes (peer_of q y0) = pr_closes (peer_of q (n_test r))) by (intro q; destruct p, q; reflexivity).
    set (y1 := record_connect now p y0). assert (W1 : f_watch (y_cfg y1) = false) by exact W0. assert (S2 : 0 < f_signal (y_cfg y1)) by exact S1.
    assert (C1 : forall q, pr_closes (peer_of q y1) = pr_closes (peer_of q y0)) by (intros []; reflexivity).
    destruct (entry_of (Proto p) (f_data (y_cfg y1))) as [e|].
    + set (y2 := with_peer p _ y1). assert (W2 : f_watch (y_cfg y2) = false) by (destruct p; exact W1). assert (S3 : 0 < f_signal (y_cfg y2)) by (destruct p; exact S2).
      assert (C2 : forall q, pr_closes (peer_of q y2) = pr_closes (peer_of q y1)) by (intro q; specialize (C1 q); specialize (C0 q); unfold y2; destruct p, q; cbn in *; try reflexivity; congruence).
      set (y3 := tx_start now p y2). assert (W3 : f_watch (y_cfg y3) = false).
      { unfold y3, tx_start. cbn. rewrite W2. cbn. apply Z.eqb_neq. lia. }
      assert (S4 : 0 < f_signal (y_cfg y3)) by exact Q. assert (C3 : forall q, pr_closes (peer_of q y3) = pr_closes (peer_of q y2)) by (intros []; reflexivity).
      specialize (TR p y3 W3 S4). destruct (transmit hash E c p y3) as [[y4 bs] o]. destruct TR as (T1 & T2 & T3).
      split; [destruct p; exact T1|]. split; [destruct p; exact T2|]. intro q. rewrite !CL, <- C0, <- C1, <- C2, <- C3, <- T3. destruct p; reflexivity.
    + split; [destruct p; exact W1|]. split; [destruct p; exact S2|]. intro q. rewrite !CL, <- C0, <- C1. destruct p; reflexivity.
  - destruct (pr_timers (peer_of p (n_test r))) as [|t]; [auto|]. set (y0 := with_peer p _ (n_test r)).
    assert (W0 : f_watch (y_cfg y0) = false) by (destruct p; exact W). assert (S1 : 0 < f_signal (y_cfg y0)) by (destruct p; exact S0).
    assert (C0 : forall q, pr_closes (peer_of q y0) = pr_closes (peer_of q (n_test r))) by (intro q; destruct p, q; reflexivity).
    specialize (TR p y0 W0 S1). destruct (transmit hash E c p y0) as [[y4 bs] o]. destruct TR as (T1 & T2 & T3).
    split; [destruct p; exact T1|]. split; [destruct p; exact T2|]. intro q. rewrite !CL, <- C0, <- T3. destruct p; reflexivity.
  - destruct (pr_up (peer_of p (n_test r))); [|auto]. cbn [n_test]. unfold lost, record_close.
    destruct (Nat.eqb _ 2); (split; [destruct p; exact W|split; [destruct p; exact S0|intro q; rewrite !CL; destruct p, q; reflexivity]]).
  - rewrite W. auto.
Qed.
Theorem C71_watchdog_refuted (hash : bytes -> bytes) (E : env) (c depth : nat) (d1 d2 : list bytes) t0 es es' : test_registered E c -> (0 < depth)%nat ->
  Forall sendable_data d1 -> Forall sendable_data d2 -> no_loss es -> timely t0 es -> watched es ->
  ~ (complete true (run_all hash E c depth d1 d2 es) /\ complete false (run_all hash E c depth d1 d2 es)) ->
  nothing_arrives es' -> forall p, closes_of p (run_all hash E c depth d1 d2 (es ++ es')) = 0%nat.
Proof.
  intros reg Dp O1 O2 N T W Nc A p. destruct (first_dec es) as [(f & F)|F]; [|destruct W as (a & q & now & b & t & -> & _); exfalso; apply (F q now), in_or_app; right; now left].
  destruct (known_all hash E c depth d1 d2 f reg Dp O1 O2 t0 es (proj1 T) (prompts _ _ N T) F) as (h & I & _ & _ & Wt). specialize (Wt W).
  rewrite <- (proj2 (C71_closes hash E c depth d1 d2 t0 es reg Dp O1 O2 N T) Nc p).
  unfold run_all. rewrite fold_left_app. fold (run_all hash E c depth d1 d2 es). set (r := run_all hash E c depth d1 d2 es) in *.
  assert (Sg : 0 < f_signal (y_cfg (n_test r))). { destruct I as (_ & _ & _ & _ & ns & sg & w & st & Et & _ & Z). rewrite Et. cbn. destruct T as (Z0 & _). lia. }
  clear - Wt Sg A. clearbody r. revert r Wt Sg. induction A as [|e es' He A IH]; intros r Wt Sg; [reflexivity|]. cbn [fold_left].
  destruct (stalled_step hash E c depth r e Wt Sg He) as (W1 & S1 & C1). rewrite IH by assumption. apply C1.
Qed.
Print Assumptions C71_watchdog_refuted.

(** C71, refuted: losing the connection is handled.  A call of transmit that is
    due then raises, after it has recorded the data as transmitted. *)
Theorem C71_lost_refuted hash E c depth r p b l : let q := peer_of p (n_test r) in
  pr_up q = false -> (0 < pr_timers q)%nat -> pr_tx q = b :: l ->
  let r' := run_step hash E c depth r (Timer p) in
  n_raised r' = n_raised r ++ [AttributeError] /\ n_to1 r' = n_to1 r /\ n_to2 r' = n_to2 r /\
  pr_tx (peer_of p (n_test r')) = l /\ notes r' = notes r ++ [NSent (is_one p (n_test r)) (zlen b) (hash b)].
Proof.
  intros q U T X r'. unfold r'. cbn [run_step]. fold q. destruct (pr_timers q) as [|t]; [lia|]. unfold transmit.
  set (y := with_peer p _ (n_test r)). assert (Tx : pr_tx (peer_of p y) = b :: l) by (unfold y; destruct p; exact X). assert (Up : pr_up (peer_of p y) = false) by (unfold y; destruct p; exact U).
  rewrite Tx, Up. unfold y, notes. clear. destruct p; cbn; rewrite ?app_nil_r; auto.
Qed.
Print Assumptions C71_lost_refuted.

(** ** Examples and findings *)
Definition test_env : env :=
  Env (fun c => test_cls)
      (fun base name ver => if eqb name (lit "testpacket") && ((v_major ver =? 1) && (v_minor ver =? 0)) then Ok (Some 0%nat) else Ok None)
      (fun c base => Nat.eqb c base).
Example C71_ex_registered : test_registered test_env 0.
Proof. split; [reflexivity|]. split; [reflexivity|]. split; [reflexivity|]. intros c' H. now apply Nat.eqb_eq in H. Qed.
Definition ex_hash (b : bytes) : bytes := [zlen b; nth 0 b 0].
Definition ex_1 : list bytes := [[1; 2; 3]; [4]; []].
Definition ex_2 : list bytes := [[9; 9]].
(** the server [false] is connected first *)
Definition ex_events : list tevent :=
  [Made false 100; Made true 101; Arrive true 20 102; Watch 103; Timer false; Timer true; Arrive false 200 104; Timer false; Arrive true 70 105; Timer false; Arrive true 500 109].
Definition ex_run := run_all ex_hash test_env 0 3 ex_1 ex_2.
Example C71_ex_hyps : first_connected false ex_events /\ no_loss ex_events /\ timely 100 ex_events /\ watched (firstn 4 ex_events) /\
  Forall sendable_data ex_1 /\ Forall sendable_data ex_2 /\ connects true ex_events /\ connects false ex_events /\ quiet (ex_run ex_events).
Proof.
  assert (B : forall l, forallb (fun x => (0 <=? x) && (x <? 256)) l = true -> bytes_ok l).
  { intros l H. apply Forall_forall. intros x Hx. rewrite forallb_forall in H. specialize (H x Hx). unfold byte_ok. lia. }
  split; [exists [], 100, (tl ex_events); split; [reflexivity|intros q t []]|]. split; [intros p H; repeat (destruct H as [H|H]; [discriminate|]); destruct H|].
  split; [split; [lia|repeat constructor; lia]|]. split; [exists [], false, 100, (tl (firstn 4 ex_events)), 103; split; [reflexivity|cbn; auto]|].
  split; [unfold ex_1, ex_2; repeat (apply Forall_cons; [split; [apply B; reflexivity|reflexivity]|]); apply Forall_nil|]. split; [unfold ex_1, ex_2; repeat (apply Forall_cons; [split; [apply B; reflexivity|reflexivity]|]); apply Forall_nil|].
  split; [exists 101; cbn; auto|]. split; [exists 100; cbn; auto|]. repeat split; vm_compute; reflexivity.
Qed.
Example C71_ex_results : let y := n_test (ex_run ex_events) in
  results true y = Some (3%nat, 3%nat) /\ results false y = Some (1%nat, 1%nat) /\ throughput true y = Some (2, 104 - 101) /\ throughput false y = Some (4, 109 - 100) /\
  closes_of true (ex_run ex_events) = 1%nat /\ closes_of true (ex_run (firstn 10 ex_events)) = 0%nat.
Proof. vm_compute. repeat split; reflexivity. Qed.
(** Finding: data that nobody expects, if they are the text that stands for no
    data, count as received correctly; and a side that receives too much ends
    the test alone: here the other side has received nothing. *)
Example C71_extra_refuted :
  let y := n_test (ex_run [Made true 100; Made false 101]) in
  let p b := match serialize test_env (test_packet 0 b) with Ok x => x | Raise _ => [] end in
  let '(_, y', acts) := data_received test_env 3 0 (handle ex_hash 102 true) (p [9; 9] ++ p (lit "<NO TRANSMISSION EXPECTED>")) (d_new test_env 3 0) y in
  acts = [] /\ results true y' = Some (2%nat, 1%nat) /\ results false y' = Some (0%nat, 3%nat) /\ pr_closes (y_one y') = 1%nat /\ pr_closes (y_two y') = 1%nat.
Proof. vm_compute. repeat split; reflexivity. Qed.
(** Finding: a lost connection, with a call of transmit due *)
Example C71_ex_lost : let r := ex_run [Made false 100; Made true 101; Lost false; Timer false] in
  n_raised r = [AttributeError] /\ told true (notes r) = [(3, [3; 1]); (1, [1; 4])] /\ y_stops (n_test r) = 1%nat.
Proof. vm_compute. repeat split; reflexivity. Qed.

(** C71.  The sizes of the data of the program: [count] of them, from [min] on
    in the largest equal steps that many of which stay within [max]. *)
Theorem C71_sizes min max count : 0 <= min -> min <= max -> 0 < count ->
  exists l step, auto_sizes min max count = Ok l /\ length l = Z.to_nat count /\ 0 <= step /\ count * step <= max - min < count * (step + 1) /\
    (forall i, (i < length l)%nat -> nth i l 0 = min + Z.of_nat i * step) /\ (forall n, In n l -> min <= n <= max).
Proof.
  intros A B C. unfold auto_sizes. destruct (Z.eqb_spec count 0); [lia|]. set (step := Z.quot (max - min) count).
  assert (S0 : 0 <= step) by (unfold step; apply Z.quot_pos; lia).
  assert (S1 : count * step <= max - min) by (unfold step; apply Z.mul_quot_le; lia).
  set (l := map _ _). assert (L : length l = Z.to_nat count) by (unfold l; now rewrite map_length, seq_length).
  assert (In1 : forall n, In n l -> min <= n <= max).
  { intros m H. unfold l in H. apply in_map_iff in H as (i & <- & Hi). apply in_seq in Hi. nia. }
  assert (Ex : existsb (fun n => n <? 0) l = false).
  { destruct (existsb (fun n => n <? 0) l) eqn:Q; [|reflexivity]. apply existsb_exists in Q as (x & Hx & Q). apply In1 in Hx. apply Z.ltb_lt in Q. lia. }
  rewrite Ex. exists l, step. split; [reflexivity|]. split; [exact L|]. split; [exact S0|].
  split; [split; [exact S1|unfold step; rewrite Z.quot_div_nonneg by lia; rewrite Z.mul_comm; assert (M := Z.mod_pos_bound (max - min) count C); assert (D := Z.div_mod (max - min) count ltac:(lia)); nia]|]. split; [|exact In1].
  intros i Hi. unfold l. rewrite (nth_indep _ 0 (min + Z.of_nat 0 * step)) by exact Hi. rewrite (map_nth (fun i => min + Z.of_nat i * step)). rewrite seq_nth by (rewrite L in Hi; exact Hi). reflexivity.
Qed.
Print Assumptions C71_sizes.

(** C71.  One packet, in any state of the test, when data are expected: the next
    of them is taken off, the hashes of both are recorded, what was received
    first, and the packet counts as correct exactly if they are equal. *)
Lemma entry_upd p f l : entry_of (Proto p) (upd (Proto p) f l) = option_map f (entry_of (Proto p) l).
Proof.
  induction l as [|[k e] l IH]; [reflexivity|]. unfold upd in *. cbn [map entry_of fst snd]. destruct (key_eqb (Proto p) k) eqn:Q; cbn [entry_of]; rewrite Q; [reflexivity|exact IH].
Qed.
Lemma close_key_same k y : y_cfg (fst (close_key k y)) = y_cfg y /\ forall p, pr_rx (peer_of p (fst (close_key k y))) = pr_rx (peer_of p y).
Proof. destruct k as [| |q]; [split; reflexivity|split; reflexivity|]. unfold close_key. destruct (pr_up (peer_of q y)); [|split; reflexivity]. destruct q; split; try reflexivity; intros []; reflexivity. Qed.
Lemma close_both_same y : y_cfg (fst (close_both y)) = y_cfg y /\ forall p, pr_rx (peer_of p (fst (close_both y))) = pr_rx (peer_of p y).
Proof.
  unfold close_both. destruct (f_data (y_cfg y)) as [|[k1 e1] [|[k2 e2] [|]]]; try (split; reflexivity).
  pose proof (close_key_same k1 y) as [A B]. destruct (close_key k1 y) as [y1 [e|]]; cbn [fst] in *; [split; assumption|].
  pose proof (close_key_same k2 y1) as [A' B']. split; [congruence|]. intros p. now rewrite B'.
Qed.
Lemma rx_finish_same now p y : results p (fst (rx_finish now p y)) = results p y /\ f_notes (y_cfg (fst (rx_finish now p y))) = f_notes (y_cfg y) /\
  pr_rx (peer_of p (fst (rx_finish now p y))) = pr_rx (peer_of p y).
Proof.
  unfold rx_finish, results. destruct (Nat.eqb _ _).
  - match goal with |- context [close_both ?z] => pose proof (close_both_same z) as [A B]; rewrite A, B end. cbn [y_cfg with_cfg on_data f_data f_notes]. rewrite entry_upd.
    destruct (entry_of (Proto p) (f_data (y_cfg y))); split; [reflexivity|destruct p; split; reflexivity|reflexivity|destruct p; split; reflexivity].
  - cbn [fst y_cfg with_cfg on_data f_data f_notes]. rewrite entry_upd. destruct (entry_of (Proto p) (f_data (y_cfg y))); split; [reflexivity|destruct p; split; reflexivity|reflexivity|destruct p; split; reflexivity].
Qed.
Theorem C71_one_packet (hash : bytes -> bytes) now p y v b x l : data_of v = Some b -> pr_rx (peer_of p y) = x :: l ->
  let y' := fst (fst (handle hash now p y v)) in
  results p y' = option_map (fun r => (if eqb (hash b) (hash x) then S (fst r) else fst r, snd r)) (results p y) /\
  f_notes (y_cfg y') = f_notes (y_cfg y) ++ [NGot (is_one p y) (hash b) (hash x)] /\ pr_rx (peer_of p y') = l.
Proof.
  intros D X. unfold handle. rewrite X, D. set (y1 := with_peer p _ y).
  assert (R1 : pr_rx (peer_of p y1) = l) by (unfold y1; destruct p; reflexivity). assert (G1 : y_cfg y1 = y_cfg y) by (unfold y1; destruct p; reflexivity).
  assert (O1 : is_one p y1 = is_one p y) by (unfold is_one; now rewrite G1). rewrite O1. set (n := NGot _ _ _). set (y3 := if eqb (hash b) (hash x) then _ else _).
  assert (H : results p y3 = option_map (fun r => (if eqb (hash b) (hash x) then S (fst r) else fst r, snd r)) (results p y) /\
    f_notes (y_cfg y3) = f_notes (y_cfg y) ++ [n] /\ pr_rx (peer_of p y3) = l).
  { unfold y3, results. destruct (eqb (hash b) (hash x)); cbn [say on_data with_cfg y_cfg f_data f_notes]; rewrite ?G1, ?entry_upd; (split; [destruct (entry_of _ _); reflexivity|]); (split; [reflexivity|]);
      rewrite <- R1; destruct p; reflexivity. }
  clearbody y3. destruct H as (H1 & H2 & H3). cbv zeta. destruct (pr_rx (peer_of p y3)) as [|z zs] eqn:Z.
  - pose proof (rx_finish_same now p y3) as (F1 & F2 & F3). destruct (rx_finish now p y3) as [y4 [e|]]; cbn [fst] in *; rewrite F1, F2, F3, Z; auto.
  - cbn [fst]. rewrite Z. auto.
Qed.
Print Assumptions C71_one_packet.
Example C71_ex_wrong : let y := n_test (ex_run [Made true 100; Made false 101]) in
  pr_rx (peer_of true y) = [[9; 9]] /\ ex_hash [9; 8; 7] <> ex_hash [9; 9] /\ results true (fst (fst (handle ex_hash 102 true y (test_packet 0 [9; 8; 7])))) = Some (0%nat, 1%nat).
Proof. vm_compute. repeat split; discriminate. Qed.

(** C71.  The record: a connection that is lost is recorded once, and the end of
    the test once, when the second of the two is lost, whatever happened. *)
Definition closings (l : list note) : nat := length (filter (fun n => match n with NClosing _ => true | _ => false end) l).
Definition endings (l : list note) : nat := length (filter (fun n => match n with NComplete => true | _ => false end) l).
(** has been connected and is not any more *)
Definition gone (p : bool) (r : run) : bool := started p r && negb (pr_up (peer_of p (n_test r))).
Definition keep (y y' : test) : Prop :=
  f_closed (y_cfg y') = f_closed (y_cfg y) /\ closings (f_notes (y_cfg y')) = closings (f_notes (y_cfg y)) /\ endings (f_notes (y_cfg y')) = endings (f_notes (y_cfg y)) /\
  forall q, pr_up (peer_of q y') = pr_up (peer_of q y).
Lemma keep_refl y : keep y y. Proof. repeat split. Qed.
Lemma keep_trans a b c : keep a b -> keep b c -> keep a c.
Proof. intros (A & B & C & D) (A' & B' & C' & D'). repeat split; try congruence. Qed.
Lemma closings_app a b : closings (a ++ b) = (closings a + closings b)%nat.
Proof. unfold closings. now rewrite filter_app, app_length. Qed.
Lemma endings_app a b : endings (a ++ b) = (endings a + endings b)%nat.
Proof. unfold endings. now rewrite filter_app, app_length. Qed.
Lemma keep_say n y : (match n with NClosing _ | NComplete => False | _ => True end) -> keep y (say n y).
Proof.
  intros H. assert (A : closings [n] = 0%nat /\ endings [n] = 0%nat) by (destruct n; try destruct H; split; reflexivity). destruct A as [A B].
  unfold keep. cbn [say with_cfg y_cfg f_closed f_notes]. rewrite closings_app, endings_app, A, B. split; [reflexivity|split; [lia|split; [lia|intros []; reflexivity]]].
Qed.
Lemma keep_data f y : keep y (on_data f y). Proof. repeat split. Qed.
Lemma keep_peer p q y : pr_up q = pr_up (peer_of p y) -> keep y (with_peer p q y).
Proof. intros H. destruct p; repeat split; intros []; try reflexivity; exact H. Qed.
Lemma keep_close_key k y : keep y (fst (close_key k y)).
Proof. destruct k as [| |p]; try apply keep_refl. unfold close_key. destruct (pr_up (peer_of p y)) eqn:U; [apply keep_peer; cbn; now rewrite U|apply keep_refl]. Qed.
Lemma keep_close_both y : keep y (fst (close_both y)).
Proof.
  unfold close_both. destruct (f_data (y_cfg y)) as [|[k1 e1] [|[k2 e2] [|]]]; try apply keep_refl.
  pose proof (keep_close_key k1 y) as A. destruct (close_key k1 y) as [y1 [e|]]; cbn [fst] in *; [exact A|]. eapply keep_trans; [exact A|apply keep_close_key].
Qed.
Lemma keep_finish now p y : keep y (fst (rx_finish now p y)).
Proof.
  unfold rx_finish. cbv zeta. match goal with |- context [with_cfg ?g ?z] => assert (A : keep y (with_cfg g z)) by (repeat split) end.
  destruct (Nat.eqb _ _); [eapply keep_trans; [exact A|apply keep_close_both]|exact A].
Qed.
Lemma keep_handle hash now p y v : keep y (fst (fst (handle hash now p y v))).
Proof.
  unfold handle. set (ey := match pr_rx (peer_of p y) with [] => _ | _ :: _ => _ end). assert (A : keep y (snd ey)).
  { unfold ey. destruct (pr_rx (peer_of p y)); [repeat split|apply keep_peer; reflexivity]. }
  destruct ey as [expected y1]. cbn [snd] in A. destruct (data_of v) as [b|]; [|exact A]. set (y3 := if eqb (hash b) (hash expected) then _ else _).
  assert (B : keep y y3).
  { eapply keep_trans; [exact A|]. unfold y3. destruct (eqb _ _); [eapply keep_trans; [|apply keep_data]|]; apply keep_say; exact I. }
  destruct (pr_rx (peer_of p y3)); [|exact B]. pose proof (keep_finish now p y3) as C. destruct (rx_finish now p y3) as [y4 [e|]]; cbn [fst] in *; eapply keep_trans; eauto.
Qed.
Lemma keep_consume E depth base h : (forall y v, keep y (fst (fst (h y v)))) -> forall f d y, keep y (snd (fst (@consume test E depth base h f d y))).
Proof.
  intros H f. induction f as [|f IH]; intros d y; [apply keep_refl|]. cbn [consume]. destruct (d_step E depth base d) as [d1 [[v|e]|]]; [|apply IH|apply keep_refl].
  specialize (H y v). destruct (h y v) as [[s1 out] [| |e]]; cbn [fst snd] in *; try exact H. specialize (IH d1 s1). destruct (consume _ _ _ _ f d1 s1) as [[d2 s2] o2]. cbn [fst snd] in *. eapply keep_trans; eauto.
Qed.
Lemma keep_transmit hash E c p y : keep y (fst (fst (transmit hash E c p y))).
Proof.
  unfold transmit. destruct (pr_tx (peer_of p y)) as [|b l]; [apply keep_refl|]. cbv zeta. set (n := NSent _ _ _).
  assert (A : forall l t, keep y (with_peer p (Peer (pr_up (peer_of p y)) l (pr_rx (peer_of p y)) t (pr_closes (peer_of p y))) (say n y))).
  { intros l' t. eapply keep_trans; [apply (keep_say n); exact I|]. apply keep_peer. destruct p; reflexivity. }
  destruct (pr_up (peer_of p y)) eqn:U; [destruct (serialize E (test_packet c b))|]; cbn [fst]; try apply A.
  eapply keep_trans; [apply A|]. apply keep_peer. destruct p; reflexivity.
Qed.
Lemma lost_same p y : f_closed (y_cfg (lost p y)) = S (f_closed (y_cfg y)) /\ closings (f_notes (y_cfg (lost p y))) = S (closings (f_notes (y_cfg y))) /\
  endings (f_notes (y_cfg (lost p y))) = (endings (f_notes (y_cfg y)) + if Nat.eqb (f_closed (y_cfg y)) 1 then 1 else 0)%nat /\
  forall q, pr_up (peer_of q (lost p y)) = if Bool.eqb q p then false else pr_up (peer_of q y).
Proof.
  unfold lost, record_close. set (y0 := with_peer p _ y). assert (Y : y_cfg y0 = y_cfg y) by (unfold y0; destruct p; reflexivity).
  assert (U : forall q, pr_up (peer_of q y0) = if Bool.eqb q p then false else pr_up (peer_of q y)) by (intros q; unfold y0; destruct p, q; reflexivity).
  clearbody y0. cbn [say with_cfg y_cfg f_closed f_notes f_data f_signal f_watch]. rewrite Y. set (n := f_closed (y_cfg y)). change (Nat.eqb (S n) 2) with (Nat.eqb n 1).
  destruct (Nat.eqb n 1); cbn [stop say with_cfg y_cfg f_closed f_notes]; rewrite ?closings_app, ?endings_app; change (closings [NClosing (is_one p y0)]) with 1%nat; change (endings [NClosing (is_one p y0)]) with 0%nat;
    change (closings [NComplete]) with 0%nat; change (endings [NComplete]) with 1%nat; (split; [reflexivity|split; [lia|split; [lia|]]]); intros q; rewrite <- U; destruct q; reflexivity.
Qed.
Definition counted (r : run) : Prop :=
  let l := notes r in f_closed (y_cfg (n_test r)) = closings l /\ endings l = (if Nat.eqb (closings l) 2 then 1 else 0)%nat /\
  closings l = ((if gone true r then 1 else 0) + (if gone false r then 1 else 0))%nat /\ (forall p, pr_up (peer_of p (n_test r)) = true -> started p r = true).
Lemma counted_keep r r' : counted r -> keep (n_test r) (n_test r') -> n_started1 r' = n_started1 r -> n_started2 r' = n_started2 r -> counted r'.
Proof.
  intros (A & B & C & D) (K1 & K2 & K3 & K4) S1 S2. unfold counted, gone, started, notes in *. cbv zeta in *. rewrite K1, K2, K3, !K4, S1, S2. repeat split; auto.
  intros p. rewrite K4. intros H. specialize (D p H). destruct p; congruence.
Qed.
Lemma counted_step hash E c depth r e : counted r -> counted (run_step hash E c depth r e).
Proof.
  intros I. destruct e as [p now|p|p n now|p|now]; cbn [run_step].
  - destruct (started p r) eqn:St; [exact I|]. unfold made. set (y0 := with_peer p _ (n_test r)). set (y1 := record_connect now p y0).
    assert (K1 : keep y0 y1). { unfold y1, record_connect. cbv zeta. eapply keep_trans; [|apply keep_say; exact Logic.I]. eapply keep_trans; [|apply keep_data]. apply keep_data. }
    assert (G : forall y x, keep y0 y -> n_test x = y -> n_started1 x = (p || n_started1 r)%bool -> n_started2 x = (negb p || n_started2 r)%bool -> counted x).
    { intros y x (Q1 & Q2 & Q3 & Q4) T S1 S2. destruct I as (A & B & C & D). unfold counted, gone, started, notes in *. cbv zeta in *. rewrite T, Q1, Q2, Q3, !Q4, S1, S2.
      assert (Y : y_cfg y0 = y_cfg (n_test r)) by (unfold y0; destruct p; reflexivity). rewrite Y.
      assert (U : pr_up (peer_of p y0) = true) by (unfold y0; destruct p; reflexivity). assert (U' : pr_up (peer_of (negb p) y0) = pr_up (peer_of (negb p) (n_test r))) by (unfold y0; destruct p; reflexivity).
      split; [exact A|]. split; [exact B|]. split.
      - rewrite C. destruct p; cbn [negb orb andb] in *; rewrite U, U', St; reflexivity.
      - intros q. rewrite Q4. destruct p, q; cbn [negb orb] in *; rewrite ?S1, ?S2; auto; rewrite U'; intros H; first [exact (D true H)|exact (D false H)]. }
    destruct (entry_of (Proto p) (f_data (y_cfg y1))) as [e|].
    + set (y2 := with_peer p _ y1). assert (K2 : keep y0 y2). { eapply keep_trans; [exact K1|]. apply keep_peer. destruct K1 as (_ & _ & _ & K). rewrite K. unfold y0. destruct p; reflexivity. }
      set (y3 := tx_start now p y2). assert (K3 : keep y0 y3) by (eapply keep_trans; [exact K2|repeat split]).
      pose proof (keep_transmit hash E c p y3) as K4. destruct (transmit hash E c p y3) as [[y4 bs] o]. cbn [fst] in K4.
      apply (G y4); [eapply keep_trans; eauto|destruct p; reflexivity|destruct p; reflexivity|destruct p; reflexivity].
    + apply (G y1); [exact K1|destruct p; reflexivity|destruct p; reflexivity|destruct p; reflexivity].
  - destruct (pr_timers (peer_of p (n_test r))) as [|t]; [exact I|]. set (y0 := with_peer p _ (n_test r)). assert (K0 : keep (n_test r) y0) by (apply keep_peer; reflexivity).
    pose proof (keep_transmit hash E c p y0) as K4. destruct (transmit hash E c p y0) as [[y4 bs] o]. cbn [fst] in K4.
    apply (counted_keep r); [exact I| | |]; destruct p; try reflexivity; eapply keep_trans; eauto.
  - destruct (pr_up (peer_of p (n_test r))); [|exact I].
    assert (S : keep (n_test r) (signal now (n_test r))) by repeat split.
    assert (H : forall data d, keep (n_test r) (snd (fst (data_received E depth c (handle hash now p) data d (signal now (n_test r)))))).
    { intros data d. eapply keep_trans; [exact S|]. apply keep_consume. intros y v. apply keep_handle. }
    destruct p; [specialize (H (firstn n (n_to1 r)) (n_des1 r))|specialize (H (firstn n (n_to2 r)) (n_des2 r))];
      (destruct (data_received _ _ _ _ _ _ _) as [[d y1] acts]; apply (counted_keep r); [exact I|exact H|reflexivity|reflexivity]).
  - destruct (pr_up (peer_of p (n_test r))) eqn:U; [|exact I]. destruct I as (A & B & C & D). pose proof (D p U) as St. pose proof (lost_same p (n_test r)) as (L1 & L2 & L3 & L4).
    unfold counted, gone, started, notes in *. cbn [n_test n_started1 n_started2] in *. cbv zeta in *. rewrite L1, L2, L3, !L4, A, B, C. 
    destruct p; cbn [Bool.eqb] in *; rewrite U, St in *; cbn [negb andb]; rewrite ?andb_false_r, ?andb_true_r.
    + destruct (n_started2 r && negb (pr_up (peer_of false (n_test r))))%bool; (split; [reflexivity|split; [reflexivity|split; [reflexivity|]]]); intros []; rewrite L4; cbn [Bool.eqb]; auto; apply (D false).
    + destruct (n_started1 r && negb (pr_up (peer_of true (n_test r))))%bool; (split; [reflexivity|split; [reflexivity|split; [reflexivity|]]]); intros []; rewrite L4; cbn [Bool.eqb]; auto; apply (D true).
  - destruct (f_watch (y_cfg (n_test r))); [|exact I].
    assert (K : keep (n_test r) (fst (wait_close now (n_test r)))).
    { unfold wait_close. cbv zeta. destruct (_ >? 30); [|repeat split]. eapply keep_trans; [|apply keep_close_both]. repeat split. }
    destruct (wait_close now (n_test r)) as [y1 o]. apply (counted_keep r); [exact I|exact K|reflexivity|reflexivity].
Qed.
Theorem C71_recorded_end (hash : bytes -> bytes) (E : env) (c depth : nat) (d1 d2 : list bytes) es : let r := run_all hash E c depth d1 d2 es in
  closings (notes r) = ((if gone true r then 1 else 0) + (if gone false r then 1 else 0))%nat /\
  endings (notes r) = (if (gone true r && gone false r)%bool then 1 else 0)%nat.
Proof.
  intros r. assert (I : counted r).
  { unfold r, run_all. assert (G : forall l x, counted x -> counted (fold_left (run_step hash E c depth) l x)).
    { induction l as [|e l IH]; intros x Hx; [exact Hx|]. cbn [fold_left]. apply IH, counted_step, Hx. }
    apply G. repeat split. intros []; discriminate. }
  destruct I as (_ & B & C & _). split; [exact C|]. rewrite B, C. destruct (gone true r), (gone false r); reflexivity.
Qed.
Print Assumptions C71_recorded_end.
Example C71_ex_recorded_end : let r := ex_run [Made false 100; Lost false; Made true 101; Lost true] in gone true r = true /\ gone false r = true /\ endings (notes r) = 1%nat /\
  endings (notes (ex_run [Made false 100; Lost false; Made true 101])) = 0%nat.
Proof. vm_compute. repeat split; reflexivity. Qed.
(** C71.  No sizes are made for a count of 0, nor from a minimum below 0. *)
Theorem C71_sizes_refused min max count : (count = 0 -> auto_sizes min max count = Raise ZeroDivisionError) /\
  (0 < count -> min < 0 -> auto_sizes min max count = Raise ValueError).
Proof.
  unfold auto_sizes. split; [intros ->; reflexivity|]. intros C M. destruct (Z.eqb_spec count 0); [lia|]. destruct (Z.to_nat count) as [|n0] eqn:Q; [lia|].
  cbn [seq map existsb]. destruct (Z.ltb_spec (min + Z.of_nat 0 * Z.quot (max - min) count) 0); [reflexivity|]. cbn in *. lia.
Qed.
Print Assumptions C71_sizes_refused.
