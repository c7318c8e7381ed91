(** * C63: the mock transports of network/testing *)
From Coq Require Import String.
From Coq Require Import List ZArith Bool Lia Permutation.
From Verif Require Import PyBase PyLemmas MockModel MockSpec MockProofs MockProofs2 MockProofs3 MockProofs4 MockProofs5 MockProofs6 MockProofs7.
Import ListNotations.
Open Scope Z_scope.

(** the kind of transport and the loop stay *)
Lemma step_kind B n w h w' : step B n w h = Some w' -> w_kind w' = w_kind w /\ w_loop w' = w_loop w.
Proof.
  destruct h as [c|d|k]; cbn [step].
  - destruct (run B n (TCode c) w) as [[w1 r]|] eqn:E; [|discriminate]. intro X. injection X as <-. apply run_grows in E as (A & C & _). auto.
  - intro X. now injection X as <-.
  - destruct (is_next w k); [|intro X; now injection X as <-]. destruct (nth_error (w_jobs w) k) as [[t [i j]]|]; [|intro X; now injection X as <-].
    set (w0 := set_jobs _ _). destruct (fire B n i j w0) as [[w1 r]|] eqn:E; [|discriminate]. intro X. injection X as <-. change (w_kind w) with (w_kind w0). change (w_loop w) with (w_loop w0). unfold fire in E.
    assert (G : grows w0 w1) by (destruct j as [d|]; [destruct (w_loop w0); [|destruct d as [|x [|y d]]]|]; first [exact (run_grows _ _ _ _ _ _ E) | injection E as E1 _; rewrite <- E1; apply grows_refl]). destruct G as (A & C & _). auto.
Qed.
Lemma steps_kind B n hs : forall w w', steps B n w hs = Some w' -> w_kind w' = w_kind w /\ w_loop w' = w_loop w.
Proof.
  induction hs as [|h hs IH]; cbn [steps]; intros w w' E; [now injection E as <-|]. destruct (step B n w h) as [w1|] eqn:E1; [|discriminate]. apply step_kind in E1 as [A C]. apply IH in E as [D E]. split; congruence.
Qed.

(** the first world has what is kept *)
Section Start.
Variables (k : kind) (l : loopkind) (p0 p1 : nat) (d0 d1 : option Z).
Let w := world0 k l (Some p0) (Some p1) d0 d1.
Definition who (p0 p1 : nat) (i : side) : nat := if i then p1 else p0.
Lemma startA : InvA idle w. Proof. intros [|]; split; cbn; auto. Qed.
Lemma startP : l = AsyncLoop -> InvP idle w.
Proof. intro E. split; [exact E|]. intro i. exists []. subst w. destruct k, i; constructor. Qed.
Lemma startC rcv : l = AsyncLoop -> InvC (fun i => delayed (tr w i)) rcv idle w.
Proof.
  intro E. split; [split|].
  - exact E.
  - reflexivity.
  - intros [|] d; cbn; [destruct d1|destruct d0]; cbn; auto; discriminate.
  - intros a b t t' i j j' L N. destruct a; discriminate.
  - intros t i j [].
  - intros t i [].
  - intros [|] X; now contradict X.
  - intros [|] X; discriminate.
  - intros [|] _ X; discriminate.
  - intros [|] _ _ X; discriminate.
  - intro i. exists []. split; [destruct k, i; reflexivity|]. reflexivity.
Qed.
Lemma startD : InvD idle w.
Proof.
  split.
  - intros [|] d; cbn; [destruct d1|destruct d0]; cbn; auto; discriminate.
  - intros [|] X; discriminate.
  - intros i X. now contradict X.
  - intros [|] X; discriminate.
  - intros [|] X; discriminate.
  - intros i l1 e l2 X. now destruct l1.
Qed.
Lemma startE : k = ToProtocol -> (forall i, delayed (tr w i) = None) -> InvE idle w.
Proof.
  intros K E. split; [exact K|exact E|reflexivity|intros [|] X; discriminate|intros i e X; destruct (X : False)|intros i l1 e l2 X; now destruct l1].
Qed.
Lemma startF : InvF (who p0 p1) idle w.
Proof. split; [|constructor]. intros [|]; (split; [split; [discriminate|intros []]|now left|discriminate]). Qed.
End Start.
Lemma okC_plain B hs : history_only plain B hs -> history_only (okC None) B hs.
Proof. apply history_weaken. intros a A. split; [exact A|discriminate]. Qed.
Lemma plain_okD a : plain a -> okD a. Proof. now destruct a. Qed.
Lemma okD_okF a : okD a -> okF a. Proof. now destruct a. Qed.
Lemma nil_dec {A} (l : list A) : l = [] \/ l <> []. Proof. destruct l; [now left|right; discriminate]. Qed.

(** ** Order: with delays that stay as they are, what a side has delivered is the first part of what was written to it *)
Theorem C63_order B n hs k p0 p1 d0 d1 w' :
  let w := world0 k AsyncLoop (Some p0) (Some p1) d0 d1 in
  history_only plain B hs -> fifo B n w hs -> steps B n w hs = Some w' ->
  forall i, prefix (delivered k i (w_log w')) (map Bytes (wrote i (w_log w'))).
Proof.
  intros w H F E i. destruct (steps_kind _ _ _ _ _ E) as [K _]. cbn in K.
  destruct (invC B _ None n hs w w' (okC_plain _ _ H) F eq_refl (startC k AsyncLoop p0 p1 d0 d1 None eq_refl) E) as [_ D]. destruct (D i) as (rest & X & _). rewrite K in X. now exists rest.
Qed.
(** ** and until the other side is lost nothing is missing: the rest is what the loop has still to run *)
Theorem C63_no_loss B n hs k p0 p1 d0 d1 w' i :
  let w := world0 k AsyncLoop (Some p0) (Some p1) d0 d1 in
  history_only plain B hs -> fifo B n w hs -> steps B n w hs = Some w' ->
  k = ToStream \/ losses (negb i) (w_log w') = [] ->
  map Bytes (wrote i (w_log w')) = delivered k i (w_log w') ++ map Bytes (waiting i w').
Proof.
  intros w H F E N. destruct (steps_kind _ _ _ _ _ E) as [K _]. cbn in K.
  destruct (invC B _ None n hs w w' (okC_plain _ _ H) F eq_refl (startC k AsyncLoop p0 p1 d0 d1 None eq_refl) E) as [_ D]. destruct (D i) as (rest & X & R). rewrite K in X.
  assert (Hf : history_only okF B hs) by (revert H; apply history_weaken; now intros []).
  destruct (invF B (who p0 p1) n hs w w' Hf eq_refl (startF k AsyncLoop p0 p1 d0 d1) E) as [Fs _].
  cbn [app] in R. rewrite <- R; [exact X|]. right. intros [Y1 Y2]. destruct N as [->|N]; [congruence|]. destruct (Fs (negb i)) as [_ [Z0|[_ Z0]] _]; [congruence|contradiction].
Qed.
(** ** Without delays every accepted write is delivered, at once and whatever is closed *)
Theorem C63_sync B n hs k p0 p1 d0 d1 w' i :
  let w := world0 k AsyncLoop (Some p0) (Some p1) d0 d1 in
  (d0 = None \/ d0 = Some 0) -> (d1 = None \/ d1 = Some 0) ->
  history_only plain B hs -> steps B n w hs = Some w' ->
  delivered k i (w_log w') = map Bytes (wrote i (w_log w')) /\ w_jobs w' = [].
Proof.
  intros w D0 D1 H E. destruct (steps_kind _ _ _ _ _ E) as [K _]. cbn in K.
  assert (Dn : forall i, delayed (tr w i) = None) by (intros [|]; cbn; [destruct D1 as [-> | ->]|destruct D0 as [-> | ->]]; reflexivity).
  assert (F : fifo B n w hs) by (apply (fifo_none B n (fun i => delayed (tr w i)) None hs Dn w (okC_plain _ _ H) eq_refl); now apply startC).
  destruct (invC B _ None n hs w w' (okC_plain _ _ H) F eq_refl (startC k AsyncLoop p0 p1 d0 d1 None eq_refl) E) as [S1 D]. fold w in S1, D.
  assert (J : w_jobs w' = []). { destruct (w_jobs w') as [|[t [s j]] js] eqn:J; [reflexivity|]. exfalso. destruct (c_bound _ _ _ _ S1 t s j) as (d & X & _); [rewrite J; now left|]. rewrite Dn in X. discriminate. }
  split; [|exact J]. destruct (D i) as (rest & X & R). rewrite K in X. rewrite R in X; [|left; left; apply Dn]. unfold waiting in X. rewrite J in X. cbn in X. now rewrite app_nil_r in X.
Qed.
(** ** Whatever is done, nothing is delivered twice and nothing is invented *)
Theorem C63_at_most_once B n hs k p0 p1 d0 d1 w' i :
  steps B n (world0 k AsyncLoop (Some p0) (Some p1) d0 d1) hs = Some w' ->
  exists lost, Permutation (map Bytes (wrote i (w_log w'))) (delivered k i (w_log w') ++ map Bytes (waiting i w') ++ lost).
Proof.
  intro E. destruct (steps_kind _ _ _ _ _ E) as [K _]. cbn in K. destruct (invP B n hs (world0 k AsyncLoop (Some p0) (Some p1) d0 d1) w' eq_refl (startP k AsyncLoop p0 p1 d0 d1 eq_refl) E) as [_ D]. destruct (D i) as (lost & X). exists lost. now rewrite K in X.
Qed.
(** ** nor is connection_lost called twice *)
Theorem C63_lost_once B n hs k l p0 p1 d0 d1 w' i :
  steps B n (world0 k l (Some p0) (Some p1) d0 d1) hs = Some w' -> (List.length (losses i (w_log w')) <= 1)%nat.
Proof. intro E. pose proof (a_lost _ _ _ _ _ (invA B n hs (world0 k l (Some p0) (Some p1) d0 d1) w' eq_refl (startA k l p0 p1 d0 d1) E i)). destruct (t_closed (tr w' i)); lia. Qed.
(** ** writeCount is the number of writes accepted *)
Theorem C63_count B n hs k l p0 p1 d0 d1 w' i :
  steps B n (world0 k l (Some p0) (Some p1) d0 d1) hs = Some w' -> t_count (tr w' i) = List.length (wrote i (w_log w')).
Proof. intro E. exact (a_count _ _ _ _ _ (invA B n hs (world0 k l (Some p0) (Some p1) d0 d1) w' eq_refl (startA k l p0 p1 d0 d1) E i)). Qed.
(** ** A callback goes to the transport's own protocol *)
Theorem C63_addressed B n hs k l p0 p1 d0 d1 w' :
  history_only (fun a => match a with ASetProtocol _ _ => False | _ => True end) B hs ->
  steps B n (world0 k l (Some p0) (Some p1) d0 d1) hs = Some w' ->
  forall i p, (exists x, In (EvData i p x) (w_log w')) \/ In (EvLost i p) (w_log w') -> p = if i then p1 else p0.
Proof.
  intros H E i p X. destruct (invF B (who p0 p1) n hs (world0 k l (Some p0) (Some p1) d0 d1) w' H eq_refl (startF k l p0 p1 d0 d1) E) as [_ F]. rewrite Forall_forall in F. destruct X as [[x X]|X]; exact (F _ X).
Qed.
(** ** Once either side closes both are told, when the loop has run what it was given *)
Theorem C63_both_told B n hs l p0 p1 d0 d1 w' i :
  history_only (fun a => match a with AWrite _ _ | AClose _ | ASetDelay _ true _ => True | _ => False end) B hs -> lost_quietly B ->
  steps B n (world0 ToProtocol l (Some p0) (Some p1) d0 d1) hs = Some w' -> w_jobs w' = [] ->
  In (EvClose i) (w_log w') -> losses false (w_log w') = [p0] /\ losses true (w_log w') = [p1].
Proof.
  intros H Q E J Cl. destruct (steps_kind _ _ _ _ _ E) as [K _]. cbn in K.
  pose proof (invD B n hs (world0 ToProtocol l (Some p0) (Some p1) d0 d1) w' H Q eq_refl (startD ToProtocol l p0 p1 d0 d1) E) as D.
  assert (H1 : history_only okF B hs) by (revert H; apply history_weaken; exact okD_okF).
  destruct (invF B (who p0 p1) n hs (world0 ToProtocol l (Some p0) (Some p1) d0 d1) w' H1 eq_refl (startF ToProtocol l p0 p1 d0 d1) E) as [Fs F].
  pose proof (invA B n hs (world0 ToProtocol l (Some p0) (Some p1) d0 d1) w' eq_refl (startA ToProtocol l p0 p1 d0 d1) E) as A.
  assert (L : forall j, closed w' j = true -> losses j (w_log w') <> []).
  { intros j X. destruct (d_closed _ _ D j X) as [Y|[[t Y]|Y]]; [exact Y|rewrite J in Y; destruct Y|destruct j; discriminate]. }
  assert (Ci : closed w' i = true) by (apply (f_close _ _ _ _ _ (Fs i)); exact Cl).
  assert (Cn : closed w' (negb i) = true) by (apply (d_lost _ _ D i (L i Ci)); exact K).
  assert (C : forall j, closed w' j = true) by (intro j; destruct (Bool.bool_dec j i) as [->|N]; [exact Ci|apply other_side in N; now subst j]).
  assert (One : forall j, losses j (w_log w') = [who p0 p1 j]).
  { intro j. specialize (L j (C j)). pose proof (a_lost _ _ _ _ _ (A j)) as Y. assert (Z0 : forall p, In p (losses j (w_log w')) -> p = who p0 p1 j).
    { intros p X. unfold losses in X. apply in_flat_map in X as (e & X1 & X2). destruct e; try contradiction X2. destruct (Bool.eqb j i0) eqn:Ej; [|contradiction X2]. apply Bool.eqb_prop in Ej. destruct X2 as [<-|[]]. subst i0. rewrite Forall_forall in F. exact (F _ X1). }
    destruct (losses j (w_log w')) as [|p [|q r]]; [contradiction|rewrite (Z0 p); [reflexivity|now left]|]. cbn in Y. destruct (t_closed (tr w' j)); lia. }
  exact (conj (One false) (One true)).
Qed.
(** ** and after it is told a protocol is given nothing *)
Theorem C63_nothing_after_lost B n hs k l p0 p1 d0 d1 w' i p before after :
  history_only (fun a => match a with AWrite _ _ | AClose _ | ASetDelay _ true _ => True | _ => False end) B hs -> lost_quietly B ->
  steps B n (world0 k l (Some p0) (Some p1) d0 d1) hs = Some w' ->
  w_log w' = before ++ EvLost i p :: after -> got i after = [].
Proof.
  intros H Q E X. pose proof (invD B n hs (world0 k l (Some p0) (Some p1) d0 d1) w' H Q eq_refl (startD k l p0 p1 d0 d1) E) as D. apply (d_after _ _ D i _ _ _ X). cbn. apply Bool.eqb_reflx.
Qed.
(** ** A side that does not close is given everything before it is lost *)
Theorem C63_graceful B n hs p0 p1 d0 d1 w' j :
  let w := world0 ToProtocol AsyncLoop (Some p0) (Some p1) d0 d1 in
  history_only (fun a => match a with AWrite _ _ => True | AClose i => i <> j | _ => False end) B hs ->
  fifo B n w hs -> steps B n w hs = Some w' -> In (EvClose j) (w_log w') ->
  got j (w_log w') = map Bytes (wrote (negb j) (w_log w')).
Proof.
  intros w H F E Cl. destruct (steps_kind _ _ _ _ _ E) as [K _]. cbn in K.
  assert (H1 : history_only (okC (Some j)) B hs). { revert H. apply history_weaken. intros [i d|i|i l d|i p]; try contradiction; intro X; (split; [exact Logic.I|]); intros j' X'; injection X' as <-; intro Y; [discriminate|injection Y as ->; now apply X]. }
  assert (H2 : history_only okF B hs) by (revert H; apply history_weaken; now intros []).
  destruct (invC B _ (Some j) n hs w w' H1 F eq_refl (startC ToProtocol AsyncLoop p0 p1 d0 d1 (Some j) eq_refl) E) as [S1 D].
  destruct (invF B (who p0 p1) n hs w w' H2 eq_refl (startF ToProtocol AsyncLoop p0 p1 d0 d1) E) as [Fs _].
  destruct (D (negb j)) as (rest & X & R). rewrite K in X. cbn [delivered] in X. rewrite negb_involutive in X. rewrite R in X by (left; right; now rewrite negb_involutive).
  destruct (c_graceful _ _ _ _ S1 j eq_refl K) as [_ W]; [apply (f_close _ _ _ _ _ (Fs j)); exact Cl|]. rewrite W in X. cbn in X. now rewrite app_nil_r in X.
Qed.
(** ** Without delays a side is given nothing after its own close *)
Theorem C63_own_close B n hs l p0 p1 d0 d1 w' i before after :
  (d0 = None \/ d0 = Some 0) -> (d1 = None \/ d1 = Some 0) -> history_only plain B hs ->
  steps B n (world0 ToProtocol l (Some p0) (Some p1) d0 d1) hs = Some w' ->
  w_log w' = before ++ EvClose i :: after -> got i after = [].
Proof.
  intros D0 D1 H E X.
  assert (Dn : forall i, delayed (tr (world0 ToProtocol l (Some p0) (Some p1) d0 d1) i) = None) by (intros [|]; cbn; [destruct D1 as [-> | ->]|destruct D0 as [-> | ->]]; reflexivity).
  pose proof (invE B n hs (world0 ToProtocol l (Some p0) (Some p1) d0 d1) w' H (startE ToProtocol l p0 p1 d0 d1 eq_refl Dn) E) as I0. apply (e_after _ _ I0 i _ _ _ X). cbn. apply Bool.eqb_reflx.
Qed.

(** ** Nothing arrives before the delay has passed *)
Theorem C63_delay B n hs w w' i s :
  w_jobs w = [] -> delayed (tr w i) = Some s -> history_only (fun a => match a with ASetDelay j _ _ => j <> i | _ => True end) B hs ->
  steps B n w hs = Some w' -> delivered (w_kind w) i (w_log w') <> delivered (w_kind w) i (w_log w) -> w_now w + s <= w_now w'.
Proof.
  intros J D H E X. destruct (steps_kind _ _ _ _ _ E) as [K _].
  destruct (invT B i s (w_now w) (delivered (w_kind w) i (w_log w)) n hs w w' H J) as (_ & _ & _ & [Y|Y]); [| exact E|rewrite K in Y; contradiction|exact Y].
  split; [exact D|]. split; [lia|]. split; [rewrite J; intros t j []|now left].
Qed.

(** ** What does not hold *)
(** protocols that do nothing *)
Definition idle_protocol : behaviour := fun _ _ _ _ => Return.
(** and one whose connection_lost raises *)
Definition raising_protocol : behaviour := fun _ _ cb _ => match cb with ConnectionLost => Raise | _ => Return end.
Definition calls (l : list api) : hstep := HCode (fold_right (fun a c => Call a (fun _ => c)) Return l).
(** (new transports after setWriteDelay with a loop are those of [world0]; without a loop and with a positive delay it is taken off) *)
Theorem C63_set_delay B n k l p0 p1 a b :
  step B (S (S (S n))) (world0 k l p0 p1 None None) (calls [ASetDelay false true a; ASetDelay true true b]) = Some (world0 k l p0 p1 (Some a) (Some b)) /\
  (0 < b -> step B (S (S (S n))) (world0 k l p0 p1 (Some a) (Some b)) (calls [ASetDelay false true a; ASetDelay true false b]) = Some (world0 k l p0 p1 (Some a) None)).
Proof. split; [reflexivity|]. intro H. apply Z.ltb_lt in H. cbn. unfold set_delay. cbn. rewrite H. reflexivity. Qed.
(** a delay that is changed lets later data overtake earlier *)
Theorem C63_overtake_refuted p0 p1 d e : exists hs w',
  steps idle_protocol 9 (world0 ToProtocol AsyncLoop (Some p0) (Some p1) (Some 1) None) hs = Some w' /\
  fifo idle_protocol 9 (world0 ToProtocol AsyncLoop (Some p0) (Some p1) (Some 1) None) hs /\
  w_jobs w' = [] /\ wrote false (w_log w') = [d; e] /\ got true (w_log w') = [Bytes e; Bytes d].
Proof.
  exists [calls [AWrite false d; ASetDelay false true 0; AWrite false e]; HTick 1; HFire 0]. eexists. split; [vm_compute; reflexivity|]. split; [|vm_compute; auto].
  split; [exact Logic.I|]. cbn. split; [exact Logic.I|]. split; [|exact Logic.I]. intros _ m x y L. inversion L.
Qed.
(** asyncio's loop keeps a heap ordered by time only: of four writes at one reading of the clock it runs the third before the second *)
Theorem C63_tie_refuted p0 p1 a b c d : exists hs w', history_only plain idle_protocol hs /\
  steps idle_protocol 9 (world0 ToProtocol AsyncLoop (Some p0) (Some p1) (Some 1) None) hs = Some w' /\
  w_jobs w' = [] /\ wrote false (w_log w') = [a; b; c; d] /\ got true (w_log w') = [Bytes a; Bytes c; Bytes b; Bytes d].
Proof.
  exists [calls [AWrite false a; AWrite false b; AWrite false c; AWrite false d]; HTick 1; HFire 0; HFire 1; HFire 0; HFire 0]. eexists. split; [|split; [vm_compute; reflexivity|vm_compute; auto]].
  split; [constructor|]. intros x [X|[X|[X|[X|[X|[X|[]]]]]]]; try discriminate. injection X as <-. cbn. repeat (constructor; [exact Logic.I|intros _]). constructor.
Qed.
(** a delayed side is still given data after its close *)
Theorem C63_own_close_refuted p0 p1 e : exists hs w' after, history_only plain idle_protocol hs /\
  steps idle_protocol 9 (world0 ToProtocol AsyncLoop (Some p0) (Some p1) (Some 1) None) hs = Some w' /\
  w_log w' = EvClose false :: after /\ got false after = [Bytes e].
Proof.
  exists [calls [AClose false; AWrite true e]]. do 2 eexists. split; [|split; [vm_compute; reflexivity|split; [vm_compute; reflexivity|reflexivity]]].
  split; [constructor|]. intros x [X|[]]. injection X as <-. cbn. repeat (constructor; [exact Logic.I|intros _]). constructor.
Qed.
(** what is on its way is lost when the receiver closes *)
Theorem C63_pending_lost_refuted p0 p1 d : exists hs w', history_only plain idle_protocol hs /\
  steps idle_protocol 9 (world0 ToProtocol AsyncLoop (Some p0) (Some p1) (Some 1) None) hs = Some w' /\
  w_jobs w' = [] /\ wrote false (w_log w') = [d] /\ got true (w_log w') = [] /\ losses true (w_log w') = [p1].
Proof.
  exists [calls [AWrite false d; AClose true]; HTick 1; HFire 0; HFire 0]. eexists. split; [|split; [vm_compute; reflexivity|vm_compute; auto]].
  split; [constructor|]. intros x [X|[X|[X|[X|[]]]]]; try discriminate. injection X as <-. cbn. repeat (constructor; [exact Logic.I|intros _]). constructor.
Qed.
(** a connection_lost that raises keeps the other side from being told *)
Theorem C63_raise_refuted p0 p1 : exists w',
  run raising_protocol 9 (TApi (AClose false)) (world0 ToProtocol AsyncLoop (Some p0) (Some p1) None None) = Some (w', Some EUser) /\
  w_jobs w' = [] /\ In (EvClose false) (w_log w') /\ losses true (w_log w') = [p1] /\ losses false (w_log w') = [].
Proof. eexists. split; [vm_compute; reflexivity|]. vm_compute. auto 10. Qed.
(** and is then followed by data *)
Theorem C63_after_lost_refuted p0 p1 d : exists hs w' before after, history_only plain raising_protocol hs /\
  steps raising_protocol 9 (world0 ToProtocol AsyncLoop (Some p0) (Some p1) (Some 1) None) hs = Some w' /\
  w_log w' = before ++ EvLost true p1 :: after /\ got true after = [Bytes d].
Proof.
  exists [calls [AWrite false d; AClose true]; HTick 1; HFire 0]. eexists. exists [EvWrite false d; EvClose true; EvClose false], [EvData true p1 (Bytes d)]. split; [|split; [vm_compute; reflexivity|vm_compute; auto]].
  split; [intros p i [x|] l; constructor|]. intros x [X|[X|[X|[]]]]; try discriminate. injection X as <-. cbn. repeat (constructor; [exact Logic.I|intros _]). constructor.
Qed.
(** with TestLoopEx a delayed write arrives as an integer if it is one byte, and not at all otherwise *)
Theorem C63_test_loop_refuted p0 p1 d : exists w',
  steps idle_protocol 9 (world0 ToProtocol TestLoop (Some p0) (Some p1) (Some 1) None) [calls [AWrite false d]; HTick 1; HFire 0] = Some w' /\
  w_jobs w' = [] /\ wrote false (w_log w') = [d] /\ got true (w_log w') = match d with [x] => [Int x] | _ => [] end.
Proof. destruct d as [|x [|y d]]; (eexists; split; [vm_compute; reflexivity|vm_compute; auto]). Qed.
(** setWriteDelay(None, -1) makes close fail, and no one is told *)
Theorem C63_no_loop_refuted p0 p1 : exists w' e,
  run idle_protocol 9 (TApi (AClose false)) (set_tr (world0 ToProtocol AsyncLoop (Some p0) (Some p1) None None) false (set_delay (transport0 (Some p0) None) false (-1))) = Some (w', Some e) /\
  e = EAttr /\ In (EvClose false) (w_log w') /\ w_jobs w' = [] /\ losses false (w_log w') = [] /\ losses true (w_log w') = [].
Proof. do 2 eexists. split; [vm_compute; reflexivity|]. vm_compute. auto 10. Qed.

(** ** Examples *)
(** protocol 1 sends back what it is given and closes after the second *)
Definition echo : behaviour := fun p i cb l =>
  match cb with
  | DataReceived (Bytes d) => if Nat.eqb p 1 then Call (AWrite i d) (fun _ => if Nat.leb 2 (List.length (got i l)) then Call (AClose i) (fun _ => Return) else Return) else Return
  | _ => Return
  end.
Lemma fifo_zero B n hs : (forall k, In (HFire k) hs -> k = 0%nat) -> forall w, fifo B n w hs.
Proof.
  induction hs as [|h hs IH]; intros H w; [exact Logic.I|]. cbn [fifo]. split; [|destruct (step B n w h); [apply IH; intros k X; apply H; now right|exact Logic.I]].
  destruct h as [c|d|k]; auto. intros _ m x y L. rewrite (H k) in L by (now left). inversion L.
Qed.
Definition echo_history : list hstep := [calls [AWrite false [1]; AWrite false [2; 3]; AWrite false [4]]; HTick 5; HFire 0; HFire 0; HFire 0].
Example echo_plain : history_only plain echo echo_history.
Proof.
  split.
  - intros p i [[d|z]|] l; cbn; try constructor. destruct (Nat.eqb p 1); [|constructor]. constructor; [exact Logic.I|]. intros _. destruct (got i l) as [|x [|y r]]; cbn; repeat (constructor; [exact Logic.I|intros _]); constructor.
  - intros x [X|[X|[X|[X|[X|[]]]]]]; try discriminate. injection X as <-. cbn. repeat (constructor; [exact Logic.I|intros _]). constructor.
Qed.
Example echo_quiet : lost_quietly echo. Proof. intros p i l. constructor. Qed.
Example echo_run : exists w', steps echo 20 (world0 ToProtocol AsyncLoop (Some 0%nat) (Some 1%nat) None None) [calls [AWrite false [1]; AWrite false [2; 3]; AWrite false [4]]] = Some w' /\
  w_log w' = [EvWrite false [1]; EvData true 1 (Bytes [1]); EvWrite true [1]; EvData false 0 (Bytes [1]);
              EvWrite false [2; 3]; EvData true 1 (Bytes [2; 3]); EvWrite true [2; 3]; EvData false 0 (Bytes [2; 3]);
              EvClose true; EvClose false; EvLost false 0; EvLost true 1] /\ t_count (tr w' false) = 2%nat.
Proof. eexists. split; [vm_compute; reflexivity|]. vm_compute. auto. Qed.
Example echo_delayed : exists w', steps echo 20 (world0 ToProtocol AsyncLoop (Some 0%nat) (Some 1%nat) (Some 5) None) echo_history = Some w' /\
  fifo echo 20 (world0 ToProtocol AsyncLoop (Some 0%nat) (Some 1%nat) (Some 5) None) echo_history /\
  got true (w_log w') = [Bytes [1]; Bytes [2; 3]] /\ wrote false (w_log w') = [[1]; [2; 3]; [4]] /\ losses true (w_log w') = [1%nat] /\ closes false w' = 1%nat.
Proof.
  eexists. split; [vm_compute; reflexivity|]. split; [|vm_compute; auto]. apply fifo_zero. intros k [X|[X|[X|[X|[X|[]]]]]]; try discriminate X; now injection X as <-.
Qed.
Example graceful_history : history_only (fun a => match a with AWrite _ _ => True | AClose i => i <> true | _ => False end) idle_protocol [calls [AWrite false [1]; AClose false]; HTick 5; HFire 0; HFire 0].
Proof.
  split; [constructor|]. intros x [X|[X|[X|[X|[]]]]]; try discriminate. injection X as <-. cbn. repeat (constructor; [try exact Logic.I; discriminate|intros _]). constructor.
Qed.
Example graceful_run : exists w', steps idle_protocol 20 (world0 ToProtocol AsyncLoop (Some 0%nat) (Some 1%nat) (Some 5) None) [calls [AWrite false [1]; AClose false]; HTick 5; HFire 0; HFire 0] = Some w' /\
  w_jobs w' = [] /\ w_log w' = [EvWrite false [1]; EvClose false; EvData true 1 (Bytes [1]); EvClose true; EvLost true 1; EvLost false 0].
Proof. eexists. split; [vm_compute; reflexivity|]. vm_compute. auto. Qed.
Example storage_run : exists w', steps idle_protocol 20 (world0 ToStream AsyncLoop (Some 0%nat) (Some 1%nat) None (Some 2)) [calls [AWrite false [1]; AWrite true [7]; AClose false; AWrite false [2]]] = Some w' /\
  stored false (w_log w') = [[1]] /\ waiting true w' = [[7]] /\ losses false (w_log w') = [0%nat].
Proof. eexists. split; [vm_compute; reflexivity|]. vm_compute. auto. Qed.

Print Assumptions C63_order.
Print Assumptions C63_both_told.
Print Assumptions C63_graceful.
