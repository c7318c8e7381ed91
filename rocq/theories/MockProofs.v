(** * Invariants of the mock transports: what every program preserves *)
From Coq Require Import List ZArith Bool Lia Permutation.
From Verif Require Import PyBase PyLemmas MockModel MockSpec.
Import ListNotations.
Open Scope Z_scope.

(** what the calls under way are doing with each transport *)
Inductive tok := Idle | Closing | Losing.
Definition toks := (tok * tok)%type.
Definition tget (T : toks) (i : side) : tok := if i then snd T else fst T.
Definition tset (T : toks) (i : side) (x : tok) : toks := if i then (fst T, x) else (x, snd T).
Lemma tget_same T i x : tget (tset T i x) i = x. Proof. now destruct i. Qed.
Lemma tget_neg T i x : tget (tset T i x) (negb i) = tget T (negb i). Proof. now destruct i. Qed.
Lemma tset_back T i x : tget T i = Idle -> tset (tset T i x) i Idle = T. Proof. destruct T, i; cbn; intros ->; reflexivity. Qed.
Lemma tset_tset T i x y : tset (tset T i x) i y = tset T i y. Proof. now destruct i. Qed.

Lemma other_side (i j : side) : j <> i -> j = negb i. Proof. destruct i, j; cbn; congruence. Qed.
Definition closed (w : world) (i : side) : bool := t_closed (tr w i).
Lemma tr_set_same w i t : tr (set_tr w i t) i = t. Proof. now destruct i. Qed.
Lemma tr_set_neg w i t : tr (set_tr w i t) (negb i) = tr w (negb i). Proof. now destruct i. Qed.
Lemma tr_set_neg' w i t : tr (set_tr w (negb i) t) i = tr w i. Proof. now destruct i. Qed.
Lemma tr_log w e i : tr (log w e) i = tr w i. Proof. now destruct i. Qed.
Lemma tr_jobs w js i : tr (set_jobs w js) i = tr w i. Proof. now destruct i. Qed.
Lemma kind_set w i t : w_kind (set_tr w i t) = w_kind w. Proof. now destruct i. Qed.
Lemma loop_set w i t : w_loop (set_tr w i t) = w_loop w. Proof. now destruct i. Qed.
Lemma now_set w i t : w_now (set_tr w i t) = w_now w. Proof. now destruct i. Qed.
Lemma jobs_set w i t : w_jobs (set_tr w i t) = w_jobs w. Proof. now destruct i. Qed.
Lemma log_set w i t : w_log (set_tr w i t) = w_log w. Proof. now destruct i. Qed.
#[export] Hint Rewrite tr_set_same tr_set_neg tr_set_neg' tr_log tr_jobs kind_set loop_set now_set jobs_set log_set tget_same tget_neg : mock.

Definition grows (w w' : world) : Prop :=
  w_kind w' = w_kind w /\ w_loop w' = w_loop w /\ w_now w' = w_now w /\ (forall i, closed w i = true -> closed w' i = true) /\
  forall t i, In (t, (i, JClose)) (w_jobs w') -> In (t, (i, JClose)) (w_jobs w) \/ closed w' i = true.
Lemma grows_refl w : grows w w. Proof. repeat split; auto. Qed.
Lemma grows_trans a b c : grows a b -> grows b c -> grows a c.
Proof. intros (A & B & C & D & F) (A' & B' & C' & D' & F'). split; [congruence|]. split; [congruence|]. split; [congruence|]. split; [auto|]. intros t i X. destruct (F' _ _ X) as [Y|Y]; [|now right]. destruct (F _ _ Y); auto. Qed.
Lemma grows_log w e : grows w (log w e). Proof. repeat split; auto. Qed.
Lemma grows_jobs w js : (forall t i, In (t, (i, JClose)) js -> In (t, (i, JClose)) (w_jobs w) \/ closed w i = true) -> grows w (set_jobs w js). Proof. repeat split; auto. Qed.
Lemma grows_set w i t : (closed w i = true -> t_closed t = true) -> grows w (set_tr w i t).
Proof. intro H. unfold grows, closed in *. destruct i; repeat split; try (intros [|]); cbn; auto. Qed.
Lemma grows_later w i d j : (j = JClose -> closed w i = true) -> grows w (fst (later w i d j)).
Proof. intro H. unfold later. destruct (t_loop _); [|apply grows_refl]. apply grows_jobs. intros t k X. apply in_app_or in X as [X|[X|[]]]; [now left|]. injection X as _ <- ->. right. now apply H. Qed.

Lemma run_grows B n : forall t w w' r, run B n t w = Some (w', r) -> grows w w'.
Proof.
  induction n as [|n IH]; intros t w w' r E; [discriminate|]. destruct t as [c|a|i x|i].
  - destruct c as [| |a k]; cbn [run] in E; try (injection E as <- <-; apply grows_refl).
    destruct (run B n (TApi a) w) as [[w1 r1]|] eqn:E1; [|discriminate]. eapply grows_trans; [eapply IH; eauto|eapply IH; eauto].
  - destruct a as [i d|i|i l d|i p]; cbn [run] in E.
    + destruct (t_closed (tr w i)) eqn:C; [injection E as <- <-; apply grows_refl|]. set (w1 := log _ _) in E. assert (G : grows w w1) by (unfold w1; eapply grows_trans; [apply (grows_set w i (count_write (tr w i))); unfold closed; congruence|apply grows_log]).
      destruct (delayed (tr w i)) as [s|].
      * assert (w' = fst (later w1 i s (JWrite d))) as -> by (injection E as E; now rewrite E). eapply grows_trans; [exact G|apply grows_later; discriminate].
      * eapply grows_trans; [exact G|eapply IH; eauto].
    + destruct (t_closed (tr w i)) eqn:C; [injection E as <- <-; apply grows_refl|]. set (w1 := log _ _) in E. assert (G : grows w w1) by (unfold w1; eapply grows_trans; [apply (grows_set w i (set_closed (tr w i))); reflexivity|apply grows_log]).
      destruct (delayed (tr w i)) as [s|].
      * assert (w' = fst (later w1 i s JClose)) as -> by (injection E as E; now rewrite E). eapply grows_trans; [exact G|apply grows_later; intros _; unfold w1, closed; now autorewrite with mock].
      * eapply grows_trans; [exact G|eapply IH; eauto].
    + injection E as <- <-. apply grows_set. unfold set_delay, closed. now destruct (negb l && (0 <? d)).
    + injection E as <- <-. now apply grows_set.
  - cbn [run] in E. destruct (w_kind w).
    + destruct (t_protocol (tr w (negb i))) as [p|]; [|injection E as <- <-; apply grows_refl]. eapply grows_trans; [apply grows_log|eapply IH; eauto].
    + destruct x; injection E as <- <-; [apply grows_log|apply grows_refl].
  - cbn [run] in E. destruct (match w_kind w with ToProtocol => run B n (TApi (AClose (negb i))) w | ToStream => Some (w, None) end) as [[w1 [e|]]|] eqn:E1; [| |discriminate].
    + injection E as <- <-. destruct (w_kind w); [eapply IH; eauto|injection E1 as <- _; apply grows_refl].
    + assert (G : grows w w1) by (destruct (w_kind w); [eapply IH; eauto|injection E1 as <-; apply grows_refl]). eapply grows_trans; [exact G|]. clear G E1.
      destruct (t_protocol (tr w1 i)) as [p|]; [|injection E as <- <-; apply grows_refl]. eapply grows_trans; [apply (grows_log w1 (EvLost i p))|].
      destruct (run B n _ (log w1 (EvLost i p))) as [[w3 [e|]]|] eqn:E3; [| |discriminate].
      * injection E as <- <-. eapply IH; eauto.
      * injection E as <- <-. eapply grows_trans; [eapply IH; eauto|]. now apply grows_set.
Qed.
Lemma close_closes B n i w w' r : run B n (TApi (AClose i)) w = Some (w', r) -> closed w' i = true.
Proof.
  destruct n as [|n]; cbn [run]; [discriminate|]. destruct (t_closed (tr w i)) eqn:C; intro E; [injection E as <- <-; exact C|]. set (w1 := log _ _) in E.
  assert (C1 : closed w1 i = true) by (unfold w1, closed; now autorewrite with mock). destruct (delayed (tr w i)) as [s|].
  - assert (w' = fst (later w1 i s JClose)) as -> by (injection E as E; now rewrite E). now apply (grows_later w1 i s JClose (fun _ => C1)).
  - now apply (run_grows B n _ _ _ _ E).
Qed.

(** ** The principle *)
Definition base (T : toks) (w : world) : Prop := forall i, tget T i <> Idle -> closed w i = true.
Definition full (T : toks) (w : world) : Prop := forall i, tget T i = Closing -> w_kind w = ToProtocol -> closed w (negb i) = true.
Definition idle : toks := (Idle, Idle).
Lemma base_grows T w w' : grows w w' -> base T w -> base T w'.
Proof. intros (_ & _ & _ & G & _) H i X. apply G. now apply H. Qed.
Lemma full_grows T w w' : grows w w' -> full T w -> full T w'.
Proof. intros (K & _ & _ & G & _) H i X Y. apply G. apply H; [exact X|congruence]. Qed.
Lemma base_idle w : base idle w. Proof. intros [|] X; now contradict X. Qed.
Lemma full_idle w : full idle w. Proof. intros [|] X; discriminate. Qed.

Section Principle.
Variable B : behaviour.
Variable ok : api -> Prop.
Variable strict : bool.
(** [Inv T w]: between calls; [Owed T i x w]: transport i is about to hand over x *)
Variable Inv : toks -> world -> Prop.
Variable Owed : toks -> side -> payload -> world -> Prop.
Hypothesis HB : forall p i cb l, only ok (B p i cb l).
Hypothesis Hwrite : forall T w i d, Inv T w -> base T w -> full T w -> ok (AWrite i d) -> closed w i = false ->
  let w1 := log (set_tr w i (count_write (tr w i))) (EvWrite i d) in
  match delayed (tr w i) with
  | Some s => Inv T (fst (later w1 i s (JWrite d)))
  | None => Owed T i (Bytes d) w1
  end.
Hypothesis Hclose : forall T w i, Inv T w -> base T w -> (ok (AClose i) /\ full T w \/ tget T (negb i) = Closing /\ w_kind w = ToProtocol) -> closed w i = false -> tget T i = Idle ->
  let w1 := log (set_tr w i (set_closed (tr w i))) (EvClose i) in
  match delayed (tr w i) with
  | Some s => (strict = true -> t_loop (tr w i) = true) /\ Inv T (fst (later w1 i s JClose))
  | None => Inv (tset T i Closing) w1
  end.
Hypothesis Hdelay : forall T w i l d, Inv T w -> base T w -> ok (ASetDelay i l d) -> Inv T (set_tr w i (set_delay (tr w i) l d)).
Hypothesis Hproto : forall T w i p, Inv T w -> base T w -> ok (ASetProtocol i p) -> Inv T (set_tr w i (set_protocol (tr w i) p)).
Hypothesis Hdata : forall T w i x p, Owed T i x w -> base T w -> full T w -> w_kind w = ToProtocol -> t_protocol (tr w (negb i)) = Some p -> Inv T (log w (EvData (negb i) p x)).
Hypothesis Hfail : forall T w i x, Owed T i x w -> base T w -> full T w -> w_kind w = ToProtocol -> t_protocol (tr w (negb i)) = None -> Inv T w.
Hypothesis Hstore : forall T w i d, Owed T i (Bytes d) w -> base T w -> w_kind w = ToStream -> Inv T (log w (EvStore i d)).
Hypothesis Hstore' : forall T w i z, Owed T i (Int z) w -> base T w -> w_kind w = ToStream -> Inv T w.
Hypothesis Hnone : forall T w i, tget T i = Closing -> Inv T w -> base T w -> full T w -> t_protocol (tr w i) = None -> Inv (tset T i Idle) w.
Hypothesis Hlost : forall T w i p, tget T i = Closing -> Inv T w -> base T w -> full T w -> t_protocol (tr w i) = Some p -> Inv (tset T i Losing) (log w (EvLost i p)).
Hypothesis Hdone : forall T w i, tget T i = Losing -> Inv T w -> base T w -> full T w -> Inv (tset T i Idle) (set_tr w i (set_protocol (tr w i) None)).
Hypothesis Hstrict : if strict then lost_quietly B else forall T w i, tget T i <> Idle -> base T w -> full T w -> Inv T w -> Inv (tset T i Idle) w.

Lemma quiet_run n : forall c w w' r, quiet c -> run B n (TCode c) w = Some (w', r) -> r = None.
Proof.
  induction n as [|n IH]; intros c w w' r Q E; [discriminate|]. destruct Q as [|a k Q]; cbn [run] in E; [now injection E as _ <-|].
  destruct (run B n (TApi a) w) as [[w1 r1]|]; [|discriminate]. eapply IH; eauto.
Qed.

Definition pre (T : toks) (t : task) (w : world) : Prop :=
  match t with
  | TCode c => only ok c /\ full T w /\ Inv T w
  | TApi a => (ok a /\ full T w \/ (exists i, a = AClose i /\ tget T (negb i) = Closing /\ w_kind w = ToProtocol)) /\ Inv T w
  | TWrite i x => full T w /\ Owed T i x w
  | TClose i => full T w /\ tget T i = Idle /\ closed w i = true /\ Inv (tset T i Closing) w
  end.
Definition calm (t : task) : Prop := match t with TApi (AClose _) | TClose _ => True | _ => False end.
Theorem run_inv n : forall t T w w' r, run B n t w = Some (w', r) -> base T w -> pre T t w -> Inv T w' /\ (strict = true -> calm t -> r = None).
Proof.
  induction n as [|n IH]; intros t T w w' r E Ba P; [discriminate|]. destruct t as [c|a|i x|i].
  - destruct P as (O & F & P). split; [|intros _ []]. destruct O as [| |a k Oa Ok]; cbn [run] in E; try (injection E as <- <-; exact P).
    destruct (run B n (TApi a) w) as [[w1 r1]|] eqn:E1; [|discriminate]. pose proof (run_grows _ _ _ _ _ _ E1) as G.
    destruct (IH _ T _ _ _ E1 Ba) as [I1 _]; [split; [left; auto|exact P]|]. apply (IH _ T _ _ _ E); [now apply (base_grows T w)|]. split; [apply Ok|]. split; [now apply (full_grows T w)|exact I1].
  - destruct P as (P & I0). destruct a as [i d|i|i l d|i p]; cbn [run] in E.
    + split; [|intros _ []]. assert (F : ok (AWrite i d) /\ full T w) by (destruct P as [P|(j & X & _)]; [exact P|discriminate]). destruct F as [O F].
      destruct (t_closed (tr w i)) eqn:C; [injection E as <- <-; exact I0|]. pose proof (Hwrite T w i d I0 Ba F O C) as H. cbv zeta in H. set (w1 := log _ _) in *.
      assert (G : grows w w1) by (unfold w1; eapply grows_trans; [apply (grows_set w i (count_write (tr w i))); unfold closed; congruence|apply grows_log]).
      destruct (delayed (tr w i)) as [s|].
      * assert (w' = fst (later w1 i s (JWrite d))) as -> by (injection E as E; now rewrite E). exact H.
      * apply (IH _ T _ _ _ E); [now apply (base_grows T w)|]. split; [now apply (full_grows T w)|exact H].
    + assert (P' : ok (AClose i) /\ full T w \/ tget T (negb i) = Closing /\ w_kind w = ToProtocol) by (destruct P as [P|(j & X & P)]; [now left|injection X as ->; now right]).
      destruct (t_closed (tr w i)) eqn:C; [injection E as <- <-; split; [exact I0|reflexivity]|].
      assert (Ti : tget T i = Idle) by (destruct (tget T i) eqn:X; [reflexivity| |]; exfalso; assert (Y : closed w i = true) by (apply Ba; congruence); unfold closed in Y; congruence).
      pose proof (Hclose T w i I0 Ba P' C Ti) as H. cbv zeta in H. set (w1 := log _ _) in *.
      assert (G : grows w w1) by (unfold w1; eapply grows_trans; [apply (grows_set w i (set_closed (tr w i))); reflexivity|apply grows_log]).
      assert (C1 : closed w1 i = true) by (unfold w1, closed; now autorewrite with mock).
      assert (F1 : full T w1).
      { destruct P' as [[_ F]|[Tn K]]; [now apply (full_grows T w)|]. intros j X Y. destruct (Bool.bool_dec j i) as [->|N]; [congruence|]. assert (j = negb i) as -> by (now apply other_side). now rewrite negb_involutive. }
      destruct (delayed (tr w i)) as [s|].
      * destruct H as [L H]. assert (w' = fst (later w1 i s JClose) /\ r = snd (later w1 i s JClose)) as [-> ->] by (injection E as E; now rewrite E). split; [exact H|]. intros S0 _. unfold later. assert (t_loop (tr w1 i) = true) as -> by (unfold w1; autorewrite with mock; cbn; now apply L). reflexivity.
      * apply (IH (TClose i) T _ _ _ E); [now apply (base_grows T w)|]. repeat split; assumption.
    + split; [|intros _ []]. injection E as <- <-. destruct P as [[O _]|(j & X & _)]; [now apply Hdelay|discriminate].
    + split; [|intros _ []]. injection E as <- <-. destruct P as [[O _]|(j & X & _)]; [now apply Hproto|discriminate].
  - split; [|intros _ []]. destruct P as (F & P). cbn [run] in E. destruct (w_kind w) eqn:K.
    + destruct (t_protocol (tr w (negb i))) as [p|] eqn:Pr; [|injection E as <- <-; eapply Hfail; eauto]. pose proof (grows_log w (EvData (negb i) p x)) as G.
      apply (IH _ T _ _ _ E); [now apply (base_grows T w)|]. split; [apply HB|]. split; [now apply (full_grows T w)|]. now apply Hdata.
    + destruct x; injection E as <- <-; [now apply Hstore|eapply Hstore'; eauto].
  - destruct P as (F & Ti & C & I1). cbn [run] in E.
    set (T1 := tset T i Closing) in *. assert (B1 : base T1 w) by (intros j X; destruct (Bool.bool_dec j i) as [->|N]; [exact C|]; apply Ba; unfold T1 in X; assert (j = negb i) as -> by (now apply other_side); now rewrite tget_neg in X).
    assert (T1i : tget T1 i = Closing) by (unfold T1; now autorewrite with mock). assert (T1b : forall x, tset T1 i x = tset T i x) by (intro; unfold T1; apply tset_tset). assert (T1n : tset T1 i Idle = T) by (rewrite T1b; destruct T, i; cbn in *; congruence).
    destruct (match w_kind w with ToProtocol => run B n (TApi (AClose (negb i))) w | ToStream => Some (w, None) end) as [[w1 r1]|] eqn:E1; [|discriminate].
    assert (X : Inv T1 w1 /\ (strict = true -> r1 = None) /\ grows w w1 /\ full T1 w1).
    { destruct (w_kind w) eqn:K.
      - pose proof (run_grows _ _ _ _ _ _ E1) as G. destruct (IH _ T1 _ _ _ E1 B1) as [I2 R2]; [split; [right; exists (negb i); rewrite negb_involutive; auto|exact I1]|]. split; [exact I2|]. split; [intro S0; apply R2; [exact S0|exact Logic.I]|]. split; [exact G|].
        intros j Y Z0. destruct (Bool.bool_dec j i) as [->|N]; [now apply close_closes in E1|]. assert (j = negb i) as -> by (now apply other_side). rewrite negb_involutive. now apply G.
      - injection E1 as <- <-. split; [exact I1|]. split; [auto|]. split; [apply grows_refl|]. intros j _ Y. congruence. }
    destruct X as (I2 & R1 & G & F1). assert (B2 : base T1 w1) by (now apply (base_grows T1 w)).
    destruct r1 as [e|].
    { injection E as <- <-. destruct strict eqn:S0; [specialize (R1 eq_refl); discriminate|]. split; [|discriminate]. rewrite <- T1n. apply Hstrict; [congruence|exact B2|exact F1|exact I2]. }
    destruct (t_protocol (tr w1 i)) as [p|] eqn:Pr.
    2:{ injection E as <- <-. split; [|reflexivity]. rewrite <- T1n. now apply Hnone. }
    set (w2 := log w1 (EvLost i p)) in *. set (T2 := tset T i Losing) in *. assert (I3 : Inv T2 w2) by (unfold T2, w2; rewrite <- T1b; now apply Hlost).
    assert (G2 : grows w1 w2) by apply grows_log. assert (C2 : closed w2 i = true) by (now apply G2, G). assert (T2i : tget T2 i = Losing) by (unfold T2; now autorewrite with mock).
    assert (B3 : base T2 w2) by (intros j Y; destruct (Bool.bool_dec j i) as [->|N]; [exact C2|]; apply G2, G, Ba; unfold T2 in Y; assert (j = negb i) as -> by (now apply other_side); now rewrite tget_neg in Y).
    assert (F2 : full T2 w2). { intros j Y Z0. destruct (Bool.bool_dec j i) as [->|N]; [congruence|]. assert (j = negb i) as -> by (now apply other_side). now rewrite negb_involutive. }
    destruct (run B n (TCode (B p i ConnectionLost (w_log w2))) w2) as [[w3 r3]|] eqn:E3; [|discriminate].
    pose proof (run_grows _ _ _ _ _ _ E3) as G3. destruct (IH _ T2 _ _ _ E3 B3) as [I4 _]; [split; [apply HB|split; [exact F2|exact I3]]|].
    assert (T2n : tset T2 i Idle = T) by (unfold T2; now apply tset_back).
    destruct r3 as [e|].
    + injection E as <- <-. destruct strict eqn:S0; [exfalso; apply quiet_run in E3; [discriminate|apply Hstrict]|]. split; [|discriminate]. rewrite <- T2n. apply Hstrict; [congruence|now apply (base_grows T2 w2)|now apply (full_grows T2 w2)|exact I4].
    + injection E as <- <-. split; [|reflexivity]. rewrite <- T2n. apply Hdone; [exact T2i|exact I4|now apply (base_grows T2 w2)|now apply (full_grows T2 w2)].
Qed.

(** ** Histories *)
Variable good : (world -> nat -> Prop).          (* which job the loop may run *)
Hypothesis Htick : forall w d, Inv idle w -> Inv idle (set_now w (w_now w + Z.of_nat d)).
Hypothesis Hfire : forall w k t i j, Inv idle w -> is_next w k = true -> good w k -> nth_error (w_jobs w) k = Some (t, (i, j)) ->
  let w1 := set_jobs w (remove_nth k (w_jobs w)) in
  match j with
  | JClose => closed w i = true -> Inv (tset idle i Closing) w1
  | JWrite d => match w_loop w, d with
                | AsyncLoop, _ => Owed idle i (Bytes d) w1
                | TestLoop, [x] => Owed idle i (Int x) w1
                | TestLoop, _ => Inv idle w1
                end
  end.
Fixpoint goods (n : nat) (w : world) (hs : list hstep) : Prop :=
  match hs with
  | [] => True
  | h :: r => match h with HFire k => is_next w k = true -> good w k | _ => True end /\
              match step B n w h with Some w' => goods n w' r | None => True end
  end.
Theorem steps_inv n hs : forall w w', (forall t i, In (t, (i, JClose)) (w_jobs w) -> closed w i = true) -> (forall c, In (HCode c) hs -> only ok c) -> steps B n w hs = Some w' -> goods n w hs -> Inv idle w -> Inv idle w'.
Proof.
  induction hs as [|h hs IH]; intros w w' JC O E G P; cbn [steps] in E; [now injection E as <-|]. destruct (step B n w h) as [w1|] eqn:E1; [|discriminate]. cbn [goods] in G. rewrite E1 in G. destruct G as [Gk G].
  assert (X : Inv idle w1 /\ (forall t i, In (t, (i, JClose)) (w_jobs w1) -> closed w1 i = true)).
  2:{ destruct X as [X1 X2]. apply (IH w1); [exact X2|intros c X; apply O; now right|exact E|exact G|exact X1]. }
  clear IH E G.
  assert (Gr : forall w2, grows w w2 -> forall t i, In (t, (i, JClose)) (w_jobs w2) -> closed w2 i = true) by (intros w2 (_ & _ & _ & C & J) t i X; destruct (J _ _ X) as [Y|Y]; [|exact Y]; apply C; eauto).
  destruct h as [c|d|k]; cbn [step] in E1.
  - destruct (run B n (TCode c) w) as [[w2 r]|] eqn:R; [|discriminate]. injection E1 as <-. split; [|apply Gr; eapply run_grows; eauto]. apply (run_inv n _ idle _ _ _ R); [apply base_idle|]. split; [apply O; now left|]. split; [apply full_idle|exact P].
  - injection E1 as <-. split; [now apply Htick|exact JC].
  - destruct (is_next w k) eqn:Nx; [|injection E1 as <-; auto]. destruct (nth_error (w_jobs w) k) as [[t [i j]]|] eqn:N; [|injection E1 as <-; auto].
    pose proof (Hfire w k t i j P Nx (Gk eq_refl) N) as H. cbv zeta in H. set (w2 := set_jobs _ _) in *.
    assert (G2 : grows w w2) by (apply grows_jobs; intros t0 i0 X; left; revert X; clear; generalize (w_jobs w); induction k as [|k IH]; intros [|y l]; cbn; auto; intros [->|X]; auto).
    destruct (fire B n i j w2) as [[w3 r]|] eqn:R; [|discriminate]. injection E1 as <-. unfold fire in R.
    assert (G3 : grows w2 w3). { destruct j as [d|]; [|eapply run_grows; eauto]. destruct (w_loop w2); [eapply run_grows; eauto|]. destruct d as [|x [|y d]]; try (injection R as <- _; apply grows_refl). eapply run_grows; eauto. }
    split; [|apply Gr; now apply (grows_trans w w2)]. destruct j as [d|].
    + change (w_loop w2) with (w_loop w) in R. destruct (w_loop w).
      * apply (run_inv n _ idle _ _ _ R); [apply base_idle|]. split; [apply full_idle|exact H].
      * destruct d as [|x [|y d]]; try (injection R as <- _; exact H). apply (run_inv n _ idle _ _ _ R); [apply base_idle|]. split; [apply full_idle|exact H].
    + assert (C : closed w i = true) by (apply (JC t); now apply nth_error_In in N). apply (run_inv n _ idle _ _ _ R); [apply base_idle|]. split; [apply full_idle|]. split; [now destruct i|]. split; [|now apply H]. unfold closed, w2. now rewrite tr_jobs.
Qed.
End Principle.
Lemma goods_all B n hs : forall w, goods B (fun _ _ => True) n w hs.
Proof. induction hs as [|h hs IH]; intro w; cbn [goods]; [exact Logic.I|]. split; [destruct h; auto|]. destruct (step B n w h); auto. Qed.
Lemma goods_fifo B n hs : forall w, fifo B n w hs -> goods B first_of n w hs.
Proof. induction hs as [|h hs IH]; intros w F; cbn [goods fifo] in *; [exact Logic.I|]. destruct F as [F1 F2]. split; [exact F1|]. destruct (step B n w h); auto. Qed.
