(** * The VNIC process: one chain of attempts, and the status file *)
From Coq Require Import String.
From Coq Require Import List ZArith Bool Lia.
From Verif Require Import PyBase PyLemmas PnmsModel ConnSvcModel ConnSvcProofs ProcModel ProcSpec.
Import ListNotations.
Open Scope Z_scope.

Section P.
Variables (port : Z) (ip : pystr) (sp : Z) (sf : bool).
Notation step := (pstep port ip sp sf).
Notation run := (prun port ip sp sf).
Notation text := (status_text port ip sp).
Definition linked (x : phase) : option nat := match x with Opens l | Up l => Some l | _ => None end.
Definition is_up (x : phase) : bool := match x with Up _ => true | _ => false end.
Record inv (p : proc) (x : phase) : Prop := {
  v_phase : at_phase p x;
  v_timer : forall t, x = Waits t -> t <= p_now p + 30;
  v_link : p_link p = linked x;
  v_closing : p_closing p = [];
  v_conn : p_connected p = is_up x;
  v_live : p_live p = if is_up x then lit "Connected" else lit "Not Connected";
  v_file : exists s k, p_file p = firstn k (text s)
}.
Lemma mem_one l m : mem l [m] = Nat.eqb l m. Proof. cbn. apply orb_false_r. Qed.
Lemma firstn_all' (a : pystr) : a = firstn (List.length a) a. Proof. symmetry. apply firstn_all. Qed.
Lemma write_inv s r p x : inv p x -> inv (fst (write_status port ip sp s r p)) x.
Proof.
  intros I0. unfold write_status. destruct r; cbn [fst]; [|exact I0|]; destruct I0; split; auto; cbn [set_file p_file].
  - exists s, (List.length (text s)). apply firstn_all'.
  - eauto.
Qed.
Lemma schedule_inv p : inv p Gone -> inv (schedule p) (Waits (p_now p + 30)).
Proof.
  intros []. unfold at_phase in *. injection v_phase0 as A C D E. split; unfold schedule, set_timers; cbn [p_timers p_attempts p_opening p_links p_now p_link p_closing p_connected p_live p_file]; auto.
  - unfold at_phase. cbn [p_timers p_attempts p_opening p_links]. now rewrite A, C, D, E.
  - intros t X. injection X as <-. lia.
Qed.
Lemma write_now s r p : p_now (fst (write_status port ip sp s r p)) = p_now p. Proof. now destruct r. Qed.
Lemma alert_lost r p : inv p Gone -> inv (alert port ip sp sf true r p) (if sf then match r with WOk => Waits (p_now p + 30) | _ => Gone end else Waits (p_now p + 30)).
Proof.
  intro I0. unfold alert. destruct sf.
  - pose proof (write_inv Disconnected r p Gone I0) as W. pose proof (write_now Disconnected r p) as N. destruct r; [|exact W|exact W]. exact (schedule_inv _ W).
  - apply write_inv. now apply schedule_inv.
Qed.
Lemma alert_made r p x : inv p x -> inv (alert port ip sp sf false r p) x.
Proof.
  intro I0. unfold alert. destruct sf; [|now apply write_inv]. pose proof (write_inv Connected r p x I0) as W. destruct r; exact W.
Qed.
Definition next_phase (x : phase) (p : proc) (e : pevent) : phase :=
  match e, x with
  | PFire O, Waits t => if t <=? p_now p then Connects else x
  | PFail, Connects => Waits (p_now p + 30)
  | POpen, Connects => Opens (p_next p)
  | PUp l _, Opens m => if Nat.eqb l m then Up m else x
  | PLost l r, Up m => if Nat.eqb l m then (if sf then match r with WOk => Waits (p_now p + 30) | _ => Gone end else Waits (p_now p + 30)) else x
  | _, _ => x
  end.
Lemma step_inv p x e : inv p x -> inv (step p e) (next_phase x p e).
Proof.
  intro I0. assert (Ph := v_phase _ _ I0). unfold at_phase in Ph. destruct e as [d|k| | |l r|l r]; cbn [pstep next_phase].
  - destruct I0. split; auto. cbn [p_now]. intros t X. specialize (v_timer0 t X). lia.
  - destruct x as [t| | l | l |]; injection Ph as A C D E; rewrite A; try (destruct k; exact I0). destruct k as [|k]; [|destruct k; exact I0]. cbn [nth_error]. destruct (t <=? p_now p); [|exact I0]. destruct I0. split; auto; try discriminate. unfold at_phase. cbn [set_attempts set_timers p_timers p_attempts p_opening p_links firstn skipn app]. now rewrite C, D, E.
  - destruct x as [t| | l | l |]; injection Ph as A C D E; rewrite C; try exact I0.
    assert (G : inv (set_attempts p 0) Gone) by (destruct I0; split; auto; try discriminate; unfold at_phase; cbn [set_attempts p_timers p_attempts p_opening p_links]; now rewrite A, D, E).
    exact (schedule_inv _ G).
  - destruct x as [t| | l | l |]; injection Ph as A C D E; rewrite C; try exact I0. destruct I0. cbn in v_link0. rewrite v_link0. split; auto; try discriminate. unfold at_phase. cbn [p_timers p_attempts p_opening p_links]. now rewrite A, D, E.
  - destruct x as [t| | m | m |]; injection Ph as A C D E; rewrite D; cbn [mem existsb]; try exact I0. rewrite orb_false_r. destruct (Nat.eqb l m) eqn:Q; [|exact I0]. apply Nat.eqb_eq in Q. subst m. apply alert_made. destruct I0. split; auto; try discriminate. unfold at_phase. cbn [p_timers p_attempts p_opening p_links]. rewrite A, C, E. cbn [remove filter]. now rewrite Nat.eqb_refl.
  - destruct x as [t| | m | m |]; injection Ph as A C D E; rewrite E; cbn [mem existsb]; try exact I0. rewrite orb_false_r. destruct (Nat.eqb l m) eqn:Q; [|exact I0]. apply Nat.eqb_eq in Q. subst m.
    set (p1 := Proc _ _ _ _ _ _ _ _ _ _ _). change (p_now p) with (p_now p1). apply alert_lost. destruct I0. split; auto; try discriminate. unfold at_phase. unfold p1. cbn [p_timers p_attempts p_opening p_links]. rewrite A, C, D. cbn [remove filter]. now rewrite Nat.eqb_refl.
Qed.
Lemma start_inv t : inv (start port ip sp t) Connects.
Proof. split; auto; try reflexivity; try discriminate. exists Disconnected, (List.length (text Disconnected)). apply firstn_all'. Qed.
Lemma run_inv es : forall p x, inv p x -> exists y, inv (run p es) y.
Proof. induction es as [|e es IH]; intros p x I0; [now exists x|]. apply (IH _ (next_phase x p e)). now apply step_inv. Qed.
Lemma phase_unique p x y : inv p x -> inv p y -> x = y.
Proof. intros [A _ _ _ _ _ _] [C _ _ _ _ _ _]. unfold at_phase in *. rewrite C in A. destruct x, y; congruence. Qed.
Lemma run_gone es : (sf = false \/ Forall losses_written es) -> forall p x, x <> Gone -> inv p x -> exists y, y <> Gone /\ inv (run p es) y.
Proof.
  induction es as [|e es IH]; intros H p x N I0; [now exists x|].
  assert (G : next_phase x p e <> Gone).
  { destruct e as [d|k| | |l r|l r]; cbn [next_phase]; auto; destruct x; try discriminate; auto; try (destruct k; try discriminate; destruct (_ <=? _); discriminate); try (destruct (Nat.eqb _ _); discriminate).
    destruct (Nat.eqb l l0); [|discriminate]. destruct H as [-> |H]; [discriminate|]. inversion H as [|? ? X Y]; subst. cbn in X. subst r. now destruct sf. }
  apply (IH ltac:(destruct H as [->|H]; [now left|right; now inversion H]) _ _ G). now apply step_inv.
Qed.
(** the file, when every write succeeds *)
Lemma step_file p x e : inv p x -> writes_ok e -> p_file p = text (if is_up x then Connected else Disconnected) -> p_file (step p e) = text (if is_up (next_phase x p e) then Connected else Disconnected).
Proof.
  intros I0 O F. assert (Ph := v_phase _ _ I0). unfold at_phase in Ph. destruct e as [d|k| | |l r|l r]; cbn [pstep next_phase writes_ok] in *; auto.
  - destruct x; injection Ph as A C D E; rewrite A; try (destruct k; exact F). destruct k as [|k]; [|destruct k; exact F]. cbn [nth_error]. destruct (t <=? p_now p); exact F.
  - destruct x; injection Ph as A C D E; rewrite C; exact F.
  - destruct x; injection Ph as A C D E; rewrite C; exact F.
  - subst r. destruct x; injection Ph as A C D E; rewrite D; cbn [mem existsb]; try exact F. rewrite orb_false_r. destruct (Nat.eqb l l0); [|exact F]. unfold alert. now destruct sf.
  - subst r. destruct x; injection Ph as A C D E; rewrite E; cbn [mem existsb]; try exact F. rewrite orb_false_r. destruct (Nat.eqb l l0); [|exact F]. unfold alert. now destruct sf.
Qed.
Lemma run_file es : Forall writes_ok es -> forall p x, inv p x -> p_file p = text (if is_up x then Connected else Disconnected) -> exists y, inv (run p es) y /\ p_file (run p es) = text (if is_up y then Connected else Disconnected).
Proof.
  induction 1 as [|e es O H IH]; intros p x I0 F; [now exists x|]. apply (IH _ (next_phase x p e)); [now apply step_inv|now apply step_file].
Qed.
(** nothing comes of nothing *)
Lemma gone_stays es : forall p, inv p Gone -> inv (run p es) Gone /\ p_file (run p es) = p_file p.
Proof.
  induction es as [|e es IH]; intros p I0; [now split|].
  assert (G : inv (step p e) Gone) by (pose proof (step_inv p Gone e I0) as X; destruct e as [d|[|k]| | |l r|l r]; exact X).
  assert (F : p_file (step p e) = p_file p).
  { assert (Ph := v_phase _ _ I0). injection Ph as A C D E. destruct e as [d|k| | |l r|l r]; cbn [pstep]; rewrite ?A, ?C, ?D, ?E; cbn [mem existsb]; try reflexivity. now destruct k. }
  destruct (IH _ G) as [X Y]. split; [exact X|]. unfold prun in *. cbn [fold_left]. congruence.
Qed.
(** from anywhere but nowhere the link comes up, within the delay *)
Lemma comes_up p x : x <> Gone -> inv p x -> exists es y, Forall no_trouble es /\ ticks es <= 30 /\ inv (run p es) (Up y) /\ (is_up x = false -> p_file (run p es) = text Connected).
Proof.
  intros N I0.
  assert (O : forall p l, inv p (Opens l) -> inv (run p [PUp l WOk]) (Up l) /\ p_file (run p [PUp l WOk]) = text Connected).
  { intros q l I1. pose proof (step_inv q (Opens l) (PUp l WOk) I1) as X. cbn [next_phase] in X. rewrite Nat.eqb_refl in X. split; [exact X|]. assert (Ph := v_phase _ _ I1). injection Ph as A C D E. cbn [prun fold_left pstep]. rewrite D. cbn [mem existsb]. rewrite Nat.eqb_refl. cbn [orb]. unfold alert. now destruct sf. }
  assert (C : forall p, inv p Connects -> inv (run p [POpen; PUp (p_next p) WOk]) (Up (p_next p)) /\ p_file (run p [POpen; PUp (p_next p) WOk]) = text Connected).
  { intros q I1. pose proof (step_inv q Connects POpen I1) as X. cbn [next_phase] in X. exact (O _ _ X). }
  destruct x as [t| |l|l|].
  - set (d := Z.to_nat (t - p_now p)). set (q := step (step p (PTick d)) (PFire 0)).
    assert (I1 : inv q Connects). { pose proof (step_inv _ _ (PTick d) I0) as X. cbn [next_phase] in X. pose proof (step_inv _ _ (PFire 0) X) as Y. cbn [next_phase] in Y. assert (t <=? p_now (step p (PTick d)) = true) as E by (cbn [pstep p_now]; apply Z.leb_le; subst d; lia). rewrite E in Y. exact Y. }
    exists [PTick d; PFire 0; POpen; PUp (p_next q) WOk], (p_next q). split; [repeat constructor|]. split; [cbn; pose proof (v_timer _ _ I0 t eq_refl); subst d; lia|]. destruct (C _ I1) as [X Y]. split; [exact X|intros _; exact Y].
  - exists [POpen; PUp (p_next p) WOk], (p_next p). split; [repeat constructor|]. split; [cbn; lia|]. destruct (C _ I0) as [X Y]. split; [exact X|intros _; exact Y].
  - exists [PUp l WOk], l. split; [repeat constructor|]. split; [cbn; lia|]. destruct (O _ _ I0) as [X Y]. split; [exact X|intros _; exact Y].
  - exists [], l. split; [constructor|]. split; [cbn; lia|]. split; [exact I0|discriminate].
  - contradiction.
Qed.
End P.
