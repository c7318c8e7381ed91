(** * C74: generators whose result is kept *)
From Coq Require Import List Arith Bool Lia.
From Verif Require Import PyBase GenModel GenSpec.
Import ListNotations.

Lemma put_same (i : nat) (x : phase) (l : list phase) : (i < length l)%nat -> nth_error (put i x l) i = Some x.
Proof. revert i. induction l as [|y l IH]; intros [|i] H; cbn in *; try lia; [reflexivity|]. apply IH. lia. Qed.
Lemma put_other i j x l : i <> j -> nth_error (put i x l) j = nth_error l j.
Proof. revert i j. induction l as [|y l IH]; intros [|i] [|j] H; cbn; try reflexivity; try congruence. apply IH. congruence. Qed.
Lemma values_app {A} (a b : list (nat * answer A)) : values (a ++ b) = values a ++ values b.
Proof. unfold values. now rewrite flat_map_app. Qed.
Lemma stopped_app {A} (a b : list (nat * answer A)) : stopped (a ++ b) = stopped a ++ stopped b.
Proof. unfold stopped. now rewrite flat_map_app. Qed.
Lemma nodup_snoc (l : list nat) i : length (nodup Nat.eq_dec (l ++ [i])) = if in_dec Nat.eq_dec i l then length (nodup Nat.eq_dec l) else S (length (nodup Nat.eq_dec l)).
Proof.
  induction l as [|x l IH]; [reflexivity|]. cbn [app nodup].
  destruct (in_dec Nat.eq_dec x (l ++ [i])) as [H|H], (in_dec Nat.eq_dec x l) as [H1|H1].
  - rewrite IH. destruct (in_dec Nat.eq_dec i l) as [I|I], (in_dec Nat.eq_dec i (x :: l)) as [J|J]; try reflexivity.
    + exfalso. apply J. now right.
    + exfalso. destruct J as [->|J]; auto.
  - apply in_app_iff in H as [H|[->|[]]]; [contradiction|]. rewrite IH. destruct (in_dec Nat.eq_dec x l) as [|_]; [contradiction|]. cbn [length].
    destruct (in_dec Nat.eq_dec x (x :: l)) as [_|N]; [reflexivity|exfalso; apply N; now left].
  - exfalso. apply H. apply in_or_app. now left.
  - cbn [length]. rewrite IH. destruct (in_dec Nat.eq_dec i l) as [I|I], (in_dec Nat.eq_dec i (x :: l)) as [J|J]; try reflexivity.
    + exfalso. apply J. now right.
    + exfalso. destruct J as [->|J]; [apply H; apply in_or_app; right; now left|contradiction].
Qed.

Definition sound {A B} (l : list A) (v : B) (s : list (nat * answer A) * rog A B) : Prop :=
  let (tr, g) := s in
  values tr ++ g_left g = l /\ (forall i, nth_error (g_iters g) i = Some Over <-> In i (stopped tr)) /\ (forall i e, ~ In (i, Fails e) tr) /\
  match ends tr with
  | 0 => g_end g = Some (Returns v) /\ g_result g = Running
  | 1 => g_left g = [] /\ g_end g = None /\ g_result g = Value v
  | _ => g_left g = [] /\ g_end g = None /\ g_result g = NoValue
  end.
Lemma sound_step {A B} (l : list A) (v : B) s o : ~ drops o -> sound l v s -> sound l v (step s o).
Proof.
  destruct s as [tr g]. intros D (V & O & F & E). destruct o as [|i|i]; [| |destruct D; exact I]; cbn [step].
  - split; [exact V|]. split; [|split; [exact F|exact E]]. intros i. cbn [g_iters]. rewrite <- O. split; intros H.
    + destruct (Nat.lt_ge_cases i (length (g_iters g))) as [Lt|Ge]; [now rewrite nth_error_app1 in H|]. rewrite nth_error_app2 in H by exact Ge.
      destruct (i - length (g_iters g)) as [|k]; cbn in H; [discriminate|destruct k; discriminate].
    + rewrite nth_error_app1; [exact H|]. apply nth_error_Some. congruence.
  - unfold next. destruct (nth_error (g_iters g) i) as [ph|] eqn:Ni; [|repeat split; auto; apply O].
    assert (Li : (i < length (g_iters g))%nat) by (apply nth_error_Some; congruence).
    assert (Fs : forall a, (forall e, a <> Fails e) -> forall j e, ~ In (j, Fails e) (tr ++ [(i, a)])).
    { intros a Na j e H. apply in_app_iff in H as [H|[H|[]]]; [now apply (F j e)|]. injection H as _ H. now apply (Na e). }
    destruct ph.
    3: { assert (In i (stopped tr)) as H by now apply O. unfold sound. rewrite values_app, stopped_app. cbn [values flat_map snd app]. rewrite app_nil_r. split; [exact V|].
         split; [intros j; rewrite O; split; intros Q; [apply in_or_app; now left|apply in_app_iff in Q as [Q|[<-|[]]]; assumption]|]. split; [apply Fs; discriminate|].
         unfold ends in *. rewrite stopped_app. change (stopped [(i, Stops)]) with [i]. rewrite nodup_snoc. destruct (in_dec Nat.eq_dec i (stopped tr)); [exact E|contradiction]. }
    all: assert (Nin : ~ In i (stopped tr)) by (rewrite <- O; congruence).
    all: destruct (g_left g) as [|a r] eqn:Lf.
    all: try (unfold sound; rewrite values_app, stopped_app; cbn [g_left g_iters g_end g_result]; unfold ends in *; rewrite stopped_app;
              change (stopped [(i, Yields a)]) with (@nil nat); rewrite app_nil_r; change (values [(i, Yields a)]) with [a]; rewrite <- app_assoc; split; [exact V|];
              split; [intros j; destruct (Nat.eq_dec i j) as [<-|Nj]; [rewrite (put_same) by exact Li; split; [discriminate|contradiction]|rewrite put_other by exact Nj; apply O]|];
              split; [apply Fs; discriminate|]; destruct (length (nodup Nat.eq_dec (stopped tr))) as [|[|]]; [exact E|destruct E; discriminate|destruct E; discriminate]).
    all: assert (G : forall x, sound l v (tr ++ [(i, Stops)], Rog [] None x (put i Over (g_iters g))) <-> x = match ends tr with 0 => Value v | _ => NoValue end).
    1,3: intros x; unfold sound; rewrite values_app, stopped_app; cbn [g_left g_iters g_end g_result]; unfold ends in *; rewrite stopped_app;
         change (stopped [(i, Stops)]) with [i]; change (values [(i, Stops)]) with (@nil A); rewrite !app_nil_r in *; rewrite nodup_snoc;
         destruct (in_dec Nat.eq_dec i (stopped tr)); [contradiction|];
         assert (P : forall j, nth_error (put i Over (g_iters g)) j = Some Over <-> In j (stopped tr ++ [i])) by
           (intros j; destruct (Nat.eq_dec i j) as [<-|Nj]; [rewrite (put_same) by exact Li; split; [intros _; apply in_or_app; right; now left|reflexivity]|
             rewrite put_other by exact Nj; rewrite O; split; intros Q; [apply in_or_app; now left|apply in_app_iff in Q as [Q|[Q|[]]]; [exact Q|congruence]]]);
         destruct (length (nodup Nat.eq_dec (stopped tr))) as [|k]; (split; [intros (_ & _ & _ & _ & _ & Q); exact Q|intros ->; split; [exact V|split; [exact P|split; [apply Fs; discriminate|repeat split]]]]).
    all: destruct (ends tr) as [|[|k]]; destruct E as [E1 E2]; try (let x := type of E2 in match x with _ /\ _ => destruct E2 as [E2 E3] end); try rewrite E1; try rewrite E2; apply G; reflexivity.
Qed.

(** C74.  A generator that returns [v], used through any number of iterators in
    any order: the values are handed out in order, each once; no exception; the
    result is "still running" until the first iterator comes to its end, which
    it does when all values have been handed out; it is then [v]; and None as
    soon as a second iterator comes to its end (refuted: it stays [v]). *)
Theorem C74_result {A B} (l : list A) (v : B) os : Forall (fun o => ~ drops o) os ->
  let (tr, g) := run l (Returns v) os in
  (exists rest, values tr ++ rest = l /\ (ends tr <> 0 -> rest = [])) /\ (forall i e, ~ In (i, Fails e) tr) /\
  g_result g = match ends tr with 0 => Running | 1 => Value v | _ => NoValue end.
Proof.
  intros D. assert (S : sound l v (run l (Returns v) os)).
  { unfold run. assert (I : sound l v ([], rog_new l (Returns v))).
    { split; [reflexivity|]. split; [|split; [intros i e []|split; reflexivity]]. intros i. cbn. destruct i; split; intros H; [discriminate|destruct H|discriminate|destruct H]. }
    revert I. generalize (@nil (nat * answer A), rog_new l (Returns v)) as s. induction D as [|o os Ho D IH]; intros s I; [exact I|]. cbn [fold_left]. apply IH, sound_step; assumption. }
  destruct (run l (Returns v) os) as [tr g]. destruct S as (V & _ & F & E). split; [|split; [exact F|]].
  - exists (g_left g). split; [exact V|]. destruct (ends tr) as [|[|k]]; [congruence| |]; intros _; apply E.
  - destruct (ends tr) as [|[|k]]; apply E.
Qed.
Print Assumptions C74_result.

(** C74.  One iterator, asked until it stops, hands out everything, and leaves
    the result. *)
Theorem C74_whole {A B} (l : list A) (v : B) : let (tr, g) := run l (Returns v) (Iter :: repeat (Next 0) (S (length l))) in
  tr = map (fun a => (0, Yields a)) l ++ [(0, Stops)] /\ g_result g = Value v.
Proof.
  unfold run. cbn [fold_left step]. change (g_iters (rog_new l (Returns v)) ++ [Fresh]) with [Fresh]. cbn [rog_new g_left g_end g_result].
  assert (G : forall (l : list A) (tr : list (nat * answer A)) p, p <> Over -> fold_left step (repeat (Next 0) (S (length l))) (tr, Rog l (Some (Returns v)) Running [p]) =
    (tr ++ map (fun a => (0, Yields a)) l ++ [(0, Stops)], Rog [] None (Value v) [Over])).
  { clear l. induction l as [|a l IH]; intros tr p Hp.
    - destruct p; [reflexivity|reflexivity|congruence].
    - change (repeat (Next 0) (S (length (a :: l)))) with (Next 0 :: repeat (Next 0) (S (length l))). cbn [fold_left map]. assert (E : step (tr, Rog (a :: l) (Some (Returns v)) Running [p]) (Next 0) = (tr ++ [(0, Yields a)], Rog l (Some (Returns v)) Running [Open])).
      { destruct p; [reflexivity|reflexivity|congruence]. }
      rewrite E, (IH _ Open) by discriminate. now rewrite <- app_assoc. }
  rewrite G by discriminate. split; reflexivity.
Qed.
Print Assumptions C74_whole.

(** C74, refuted: iteration can be taken up again.  A loop that is left after a
    value closes the generator: the rest of the values and the result are lost,
    the result stays "still running", and becomes None with the next loop, to
    which nothing is handed out. *)
Theorem C74_break_refuted {A B} (a : A) (l : list A) (e : ending B) :
  let s1 := run (a :: l) e [Iter; Next 0; Drop 0] in let s2 := run (a :: l) e [Iter; Next 0; Drop 0; Iter; Next 1] in
  fst s1 = [(0, Yields a)] /\ g_result (snd s1) = Running /\ fst s2 = [(0, Yields a); (1, Stops)] /\ g_result (snd s2) = NoValue.
Proof. repeat split. Qed.
Print Assumptions C74_break_refuted.
(** C74, refuted: a result that is "still running" means that the generator is.
    After an exception it has ended, and the result says the same as before. *)
Theorem C74_raise_refuted {A B} (e : exn) : let s := @run A B [] (Raises e) [Iter; Next 0] in fst s = [(0, Fails e)] /\ g_result (snd s) = Running /\ g_end (snd s) = None.
Proof. repeat split. Qed.
Print Assumptions C74_raise_refuted.

Example C74_ex : run [1; 2; 3] (Returns 9) [Iter; Iter; Next 0; Next 1; Next 0; Next 0] = ([(0, Yields 1); (1, Yields 2); (0, Yields 3); (0, Stops)], Rog [] None (Value 9) [Over; Open]) /\
  g_result (snd (run [1; 2; 3] (Returns 9) [Iter; Iter; Next 0; Next 1; Next 0; Next 0; Next 1])) = NoValue /\
  Forall (fun o => ~ drops o) [Iter; Iter; Next 0; Next 1; Next 0; Next 0].
Proof. split; [reflexivity|split; [reflexivity|]]. repeat constructor; intros []. Qed.
(** C74.  An iterator that was never asked may be closed: nothing is lost. *)
Theorem C74_fresh {A B} (l : list A) (e : ending B) os i tr g : run l e os = (tr, g) -> nth_error (g_iters g) i = Some Fresh ->
  let g' := snd (run l e (os ++ [Drop i])) in g_left g' = g_left g /\ g_end g' = g_end g /\ g_result g' = g_result g /\ fst (run l e (os ++ [Drop i])) = tr.
Proof. intros R N. unfold run in *. rewrite fold_left_app, R. cbn [fold_left step fst snd]. unfold drop. rewrite N. repeat split. Qed.
Print Assumptions C74_fresh.
