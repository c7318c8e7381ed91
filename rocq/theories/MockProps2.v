(** * C63, continued: no write is dropped without an exception *)
From Coq Require Import List ZArith Bool Lia.
From Verif Require Import PyBase MockModel MockSpec MockProofs.
Import ListNotations.
Open Scope Z_scope.

Definition grows (w w' : world) : Prop := exists l, w_log w' = w_log w ++ l.
Lemma grows_refl w : grows w w. Proof. exists []. now rewrite app_nil_r. Qed.
Lemma grows_trans a b c : grows a b -> grows b c -> grows a c.
Proof. intros [l A] [m C]. exists (l ++ m). now rewrite C, A, app_assoc. Qed.
Lemma grows_set w i t : grows w (set_tr w i t). Proof. exists []. now rewrite log_set, app_nil_r. Qed.
Lemma grows_log w e : grows w (log w e). Proof. exists [e]. reflexivity. Qed.
Lemma grows_later w i s j : grows w (fst (later w i s j)).
Proof. unfold later. destruct (t_loop (tr w i)); exists []; now rewrite app_nil_r. Qed.
Lemma run_grows B n : forall t w w' r, run B n t w = Some (w', r) -> grows w w'.
Proof.
  induction n as [|n IH]; intros t w w' r E; [discriminate|]. cbn [run] in E. destruct t as [[| |a k]|[i d|i|i l d|i p]|i x|i].
  - injection E as <- _. apply grows_refl.
  - injection E as <- _. apply grows_refl.
  - destruct (run B n (TApi a) w) as [[w1 r1]|] eqn:E1; [|discriminate]. eapply grows_trans; [eapply IH; exact E1|eapply IH; exact E].
  - destruct (t_closed (tr w i)); [injection E as <- _; apply grows_refl|]. eapply grows_trans; [eapply grows_trans; [apply grows_set|apply grows_log]|]. destruct (delayed (tr w i)) as [s|]; [|exact (IH _ _ _ _ E)]. injection E as E. pose proof (grows_later (log (set_tr w i (count_write (tr w i))) (EvWrite i d)) i s (JWrite d)) as G. now rewrite E in G.
  - destruct (t_closed (tr w i)); [injection E as <- _; apply grows_refl|]. eapply grows_trans; [eapply grows_trans; [apply grows_set|apply grows_log]|]. destruct (delayed (tr w i)) as [s|]; [|exact (IH _ _ _ _ E)]. injection E as E. pose proof (grows_later (log (set_tr w i (set_closed (tr w i))) (EvClose i)) i s JClose) as G. now rewrite E in G.
  - injection E as <- _. apply grows_set.
  - injection E as <- _. apply grows_set.
  - destruct (w_kind w).
    + destruct (t_protocol (tr w (negb i))); [|injection E as <- _; apply grows_refl]. eapply grows_trans; [apply grows_log|exact (IH _ _ _ _ E)].
    + destruct x; injection E as <- _; [apply grows_log|apply grows_refl].
  - destruct (match w_kind w with ToProtocol => run B n (TApi (AClose (negb i))) w | ToStream => Some (w, None) end) as [[w1 r1]|] eqn:E1; [|discriminate].
    assert (G : grows w w1) by (destruct (w_kind w); [exact (IH _ _ _ _ E1)|injection E1 as <- _; apply grows_refl]).
    destruct r1; [injection E as <- _; exact G|]. destruct (t_protocol (tr w1 i)) as [p|]; [|injection E as <- _; exact G].
    destruct (run B n (TCode (B p i ConnectionLost (w_log (log w1 (EvLost i p))))) (log w1 (EvLost i p))) as [[w3 r3]|] eqn:E3; [|discriminate]. apply IH in E3.
    assert (G3 : grows w w3) by (eapply grows_trans; [exact G|eapply grows_trans; [apply grows_log|exact E3]]).
    destruct r3; injection E as <- _; [exact G3|]. eapply grows_trans; [exact G3|apply grows_set].
Qed.

(** A write on a transport that is not closed and has no delay: if it returns, the other
    side's protocol was given the data before anything else happened; without a protocol
    there (never set, or told that the connection is lost) the write raises. *)
Theorem C63_write_result B n w w' r i d :
  w_kind w = ToProtocol -> t_closed (tr w i) = false -> delayed (tr w i) = None -> run B n (TApi (AWrite i d)) w = Some (w', r) ->
  match t_protocol (tr w (negb i)) with
  | Some p => exists rest, w_log w' = w_log w ++ EvWrite i d :: EvData (negb i) p (Bytes d) :: rest
  | None => r = Some EClosed /\ w_log w' = w_log w ++ [EvWrite i d]
  end.
Proof.
  intros K C D E. destruct n as [|n]; [discriminate|]. cbn [run] in E. rewrite C, D in E. destruct n as [|n]; [discriminate|]. cbn [run] in E.
  set (w1 := log (set_tr w i (count_write (tr w i))) (EvWrite i d)) in *.
  assert (K1 : w_kind w1 = ToProtocol) by (unfold w1; rewrite <- K; now destruct i). rewrite K1 in E.
  assert (P1 : t_protocol (tr w1 (negb i)) = t_protocol (tr w (negb i))) by (unfold w1; now destruct i). rewrite P1 in E.
  assert (L1 : w_log w1 = w_log w ++ [EvWrite i d]) by (unfold w1; cbn; now rewrite log_set).
  destruct (t_protocol (tr w (negb i))) as [p|].
  - apply run_grows in E as [l E]. exists l. rewrite E. cbn [log w_log]. rewrite L1, <- !app_assoc. reflexivity.
  - injection E as <- <-. now split.
Qed.
(** ... into a storage stream a write never raises *)
Theorem C63_store_result B n w w' r i d :
  w_kind w = ToStream -> t_closed (tr w i) = false -> delayed (tr w i) = None -> run B n (TApi (AWrite i d)) w = Some (w', r) ->
  r = None /\ w_log w' = w_log w ++ [EvWrite i d; EvStore i d].
Proof.
  intros K C D E. destruct n as [|n]; [discriminate|]. cbn [run] in E. rewrite C, D in E. destruct n as [|n]; [discriminate|]. cbn [run] in E.
  set (w1 := log (set_tr w i (count_write (tr w i))) (EvWrite i d)) in *.
  assert (K1 : w_kind w1 = ToStream) by (unfold w1; rewrite <- K; now destruct i). rewrite K1 in E.
  assert (L1 : w_log w1 = w_log w ++ [EvWrite i d]) by (unfold w1; cbn; now rewrite log_set).
  injection E as <- <-. split; [reflexivity|]. cbn [log w_log]. now rewrite L1, <- app_assoc.
Qed.
Example write_result_example B : exists w', run B 4 (TApi (AWrite false [1])) (world0 ToProtocol AsyncLoop (Some 0%nat) None None None) = Some (w', Some EClosed). Proof. eexists. reflexivity. Qed.
Print Assumptions C63_write_result. Print Assumptions C63_store_result.
