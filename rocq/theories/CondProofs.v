From Coq Require Import List Bool Lia Arith Permutation.
From Verif Require Import PyBase PyLemmas CondModel CondSpec.
Import ListNotations.
Open Scope nat_scope.

Section Cond.
  Context {E : Type}.
  Notation cs := (cs E). Notation clog := (clog E).
  Definition pend (q : list (task * bool)) : list task := map fst (filter (fun x => negb (snd x)) q).
  Lemma pend_app a b : pend (a ++ b) = pend a ++ pend b.
  Proof. unfold pend. now rewrite filter_app, map_app. Qed.
  Lemma pend_in t q : In t (pend q) <-> In (t, false) q.
  Proof.
    unfold pend. rewrite in_map_iff. split.
    - intros ([u b] & <- & H). apply filter_In in H as [H N]. destruct b; [discriminate|exact H].
    - intros H. exists (t, false). split; [reflexivity|]. apply filter_In. now split.
  Qed.
  Lemma keys_in (t : task) (b : bool) q : In (t, b) q -> In t (map fst q).
  Proof. intros H. apply in_map_iff. now exists (t, b). Qed.
  Lemma dget_q (q : list (task * bool)) t b : NoDup (map fst q) -> (dget q t = Some b <-> In (t, b) q).
  Proof.
    induction q as [|[u c] q IH]; intros N; [cbn; split; [discriminate|tauto]|].
    cbn [map fst] in N. apply NoDup_cons_iff in N as [N1 N2]. cbn [dget In].
    destruct (eq_dec t u) as [->|D].
    - split.
      + intros X. left. congruence.
      + intros [X|X]; [congruence|]. elim N1. eapply keys_in, X.
    - rewrite (IH N2). split; [tauto|]. intros [X|X]; [congruence|exact X].
  Qed.
  Lemma first_pending_some q u : NoDup (map fst q) -> first_pending q = Some u ->
    pend q = u :: pend (mark u q).
  Proof.
    induction q as [|[v b] q IH]; intros N H; [discriminate|]. cbn [map fst] in N. apply NoDup_cons_iff in N as [N1 N2].
    cbn [first_pending] in H. destruct b.
    - cbn [mark]. destruct (eq_dec u v) as [->|D].
      + elim N1. clear -H. revert H. induction q as [|[w c] q IH]; [discriminate|]. cbn [first_pending map fst In].
        destruct c; [intros H; right; now apply IH|intros H; left; congruence].
      + change (pend ((v, true) :: mark u q)) with (pend (mark u q)). exact (IH N2 H).
    - injection H as ->. cbn [mark]. destruct (eq_dec u u); [reflexivity|congruence].
  Qed.
  Lemma first_pending_none q : first_pending q = None -> pend q = [].
  Proof. induction q as [|[v b] q IH]; intros H; [reflexivity|]. destruct b; [exact (IH H)|discriminate]. Qed.
  Lemma mark_keys t q : map fst (mark t q) = map fst q.
  Proof. induction q as [|[v b] q IH]; [reflexivity|]. cbn [mark]. destruct (eq_dec t v); cbn; [reflexivity|now rewrite IH]. Qed.
  Lemma mark_in t q u b : NoDup (map fst q) -> (In (u, b) (mark t q) <-> (u <> t /\ In (u, b) q) \/ (u = t /\ b = true /\ In u (map fst q))).
  Proof.
    induction q as [|[v c] q IH]; intros N; [cbn; intuition|]. cbn [map fst] in N. apply NoDup_cons_iff in N as [N1 N2].
    cbn [mark]. destruct (eq_dec t v) as [->|D]; cbn [In map fst].
    - split.
      + intros [X|X]; [right; split; [congruence|]; split; [congruence|left; congruence]|].
        left. split; [|now right]. intros ->. elim N1. eapply keys_in, X.
      + intros [[X [Y|Y]]|(-> & -> & _)]; [congruence|now right|now left].
    - rewrite (IH N2). split.
      + intros [X|[[X Y]|(X & Y & Z)]]; [left; split; [congruence|now left]|left; tauto|right; tauto].
      + intros [[X [Y|Y]]|(-> & -> & [X|X])]; [left; congruence|right; left; tauto|congruence|right; right; tauto].
  Qed.
  Lemma drop_in t q u b : NoDup (map fst q) -> (In (u, b) (drop t q) <-> u <> t /\ In (u, b) q).
  Proof.
    induction q as [|[v c] q IH]; intros N; [cbn; tauto|]. cbn [map fst] in N. apply NoDup_cons_iff in N as [N1 N2].
    cbn [drop]. destruct (eq_dec t v) as [->|D]; cbn [In].
    - split; [|intros [X [Y|Y]]; [congruence|exact Y]]. intros X. split; [|now right]. intros ->. elim N1. eapply keys_in, X.
    - rewrite (IH N2). split; [intros [X|[X Y]]; [split; [congruence|now left]|tauto]|intros [X [Y|Y]]; tauto].
  Qed.
  Lemma drop_nd t q : NoDup (map fst q) -> NoDup (map fst (drop t q)).
  Proof.
    induction q as [|[v c] q IH]; intros N; [exact N|]. pose proof N as N0. cbn [map fst] in N. apply NoDup_cons_iff in N as [N1 N2].
    cbn [drop]. destruct (eq_dec t v) as [->|D]; [exact N2|]. cbn [map fst]. apply NoDup_cons; [|exact (IH N2)].
    intros X. apply in_map_iff in X as ([w b] & W & X). cbn in W. subst w. apply drop_in in X as [_ X]; [|exact N2]. elim N1. eapply keys_in, X.
  Qed.
  Lemma drop_pend t q : NoDup (map fst q) -> In (t, true) q -> pend (drop t q) = pend q.
  Proof.
    induction q as [|[v c] q IH]; intros N H; [destruct H|]. cbn [map fst] in N. apply NoDup_cons_iff in N as [N1 N2].
    cbn [drop]. destruct (eq_dec t v) as [->|D].
    - destruct H as [H|H]; [injection H as ->; reflexivity|]. elim N1. eapply keys_in, H.
    - destruct H as [H|H]; [congruence|]. change ((v, c) :: drop t q) with ([(v, c)] ++ drop t q). change ((v, c) :: q) with ([(v, c)] ++ q).
      now rewrite !pend_app, (IH N2 H).
  Qed.
  Lemma mark_pend_true t q : NoDup (map fst q) -> In (t, true) q -> mark t q = q.
  Proof.
    induction q as [|[v c] q IH]; intros N H; [reflexivity|]. cbn [map fst] in N. apply NoDup_cons_iff in N as [N1 N2].
    cbn [mark]. destruct (eq_dec t v) as [->|D].
    - destruct H as [H|H]; [congruence|]. elim N1. eapply keys_in, H.
    - destruct H as [H|H]; [congruence|]. now rewrite (IH N2 H).
  Qed.
  Lemma mark_pend_false t q : NoDup (map fst q) -> In (t, false) q -> exists a b, pend q = a ++ t :: b /\ pend (mark t q) = a ++ b.
  Proof.
    induction q as [|[v c] q IH]; intros N H; [destruct H|]. cbn [map fst] in N. apply NoDup_cons_iff in N as [N1 N2].
    cbn [mark]. destruct (eq_dec t v) as [->|D].
    - destruct H as [H|H]; [injection H as ->; exists [], (pend q); split; reflexivity|]. elim N1. eapply keys_in, H.
    - destruct H as [H|H]; [congruence|]. destruct (IH N2 H) as (a & b & A & B).
      exists (pend [(v, c)] ++ a), b. change ((v, c) :: mark t q) with ([(v, c)] ++ mark t q). change ((v, c) :: q) with ([(v, c)] ++ q).
      rewrite !pend_app, A, B, <- !app_assoc. split; reflexivity.
  Qed.
  Lemma pend_nd q : NoDup (map fst q) -> NoDup (pend q).
  Proof.
    induction q as [|[v c] q IH]; intros N; [constructor|]. cbn [map fst] in N. apply NoDup_cons_iff in N as [N1 N2].
    destruct c; [exact (IH N2)|]. change (pend ((v, false) :: q)) with (v :: pend q). apply NoDup_cons; [|exact (IH N2)].
    intros X. apply N1. apply pend_in in X. eapply keys_in, X.
  Qed.

  Lemma nd_snoc (q : list nat) t : ~ In t q -> NoDup q -> NoDup (q ++ [t]).
  Proof. intros A B. apply (Permutation_NoDup (Permutation_cons_append q t)). now constructor. Qed.
  (** ** queue *)
  Lemma queue_app q g q' g2 q'' : queue q g q' -> @queue E q' g2 q'' -> queue q (g ++ g2) q''.
  Proof. induction 1; intros Q; cbn [app]; try exact Q; constructor; auto. Qed.
  Lemma split_eq (a b c d : list nat) t : NoDup (a ++ t :: b) -> a ++ t :: b = c ++ t :: d -> a = c /\ b = d.
  Proof.
    revert c. induction a as [|x a IH]; intros c N H.
    - destruct c as [|y c]; [cbn in H; split; congruence|]. cbn in H, N. injection H as -> H. subst b.
      apply NoDup_cons_iff in N as [N _]. elim N. apply in_or_app. right. now left.
    - destruct c as [|y c].
      + cbn in H, N. injection H as -> H. apply NoDup_cons_iff in N as [N _]. elim N. apply in_or_app. right. now left.
      + cbn in H, N. injection H as -> H. apply NoDup_cons_iff in N as [_ N]. destruct (IH c N H) as [-> ->]. now split.
  Qed.
  Lemma queue_fun q (g : list clog) q1 q2 : NoDup q -> queue q g q1 -> queue q g q2 -> q1 = q2.
  Proof.
    intros N Q. revert q2 N. induction Q; intros q2 N Q2; inversion Q2; subst; try congruence; auto.
    - apply IHQ; auto. apply nd_snoc; auto.
    - apply NoDup_cons_iff in N as [_ N]. auto.
    - match goal with X : _ ++ _ :: _ = _ ++ _ :: _ |- _ => symmetry in X; destruct (split_eq _ _ _ _ _ N X); subst end.
      apply NoDup_remove_1 in N. auto.
    - exfalso. match goal with X : ~ In ?t _ |- _ => apply X end. apply in_or_app. right. now left.
    - exfalso. match goal with X : ~ In ?t _ |- _ => apply X end. apply in_or_app. right. now left.
  Qed.

  (** ** the invariant *)
  Definition is_start (x : @pc E) : bool := match x with PStart => true | _ => false end.
  Definition starts (d : dict task (@pc E)) : nat := length (filter (fun x => is_start (snd x)) d).
  Definition st1 (o : option (@pc E)) : nat := match o with Some x => if is_start x then 1 else 0 | None => 0 end.
  Lemma starts_dset d t x : starts (dset d t x) + st1 (dget d t) = starts d + st1 (Some x).
  Proof.
    unfold starts. induction d as [|[u y] d IH].
    - cbn. destruct (is_start x); reflexivity.
    - cbn [dset dget]. destruct (eq_dec t u) as [->|D].
      + cbn. destruct (is_start x), (is_start y); cbn; lia.
      + cbn [filter snd]. destruct (is_start y); cbn [length]; lia.
  Qed.
  Record inv (s : cs) : Prop := {
    i_lock : c_locked s = false /\ c_lockq s = [];
    i_nd : NoDup (map fst (c_waitq s));
    i_pc : forall t, In t (map fst (c_waitq s)) <-> exists p c, dget (c_pc s) t = Some (PWait p c);
    i_nolock : forall t k, dget (c_pc s) t <> Some (PLock k);
    i_canc : forall t p, dget (c_pc s) t = Some (PWait p true) -> In (t, true) (c_waitq s);
    i_keys : NoDup (map fst (c_pc s))
  }.
  (** the ways a step can go *)
  Inductive stepped : cevent E -> cs -> cs -> list clog -> Prop :=
  | st_await_true s t p : dget (c_pc s) t = None -> p (c_env s) = true ->
      stepped (CAwait t p) s (Cs (c_env s) false [] (c_waitq s) (dset (c_pc s) t PDone)) [LReturn t (c_env s)]
  | st_await_false s t p : dget (c_pc s) t = None -> p (c_env s) = false ->
      stepped (CAwait t p) s (Cs (c_env s) false [] (c_waitq s ++ [(t, false)]) (dset (c_pc s) t (PWait p false))) [LWait t]
  | st_notify s t : dget (c_pc s) t = None ->
      stepped (CNotify t) s (Cs (c_env s) false [] (c_waitq s) (dset (c_pc s) t PStart)) []
  | st_env s e : stepped (CEnv e) s (Cs e false [] (c_waitq s) (c_pc s)) []
  | st_wake s t u : dget (c_pc s) t = Some PStart -> first_pending (c_waitq s) = Some u ->
      stepped (CRun t) s (Cs (c_env s) false [] (mark u (c_waitq s)) (dset (c_pc s) t PDone)) [LWake (Some u)]
  | st_wake_no s t : dget (c_pc s) t = Some PStart -> first_pending (c_waitq s) = None ->
      stepped (CRun t) s (Cs (c_env s) false [] (c_waitq s) (dset (c_pc s) t PDone)) [LWake None]
  | st_run_true s t p : dget (c_pc s) t = Some (PWait p false) -> In (t, true) (c_waitq s) -> p (c_env s) = true ->
      stepped (CRun t) s (Cs (c_env s) false [] (drop t (c_waitq s)) (dset (c_pc s) t PDone)) [LReturn t (c_env s)]
  | st_run_false s t p : dget (c_pc s) t = Some (PWait p false) -> In (t, true) (c_waitq s) -> p (c_env s) = false ->
      stepped (CRun t) s (Cs (c_env s) false [] (drop t (c_waitq s) ++ [(t, false)]) (dset (c_pc s) t (PWait p false))) [LWait t]
  | st_run_raise s t p : dget (c_pc s) t = Some (PWait p true) -> In (t, true) (c_waitq s) ->
      stepped (CRun t) s (Cs (c_env s) false [] (drop t (c_waitq s)) (dset (c_pc s) t PCancelled)) [LRaised t]
  | st_cancel s t p c : dget (c_pc s) t = Some (PWait p c) ->
      stepped (CCancel t) s (Cs (c_env s) false [] (mark t (c_waitq s)) (dset (c_pc s) t (PWait p true))) [LCancel t].
  Lemma step_stepped s ev s' g : inv s -> cond_step ev s = Some (s', g) -> stepped ev s s' g.
  Proof.
    intros [[Hl Hq] Hnd Hpc Hnl Hca Hk] H. destruct ev as [t p|t|e|t|t]; cbn [cond_step] in H.
    - unfold dhas in H. destruct (dget (c_pc s) t) eqn:D; [discriminate|]. unfold acquire in H. rewrite Hl, Hq in H. cbn [negb andb] in H.
      unfold enter, release, set_pc in H. cbn [c_env c_locked c_lockq c_waitq c_pc] in H.
      destruct (p (c_env s)) eqn:P; injection H as <- <-; now constructor.
    - unfold dhas in H. destruct (dget (c_pc s) t) eqn:D; [discriminate|]. unfold set_pc in H. rewrite Hl, Hq in H. injection H as <- <-. now constructor.
    - rewrite Hl, Hq in H. injection H as <- <-. constructor.
    - destruct (dget (c_pc s) t) as [[|k|p c| |]|] eqn:D; try discriminate.
      + unfold acquire in H. rewrite Hl, Hq in H. cbn [negb andb] in H.
        unfold enter, release, set_pc in H. cbn [c_env c_locked c_lockq c_waitq c_pc] in H.
        destruct (first_pending (c_waitq s)) eqn:F; injection H as <- <-; now constructor.
      + elim (Hnl t k D).
      + destruct (dget (c_waitq s) t) as [[|]|] eqn:W; try discriminate. apply dget_q in W; [|exact Hnd].
        unfold acquire in H. cbn [c_env c_locked c_lockq c_waitq c_pc] in H. rewrite Hl, Hq in H. cbn [negb andb] in H.
        destruct c; unfold enter, release, set_pc in H; cbn [c_env c_locked c_lockq c_waitq c_pc] in H.
        * injection H as <- <-. eapply st_run_raise; eassumption.
        * destruct (p (c_env s)) eqn:P; injection H as <- <-; [eapply st_run_true|eapply st_run_false]; eassumption.
    - destruct (dget (c_pc s) t) as [[|k|p c| |]|] eqn:D; try discriminate. rewrite Hl, Hq in H. injection H as <- <-. eapply st_cancel; eassumption.
  Qed.
  Lemma inv_new e : inv (cond_new e).
  Proof.
    split; cbn [cond_new c_locked c_lockq c_waitq c_pc map fst dget].
    - now split.
    - constructor.
    - intros t. split; [intros []|intros (p & c & H); discriminate].
    - intros t k H. discriminate.
    - intros t p H. discriminate.
    - constructor.
  Qed.
  Lemma keys_dset (d : dict task (@pc E)) t x : NoDup (map fst d) -> NoDup (map fst (dset d t x)).
  Proof.
    induction d as [|[u y] d IH]; intros N; [cbn; constructor; [tauto|constructor]|]. pose proof N as N0. cbn [map fst] in N. apply NoDup_cons_iff in N as [N1 N2].
    cbn [dset]. destruct (eq_dec t u) as [->|D]; [exact N0|]. cbn [map fst]. apply NoDup_cons; [|exact (IH N2)].
    clear -D N1. induction d as [|[w z] d IH]; cbn in *; [intros [X|X]; congruence|].
    destruct (eq_dec t w) as [->|]; cbn; tauto.
  Qed.
  Lemma dget_dset (d : dict task (@pc E)) t x u : dget (dset d t x) u = if eq_dec u t then Some x else dget d u.
  Proof. destruct (eq_dec u t) as [->|N]; [apply dget_dset_same|apply dget_dset_other; congruence]. Qed.
  Ltac pcs := repeat (rewrite dget_dset in * || match goal with |- context [eq_dec ?a ?b] => destruct (eq_dec a b); subst
                                  | H : context [eq_dec ?a ?b] |- _ => destruct (eq_dec a b); subst end); try congruence.
  Lemma step_inv ev s s' g : inv s -> stepped ev s s' g -> inv s'.
  Proof.
    intros [_ Hnd Hpc Hnl Hca Hk] H.
    inversion H; subst; (split; cbn [c_locked c_lockq c_waitq c_pc]; [now split| | | | |try (apply keys_dset; exact Hk); try exact Hk]);
      try exact Hnd; try exact Hpc; try exact Hnl; try exact Hca; try (now apply drop_nd);
      try (intros ?u ?k; pcs; apply Hnl); try (rewrite mark_keys; exact Hnd).
    all: try (intros ?u ?q; pcs; apply Hca; fail).
    - intros u. rewrite Hpc. pcs; [|tauto]. split; intros (q & c & X); congruence.
    - rewrite map_app. apply nd_snoc; [|exact Hnd]. cbn. intros X. apply Hpc in X as (q & c & X). congruence.
    - intros u. rewrite map_app, in_app_iff, Hpc. cbn. pcs.
      + split; [intros _; eauto|intros _; tauto].
      + split; [intros [X|[X|[]]]; [exact X|congruence]|tauto].
    - intros u q. pcs. intros X. apply in_or_app. left. eapply Hca, X.
    - intros u. rewrite Hpc. pcs; [|tauto]. split; intros (q & c & X); congruence.
    - intros w. rewrite mark_keys, Hpc. pcs; [|tauto]. split; intros (q & c & X); congruence.
    - intros w q. pcs. intros X. apply mark_in; [exact Hnd|]. specialize (Hca w q X).
      destruct (eq_dec w u) as [->|N]; [right; repeat split; eapply keys_in, Hca|left; now split].
    - intros u. rewrite Hpc. pcs; [|tauto]. split; intros (q & c & X); congruence.
    - intros u. pcs.
      + split; [intros X; exfalso|intros (q & c & X); congruence]. apply in_map_iff in X as ([w b] & W & X). cbn in W. subst w. apply drop_in in X as [X _]; [congruence|exact Hnd].
      + rewrite <- Hpc. split; intros X; apply in_map_iff in X as ([w b] & W & X); cbn in W; subst w.
        * apply drop_in in X as [_ X]; [|exact Hnd]. eapply keys_in, X.
        * eapply keys_in, drop_in; [exact Hnd|split; [congruence|exact X]].
    - intros u q. pcs. intros X. apply drop_in; [exact Hnd|]. split; [congruence|]. eapply Hca, X.
    - rewrite map_app. apply nd_snoc; [|now apply drop_nd]. intros X. apply in_map_iff in X as ([w b] & W & X). cbn in W. subst w. apply drop_in in X as [X _]; [congruence|exact Hnd].
    - intros u. rewrite map_app, in_app_iff. cbn. pcs.
      + split; [intros _; eauto|tauto].
      + rewrite <- Hpc. split.
        * intros [X|[X|[]]]; [|congruence]. apply in_map_iff in X as ([w b] & W & X); cbn in W; subst w. apply drop_in in X as [_ X]; [|exact Hnd]. eapply keys_in, X.
        * intros X. left. apply in_map_iff in X as ([w b] & W & X); cbn in W; subst w. eapply keys_in, drop_in; [exact Hnd|split; [congruence|exact X]].
    - intros u q. pcs. intros X. apply in_or_app. left. apply drop_in; [exact Hnd|]. split; [congruence|]. eapply Hca, X.
    - intros u. pcs.
      + split; [intros X; exfalso|intros (q & c & X); congruence]. apply in_map_iff in X as ([w b] & W & X). cbn in W. subst w. apply drop_in in X as [X _]; [congruence|exact Hnd].
      + rewrite <- Hpc. split; intros X; apply in_map_iff in X as ([w b] & W & X); cbn in W; subst w.
        * apply drop_in in X as [_ X]; [|exact Hnd]. eapply keys_in, X.
        * eapply keys_in, drop_in; [exact Hnd|split; [congruence|exact X]].
    - intros u q. pcs. intros X. apply drop_in; [exact Hnd|]. split; [congruence|]. eapply Hca, X.
    - intros u. rewrite mark_keys. rewrite Hpc. pcs; [split; [intros _; eauto|intros _; eauto]|tauto].
    - intros u q X. apply mark_in; [exact Hnd|]. destruct (eq_dec u t) as [->|N].
      + right. repeat split. apply Hpc. eauto.
      + left. split; [exact N|]. pcs. eapply Hca, X.
  Qed.

  Lemma step_queue ev s s' g : inv s -> stepped ev s s' g -> queue (pend (c_waitq s)) g (pend (c_waitq s')).
  Proof.
    intros I H. pose proof (i_nd _ I) as Hnd. pose proof (i_pc _ I) as Hpc.
    assert (NW : forall t x, dget (c_pc s) t = x -> (forall p c, x <> Some (PWait p c)) -> ~ In t (pend (c_waitq s))).
    { intros t x D N X. apply pend_in in X. apply keys_in in X. apply Hpc in X as (p & c & X). rewrite D in X. exact (N p c X). }
    assert (TR : forall t, In (t, true) (c_waitq s) -> ~ In t (pend (c_waitq s))).
    { intros t X Y. apply pend_in in Y. apply dget_q in X; [|exact Hnd]. apply dget_q in Y; [|exact Hnd]. congruence. }
    inversion H; subst; cbn [c_waitq].
    - constructor; [|constructor]. eapply NW; [eassumption|discriminate].
    - constructor; [eapply NW; [eassumption|discriminate]|]. rewrite pend_app. constructor.
    - constructor.
    - constructor.
    - rewrite (first_pending_some _ _ Hnd ltac:(eassumption)). constructor. constructor.
    - match goal with X : first_pending _ = None |- _ => rewrite (first_pending_none _ X) end. constructor. constructor.
    - rewrite drop_pend by assumption. constructor; [auto|constructor].
    - rewrite pend_app, drop_pend by assumption. constructor; [auto|constructor].
    - rewrite drop_pend by assumption. constructor; [auto|constructor].
    - assert (K : In t (map fst (c_waitq s))) by (apply Hpc; eauto). apply in_map_iff in K as ([w b] & W & K). cbn in W. subst w. destruct b.
      + rewrite (mark_pend_true t _ Hnd K). apply qu_cancel_woken; [auto|constructor].
      + destruct (mark_pend_false t _ Hnd K) as (a & b & A & B). rewrite A, B. apply qu_cancel. constructor.
  Qed.
  Lemma step_env ev s s' g : stepped ev s s' g -> c_env s' = env_after (c_env s) [ev].
  Proof. intros H. inversion H; reflexivity. Qed.
  Definition w1 (g : list clog) : nat := wakes g.
  Lemma step_count ev s s' g : stepped ev s s' g -> notifies [ev] + starts (c_pc s) = wakes g + starts (c_pc s').
  Proof.
    intros H. inversion H; subst; cbn [c_pc]; unfold notifies, wakes; cbn [filter length];
      try (match goal with |- context [dset ?d ?t ?x] => pose proof (starts_dset d t x) as X;
             match goal with D : dget d t = _ |- _ => rewrite D in X; cbn in X end end); lia.
  Qed.
  Lemma notifies_app a b : @notifies E (a ++ b) = notifies a + notifies b.
  Proof. unfold notifies. now rewrite filter_app, app_length. Qed.
  Lemma wakes_app a b : @wakes E (a ++ b) = wakes a + wakes b.
  Proof. unfold wakes. now rewrite filter_app, app_length. Qed.
  Lemma env_after_app e a b : @env_after E e (a ++ b) = env_after (env_after e a) b.
  Proof. unfold env_after. now rewrite fold_left_app. Qed.

  Lemma run_all es s s' g : inv s -> cond_run es s = Some (s', g) ->
    inv s' /\ queue (pend (c_waitq s)) g (pend (c_waitq s')) /\ c_env s' = env_after (c_env s) es /\
    notifies es + starts (c_pc s) = wakes g + starts (c_pc s').
  Proof.
    revert s g. induction es as [|ev es IH]; intros s g I H; cbn [cond_run] in H.
    - injection H as <- <-. repeat split; try apply I; try constructor; reflexivity.
    - destruct (cond_step ev s) as [[s1 g1]|] eqn:St; [|discriminate]. apply step_stepped in St; [|exact I].
      destruct (cond_run es s1) as [[s2 g2]|] eqn:R; [|discriminate]. injection H as <- <-.
      destruct (IH s1 g2 (step_inv _ _ _ _ I St) R) as (I' & Q & En & N).
      split; [exact I'|]. split; [eapply queue_app; [exact (step_queue _ _ _ _ I St)|exact Q]|]. split.
      + rewrite En, (step_env _ _ _ _ St). change (ev :: es) with ([ev] ++ es). now rewrite env_after_app.
      + change (ev :: es) with ([ev] ++ es). rewrite notifies_app, wakes_app. pose proof (step_count _ _ _ _ St). lia.
  Qed.
  Lemma run_app (a b : list (cevent E)) (s : cs) : cond_run (a ++ b) s =
    match cond_run a s with Some (s1, g1) => match cond_run b s1 with Some (s2, g2) => Some (s2, g1 ++ g2) | None => None end | None => None end.
  Proof.
    revert s. induction a as [|e a IH]; intros s; cbn [app cond_run]; [destruct (cond_run b s) as [[? ?]|]; reflexivity|].
    destruct (cond_step e s) as [[s1 g1]|]; [|reflexivity]. rewrite IH. destruct (cond_run a s1) as [[s2 g2]|]; [|reflexivity].
    destruct (cond_run b s2) as [[s3 g3]|]; [|reflexivity]. now rewrite app_assoc.
  Qed.

  (** every return saw its predicate true *)
  Definition calls_ok (h : list (cevent E)) (s : cs) : Prop :=
    forall t p c, dget (c_pc s) t = Some (PWait p c) -> In (CAwait t p) h.
  Lemma run_returns es h s s' g : inv s -> calls_ok h s -> cond_run es s = Some (s', g) ->
    calls_ok (h ++ es) s' /\ (forall t e, In (LReturn t e) g -> exists p, In (CAwait t p) (h ++ es) /\ p e = true /\ exists a b, es = a ++ b /\ e = env_after (c_env s) a).
  Proof.
    revert h s g. induction es as [|ev es IH]; intros h s g I C H; cbn [cond_run] in H.
    - injection H as <- <-. rewrite app_nil_r. split; [exact C|intros t e []].
    - destruct (cond_step ev s) as [[s1 g1]|] eqn:St; [|discriminate]. apply step_stepped in St; [|exact I].
      destruct (cond_run es s1) as [[s2 g2]|] eqn:R; [|discriminate]. injection H as <- <-.
      assert (C1 : calls_ok (h ++ [ev]) s1).
      { intros t p c D. apply in_or_app. inversion St; subst; cbn [c_pc] in D; pcs; try (left; eapply C; eassumption).
        all: try (injection D as <- <-; first [now right; left|left; eapply C; eassumption]). }
      destruct (IH (h ++ [ev]) s1 g2 (step_inv _ _ _ _ I St) C1 R) as [C2 G]. rewrite <- app_assoc in C2, G. cbn [app] in C2, G.
      split; [exact C2|]. intros t e X. apply in_app_or in X as [X|X].
      + exists (match St with _ => match dget (c_pc s) t with Some (PWait p _) => p | _ => match ev with CAwait _ p => p | _ => fun _ => true end end end).
        inversion St; subst; cbn [In] in X; try contradiction; try (destruct X as [X|[]]; try discriminate X).
        * injection X as -> <-. match goal with D : dget _ _ = None |- _ => rewrite D end.
          split; [apply in_or_app; right; now left|]. split; [assumption|]. exists [], (CAwait t p :: es). now split.
        * injection X as -> <-. match goal with D : dget _ _ = Some (PWait _ _) |- _ => rewrite D; pose proof D as D' end.
          split; [apply in_or_app; left; eapply C; eassumption|]. split; [assumption|]. eexists [], _. now split.
      + destruct (G t e X) as (p & A & B & a & b & -> & Ea). exists p. split; [exact A|]. split; [exact B|].
        exists (ev :: a), b. split; [reflexivity|]. rewrite Ea, (step_env _ _ _ _ St). reflexivity.
  Qed.

  (** a task that is not cancelled waits or has returned *)
  Lemma run_called es s s' g t p : inv s -> ~ In (CCancel t) es ->
    (In (CAwait t p) es \/ dget (c_pc s) t = Some (PWait p false)) -> cond_run es s = Some (s', g) ->
    dget (c_pc s') t = Some (PWait p false) \/ returned t g.
  Proof.
    revert s g. induction es as [|ev es IH]; intros s g I N C H; cbn [cond_run] in H.
    - injection H as <- <-. destruct C as [[]|C]. now left.
    - destruct (cond_step ev s) as [[s1 g1]|] eqn:St; [|discriminate]. apply step_stepped in St; [|exact I].
      destruct (cond_run es s1) as [[s2 g2]|] eqn:R; [|discriminate]. injection H as <- <-.
      assert (N2 : ~ In (CCancel t) es) by (intros X; apply N; now right).
      assert (A : (In (CAwait t p) es \/ dget (c_pc s1) t = Some (PWait p false)) \/ returned t g1).
      { destruct C as [[->|C]|C].
        - inversion St; subst; cbn [c_pc].
          + right. eexists. now left.
          + left. right. apply dget_dset_same.
        - left. now left.
        - inversion St; subst; cbn [c_pc] in *; pcs; try (left; right; assumption).
          all: try (left; right; rewrite dget_dset; destruct (eq_dec t t0); congruence).
          all: try (right; eexists; left; reflexivity).
          { left. right. congruence. } elim N. now left. }
      destruct A as [A|[e A]].
      + destruct (IH s1 g2 (step_inv _ _ _ _ I St) N2 A R) as [X|[e X]]; [now left|right; exists e; apply in_or_app; now right].
      + right. exists e. apply in_or_app. now left.
  Qed.
  Lemma idle_starts s : inv s -> idle s -> starts (c_pc s) = 0.
  Proof.
    intros I Id. destruct (starts (c_pc s)) as [|n] eqn:Es; [reflexivity|]. exfalso. unfold starts in Es.
    destruct (filter (fun x => is_start (snd x)) (c_pc s)) as [|[t x] l] eqn:F; [discriminate|].
    assert (X : In (t, x) (filter (fun x => is_start (snd x)) (c_pc s))) by (rewrite F; now left).
    apply filter_In in X as [X S]. destruct x; try discriminate S.
    assert (D : dget (c_pc s) t = Some PStart).
    { pose proof (i_keys _ I) as K. clear -X K. induction (c_pc s) as [|[u y] d IH]; [destruct X|]. cbn [dget]. cbn [map fst] in K. apply NoDup_cons_iff in K as [K1 K2].
      destruct (eq_dec t u) as [->|Nq].
      - destruct X as [X|X]; [congruence|]. elim K1. apply in_map_iff. exists (u, PStart). now split.
      - destruct X as [X|X]; [congruence|]. auto. }
    specialize (Id t). cbn [cond_step] in Id. rewrite D in Id. discriminate.
  Qed.
  Lemma idle_woken s t p c : inv s -> idle s -> dget (c_pc s) t = Some (PWait p c) -> In t (pend (c_waitq s)).
  Proof.
    intros I Id D. specialize (Id t). cbn [cond_step] in Id. rewrite D in Id.
    assert (K : In t (map fst (c_waitq s))) by (apply (i_pc _ I); eauto).
    apply in_map_iff in K as ([w b] & W & K). cbn in W. subst w. apply pend_in. destruct b; [|exact K].
    apply dget_q in K; [|exact (i_nd _ I)]. rewrite K in Id. discriminate.
  Qed.

  (** positions *)
  Lemma queue_pos q g q' b t a : @queue E q g q' -> q = b ++ t :: a -> ~ In (LCancel t) g ->
    In (LWake (Some t)) g \/ exists b' a', q' = b' ++ t :: a' /\ length b' + wakes g <= length b.
  Proof.
    intros Q. revert b a. induction Q as [q|q u g q' N Q IH|u q g q' Q IH|g q' Q IH|x u y g q' Q IH|q u g q' N Q IH|q u e g q' N Q IH|q u g q' N Q IH]; intros b a Eq NC.
    - right. exists b, a. split; [exact Eq|]. cbn. lia.
    - subst q. destruct (IH b (a ++ [u]) ltac:(now rewrite <- app_assoc) ltac:(intros X; apply NC; now right)) as [X|X]; [left; now right|right; exact X].
    - destruct b as [|v b]; cbn in Eq; injection Eq as -> ->; [left; now left|].
      destruct (IH b a eq_refl ltac:(intros X; apply NC; now right)) as [X|(b' & a' & X & L)]; [left; now right|].
      right. exists b', a'. split; [exact X|]. cbn. unfold wakes in L. lia.
    - destruct b; discriminate.
    - assert (D : u <> t) by (intros ->; apply NC; now left).
      assert (NC' : ~ In (LCancel t) g) by (intros X; apply NC; now right).
      assert (S : exists b1 a1, x ++ y = b1 ++ t :: a1 /\ length b1 <= length b).
      { clear -Eq D. revert b Eq. induction x as [|z x IHx]; intros b Eq.
        - destruct b as [|v b]; cbn in Eq; injection Eq as -> E2; [congruence|]. subst y. exists b, a. cbn. split; [reflexivity|lia].
        - destruct b as [|v b]; cbn in Eq; injection Eq as -> E2.
          + exists [], (x ++ y). split; [reflexivity|cbn; lia].
          + destruct (IHx b E2) as (b1 & a1 & E3 & L). exists (v :: b1), a1. cbn. rewrite E3. split; [reflexivity|lia]. }
      destruct S as (b1 & a1 & E1 & L1). destruct (IH b1 a1 E1 NC') as [X|(b' & a' & X & L)]; [left; now right|].
      right. exists b', a'. split; [exact X|]. change (wakes (LCancel u :: g)) with (wakes g). lia.
    - destruct (IH b a Eq ltac:(intros X; apply NC; now right)) as [X|X]; [left; now right|right; exact X].
    - destruct (IH b a Eq ltac:(intros X; apply NC; now right)) as [X|X]; [left; now right|right; exact X].
    - destruct (IH b a Eq ltac:(intros X; apply NC; now right)) as [X|X]; [left; now right|right; exact X].
  Qed.
  (** without enough notifications nothing happens to a waiter *)
  Lemma queue_stuck q g q' b t a : @queue E q g q' -> q = b ++ t :: a -> (forall u, ~ In (LCancel u) g) -> wakes g <= length b ->
    (forall e, ~ In (LReturn t e) g) /\ In t q'.
  Proof.
    intros Q. revert b a. induction Q as [q|q u g q' N Q IH|u q g q' Q IH|g q' Q IH|x u y g q' Q IH|q u g q' N Q IH|q u e0 g q' N Q IH|q u g q' N Q IH]; intros b a Eq NC W.
    all: try (assert (NC' : forall v, ~ In (LCancel v) g) by (intros v X; apply (NC v); now right)).
    - split; [intros e []|]. subst q. apply in_or_app. right. now left.
    - subst q. destruct (IH b (a ++ [u]) ltac:(now rewrite <- app_assoc) NC' W) as [X Y]. split; [|exact Y]. intros e [Z|Z]; [discriminate|exact (X e Z)].
    - cbn in W. destruct b as [|v b]; [cbn in W; lia|]. cbn in Eq. injection Eq as -> ->.
      destruct (IH b a eq_refl NC' ltac:(cbn in W; unfold wakes; lia)) as [X Y]. split; [|exact Y]. intros e [Z|Z]; [discriminate|exact (X e Z)].
    - destruct b; discriminate.
    - elim (NC u). now left.
    - elim (NC u). now left.
    - destruct (IH b a Eq NC' W) as [X Y]. split; [|exact Y]. intros e [Z|Z]; [|exact (X e Z)]. injection Z as -> _. apply N. subst q. apply in_or_app. right. now left.
    - destruct (IH b a Eq NC' W) as [X Y]. split; [|exact Y]. intros e [Z|Z]; [discriminate|exact (X e Z)].
  Qed.
  Lemma run_live es s s' g t p : inv s -> ~ In (CCancel t) es ->
    dget (c_pc s) t = Some (PWait p false) ->
    (In (t, true) (c_waitq s) \/ exists b a, pend (c_waitq s) = b ++ t :: a /\ length b < starts (c_pc s) + notifies es) ->
    (forall x y, es = x ++ y -> p (env_after (c_env s) x) = true) ->
    cond_run es s = Some (s', g) -> idle s' -> returned t g.
  Proof.
    revert s g. induction es as [|ev es IH]; intros s g I NC D P T H Id; cbn [cond_run] in H.
    - injection H as <- <-. exfalso. pose proof (idle_woken _ _ _ _ I Id D) as W. pose proof (idle_starts _ I Id) as S0.
      destruct P as [P|(b & a & _ & L)]; [|cbn in L; lia].
      apply pend_in in W. apply dget_q in W; [|exact (i_nd _ I)]. apply dget_q in P; [|exact (i_nd _ I)]. congruence.
    - destruct (cond_step ev s) as [[s1 g1]|] eqn:St; [|discriminate]. apply step_stepped in St; [|exact I].
      destruct (cond_run es s1) as [[s2 g2]|] eqn:R; [|discriminate]. injection H as <- <-.
      pose proof (step_inv _ _ _ _ I St) as I1.
      assert (NC2 : ~ In (CCancel t) es) by (intros X; apply NC; now right).
      assert (T0 : p (c_env s) = true) by (apply (T [] (ev :: es) eq_refl)).
      assert (T1 : forall x y, es = x ++ y -> p (env_after (c_env s1) x) = true).
      { intros x y ->. rewrite (step_env _ _ _ _ St), <- env_after_app. apply (T (ev :: x) y). reflexivity. }
      assert (A : returned t g1 \/ (dget (c_pc s1) t = Some (PWait p false) /\ (In (t, true) (c_waitq s) -> In (t, true) (c_waitq s1)))).
      { inversion St; subst; cbn [c_pc c_waitq]; rewrite ?dget_dset; repeat (match goal with |- context [eq_dec ?x ?y] => destruct (eq_dec x y) as [Q|Q]; [try subst x; try subst y|] end); try congruence;
          try (right; split; [assumption|]; try tauto; try (intros X; apply in_or_app; now left)).
        - intros X. apply mark_in; [exact (i_nd _ I)|]. destruct (eq_dec t u) as [->|Nu]; [right; repeat split; eapply keys_in, X|left; now split].
        - left. eexists. now left.
        - intros X. apply drop_in; [exact (i_nd _ I)|]. split; congruence.
        - intros X. apply in_or_app. left. apply drop_in; [exact (i_nd _ I)|]. split; congruence.
        - intros X. apply drop_in; [exact (i_nd _ I)|]. split; congruence.
        - elim NC. now left.
        - intros X. apply mark_in; [exact (i_nd _ I)|]. left. split; congruence. }
      destruct A as [[e A]|[D1 W1]]; [exists e; apply in_or_app; now left|].
      assert (P1 : In (t, true) (c_waitq s1) \/ exists b a, pend (c_waitq s1) = b ++ t :: a /\ length b < starts (c_pc s1) + notifies es).
      { destruct P as [P|(b & a & P & L)]; [left; auto|].
        pose proof (step_queue _ _ _ _ I St) as Q. pose proof (step_count _ _ _ _ St) as Cn.
        change (ev :: es) with ([ev] ++ es) in L. rewrite notifies_app in L.
        destruct (queue_pos _ _ _ b t a Q P) as [X|(b' & a' & X & Lb)].
        - intros X. inversion St; subst; cbn in X; try contradiction; try (destruct X as [X|[]]; discriminate X).
          destruct X as [X|[]]. injection X as ->. apply NC. now left.
        - left. inversion St; subst; cbn in X; try contradiction; try (destruct X as [X|[]]; discriminate X); try destruct X as [X|[]].
          injection X as ->. cbn [c_waitq]. apply mark_in; [exact (i_nd _ I)|]. right. repeat split.
          assert (X : In t (pend (c_waitq s))) by (rewrite P; apply in_or_app; right; now left). apply pend_in in X. eapply keys_in, X.
        - right. exists b', a'. split; [exact X|]. unfold task in *; lia. }
      destruct (IH s1 g2 I1 NC2 D1 P1 T1 R Id) as [e X]. exists e. apply in_or_app. now right.
  Qed.
  Lemma run_cancels es s s' g t : inv s -> cond_run es s = Some (s', g) -> In (LCancel t) g -> In (CCancel t) es.
  Proof.
    revert s g. induction es as [|ev es IH]; intros s g I H X; cbn [cond_run] in H.
    - injection H as <- <-. destruct X.
    - destruct (cond_step ev s) as [[s1 g1]|] eqn:St; [|discriminate]. apply step_stepped in St; [|exact I].
      destruct (cond_run es s1) as [[s2 g2]|] eqn:R; [|discriminate]. injection H as <- <-.
      apply in_app_or in X as [X|X]; [|right; exact (IH s1 g2 (step_inv _ _ _ _ I St) R X)].
      left. inversion St; subst; cbn in X; try contradiction; try (destruct X as [X|[]]; try discriminate X). congruence.
  Qed.

  (** at most one return *)
  Definition rets (t : nat) (g : list clog) : nat := length (filter (fun x => match x with LReturn u _ => Nat.eqb u t | _ => false end) g).
  Lemma rets_app t a b : rets t (a ++ b) = rets t a + rets t b.
  Proof. unfold rets. now rewrite filter_app, app_length. Qed.
  Lemma rets_in t g : returned t g <-> 0 < rets t g.
  Proof.
    unfold rets. split.
    - intros [e H]. destruct (filter _ g) eqn:F; [|cbn; lia]. exfalso.
      assert (X : In (LReturn t e) (filter (fun x => match x with LReturn u _ => Nat.eqb u t | _ => false end) g)) by (apply filter_In; split; [exact H|apply Nat.eqb_refl]).
      rewrite F in X. destruct X.
    - intros H. destruct (filter _ g) as [|x l] eqn:F; [cbn in H; lia|].
      assert (X : In x (filter (fun x => match x with LReturn u _ => Nat.eqb u t | _ => false end) g)) by (rewrite F; now left).
      apply filter_In in X as [X Y]. destruct x; try discriminate. apply Nat.eqb_eq in Y. subst. eexists. exact X.
  Qed.
  Lemma run_once es s s' g t : inv s -> cond_run es s = Some (s', g) ->
    (dget (c_pc s) t = Some PDone -> dget (c_pc s') t = Some PDone /\ rets t g = 0) /\ rets t g <= 1.
  Proof.
    revert s g. induction es as [|ev es IH]; intros s g I H; cbn [cond_run] in H.
    - injection H as <- <-. cbn. auto.
    - destruct (cond_step ev s) as [[s1 g1]|] eqn:St; [|discriminate]. apply step_stepped in St; [|exact I].
      destruct (cond_run es s1) as [[s2 g2]|] eqn:R; [|discriminate]. injection H as <- <-.
      destruct (IH s1 g2 (step_inv _ _ _ _ I St) R) as [A B].
      assert (X : (dget (c_pc s) t = Some PDone -> dget (c_pc s1) t = Some PDone /\ rets t g1 = 0) /\ (rets t g1 = 0 \/ (rets t g1 = 1 /\ dget (c_pc s1) t = Some PDone))).
      { inversion St; subst; cbn [c_pc]; unfold rets; cbn [filter length];
          try (destruct (Nat.eqb_spec t0 t); [subst t0; cbn [length]|cbn [length]]);
          rewrite ?dget_dset_same, ?dget_dset_other by congruence;
          (split; [intros D; try congruence; (split; [rewrite ?dget_dset|reflexivity]);
                   try (match goal with |- context [eq_dec ?x ?y] => destruct (eq_dec x y); subst end); congruence|auto]). }
      destruct X as [X1 X2]. rewrite rets_app. split.
      + intros D. destruct (X1 D) as [D1 Z]. destruct (A D1) as [D2 Z2]. split; [exact D2|lia].
      + destruct X2 as [X2|[X2 D]]; [lia|]. destruct (A D) as [_ Z]. lia.
  Qed.
End Cond.
