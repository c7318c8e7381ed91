From Coq Require Import List ZArith Bool Lia.
From Verif Require Import PyBase PyLemmas SpmpModel SpmpSpec.
Import ListNotations.
Open Scope nat_scope.

(** ** The server *)
Section S.
  Context {D : Type} (sv : server D) (peer : option pystr).
  Lemma process_cases r x :
    (authorised sv peer r = false /\ process sv peer r x = (x, [SClose])) \/
    (authorised sv peer r = true /\ exists p, m_id p = m_id r /\ m_request p = m_request r /\ m_args p = m_args r /\
       ((knows sv r = false /\ process sv peer r x = (x, [SSend p])) \/
        (knows sv r = true /\ exists x', process sv peer r x = (x', [SRun (m_request r) (m_args r); SSend p])))).
  Proof.
    unfold process, authorised, knows, dhas. destruct (s_security sv) as [pol|]; [destruct (pol peer r); cbn [negb]|].
    1, 3: right; split; [reflexivity|]; destruct (dget (s_api sv) (m_request r)) as [op|];
      [destruct (op x (m_args r)) as [x' [s|m]]|]; eexists (Spmp _ _ _ _ _); repeat (split; [reflexivity|]); eauto.
    left; auto.
  Qed.
  Lemma runs_app g h : runs (g ++ h) = runs g ++ runs h.  Proof. apply flat_map_app. Qed.
  Lemma replies_app g h : replies (g ++ h) = replies g ++ replies h.  Proof. apply flat_map_app. Qed.
  Lemma closes_app g h : closes (g ++ h) = closes g + closes h.
  Proof. unfold closes. now rewrite filter_app, app_length. Qed.

  Lemma serve_all rs : forall x,
    runs (snd (serve sv peer rs x)) = map (fun r => (m_request r, m_args r)) (filter (fun r => authorised sv peer r && knows sv r) rs) /\
    map (fun p => (m_id p, m_request p, m_args p)) (replies (snd (serve sv peer rs x))) = map (fun r => (m_id r, m_request r, m_args r)) (filter (authorised sv peer) rs) /\
    closes (snd (serve sv peer rs x)) = length (filter (fun r => negb (authorised sv peer r)) rs).
  Proof.
    induction rs as [|r rs IH]; intros x; [repeat split|]. cbn [serve filter].
    destruct (process_cases r x) as [[A E]|[A (p & Ei & Er & Ea & [[K E]|[K (x' & E)]])]]; rewrite E, A;
      [destruct (IH x) as (I1 & I2 & I3)|destruct (IH x) as (I1 & I2 & I3)|destruct (IH x') as (I1 & I2 & I3)];
      try rewrite K; match goal with |- context [serve sv peer rs ?y] => destruct (serve sv peer rs y) as [x2 g2] end;
      cbn [snd andb negb map length] in *; rewrite runs_app, replies_app, closes_app;
      cbn [runs replies flat_map app map closes filter length Nat.add] in *; rewrite ?I1, ?I3; (split; [reflexivity|split; [|reflexivity]]);
      fold (replies g2); rewrite ?I2, ?Ei, ?Er, ?Ea; reflexivity.
  Qed.
  Lemma hidden_split ps : forall x, to_main (snd (hidden sv peer ps x)) = flat_map (fun p => match p with MOther b => [b] | _ => [] end) ps /\
    served (snd (hidden sv peer ps x)) = snd (serve sv peer (flat_map (fun p => match p with MSpmp r => [r] | _ => [] end) ps) x) /\
    fst (hidden sv peer ps x) = fst (serve sv peer (flat_map (fun p => match p with MSpmp r => [r] | _ => [] end) ps) x).
  Proof.
    induction ps as [|[r|b] ps IH]; intros x; [repeat split| |]; cbn [hidden flat_map app].
    - cbn [serve]. destruct (process sv peer r x) as [x1 g1]. destruct (IH x1) as (I1 & I2 & I3).
      destruct (hidden sv peer ps x1) as [x2 g2]. destruct (serve sv peer _ x1) as [x3 g3]. cbn [fst snd] in *. subst x3 g3.
      unfold to_main, served in *. rewrite !flat_map_app. split; [|split; [|reflexivity]].
      + rewrite <- I1. replace (flat_map (fun e => match e with MServe _ => [] | MMain b => [b] end) (map MServe g1)) with (@nil bytes); [reflexivity|].
        clear. induction g1; auto.
      + f_equal. clear. induction g1 as [|g g1 IH]; cbn; congruence.
    - destruct (IH x) as (I1 & I2 & I3). destruct (hidden sv peer ps x) as [x2 g2]. cbn [fst snd] in *. unfold to_main, served in *. cbn.
      rewrite I1, I2. auto.
  Qed.
End S.

(** ** The client: what a query returns *)
Lemma latest_snoc es e id : latest (es ++ [e]) id = match e with QResponse i v => if Z.eqb i id then Some v else latest es id | _ => latest es id end.
Proof. unfold latest. rewrite fold_left_app. reflexivity. Qed.
Lemma queries_app a b : queries (a ++ b) = queries a ++ queries b.  Proof. apply flat_map_app. Qed.
Lemma response_ids_app a b : response_ids (a ++ b) = response_ids a ++ response_ids b.  Proof. apply flat_map_app. Qed.
Lemma q_run_snoc es e s : q_run (es ++ [e]) s = match q_run es s with Some s' => q_step e s' | None => None end.
Proof.
  revert s. induction es as [|x es IH]; intros s; cbn; [destruct (q_step e s); reflexivity|].
  destruct (q_step x s); [apply IH|reflexivity].
Qed.

Record qsafe (es : list qevent) (s : qclient) : Prop := {
  qs_resp : forall id, dget (q_responses s) id = latest es id;
  qs_ids : forall q id, dget (q_ids s) q = Some id -> In (QQuery q id) es;
  qs_done : forall q v, dget (q_done s) q = Some v -> exists id p r, es = p ++ r /\ In (QQuery q id) p /\ latest p id = Some v
}.
Lemma evaluate_safe es q s : qsafe es s -> qsafe es (evaluate q s).
Proof.
  intros [R I Dn]. unfold evaluate. destruct (dget (q_ids s) q) as [id|] eqn:E; [|constructor; auto].
  destruct (dget (q_responses s) id) as [v|] eqn:V; constructor; cbn; auto.
  intros q' v' H. destruct (eq_dec q' q) as [->|N].
  - rewrite dget_dset_same in H. injection H as <-. exists id, es, []. rewrite app_nil_r. split; [reflexivity|]. split; [auto|]. now rewrite <- R.
  - rewrite dget_dset_other in H by auto. eauto.
Qed.
Lemma run_safe es : forall s, q_run es qclient_new = Some s -> qsafe es s.
Proof.
  induction es as [|e es IH] using rev_ind; intros s.
  - intros [= <-]. constructor; cbn; try discriminate. reflexivity.
  - rewrite q_run_snoc. destruct (q_run es qclient_new) as [s0|]; [|discriminate]. destruct (IH s0 eq_refl) as [R I Dn].
    assert (Dn' : forall q v, dget (q_done s0) q = Some v -> exists id p r, es ++ [e] = p ++ r /\ In (QQuery q id) p /\ latest p id = Some v).
    { intros q v H. destruct (Dn q v H) as (id & p & r & -> & X & Y). exists id, p, (r ++ [e]). rewrite <- app_assoc. auto. }
    destruct e as [q id|id v| |q]; cbn [q_step].
    + destruct (dhas (q_ids s0) q); [discriminate|]. intros [= <-]. apply evaluate_safe. constructor; cbn.
      * intros i. rewrite latest_snoc. auto.
      * intros q' i H. apply in_or_app. destruct (eq_dec q' q) as [->|N].
        -- rewrite dget_dset_same in H. injection H as <-. right. now left.
        -- rewrite dget_dset_other in H by auto. left. auto.
      * exact Dn'.
    + intros [= <-]. constructor; cbn.
      * intros i. rewrite latest_snoc. destruct (Z.eqb_spec id i) as [->|N]; [apply dget_dset_same|rewrite dget_dset_other by auto; auto].
      * intros q' i H. apply in_or_app. left. auto.
      * exact Dn'.
    + destruct (q_notify s0); [discriminate|]. destruct (q_waiting s0); intros [= <-]; constructor; cbn; auto;
        try (intros; rewrite latest_snoc; auto); intros q' i H; apply in_or_app; left; auto.
    + destruct (smem (q_woken s0) q); [|discriminate]. intros [= <-]. apply evaluate_safe. constructor; cbn; auto.
      * intros i. rewrite latest_snoc. auto.
      * intros q' i H. apply in_or_app. left. auto.
Qed.

(** ** The client: answers in order are all delivered *)
Lemma in_order_prefix es e : answered_in_order (es ++ [e]) -> answered_in_order es.
Proof.
  intros [N O]. split.
  - rewrite queries_app, map_app in N. now apply NoDup_app_l in N.
  - intros p r ->. apply (O p (r ++ [e])). now rewrite <- app_assoc.
Qed.

Lemma sremove_in {A} `{EqDec A} (l : list A) x y : In y (sremove l x) -> In y l.
Proof. induction l as [|z l IH]; cbn; auto. destruct (eq_dec x z); cbn; intuition. Qed.
Lemma sremove_keep {A} `{EqDec A} (l : list A) x y : In y l -> y <> x -> In y (sremove l x).
Proof. induction l as [|z l IH]; cbn; auto. intros [E|I] N; destruct (eq_dec x z); subst; cbn; auto; try congruence. Qed.

(** [n]: waiters that have been woken, in the order of the queries; [m]: answers *)
Record qorder (es : list qevent) (s : qclient) (n m : nat) : Prop := {
  qo_m : m <= length (queries es);
  qo_resp : response_ids es = map snd (firstn m (queries es));
  qo_n : n + q_notify s = m;
  qo_wait : q_waiting s = map fst (skipn n (queries es));
  qo_woken : forall q, In q (q_woken s) -> In q (map fst (firstn n (queries es)));
  qo_first : forall q, In q (map fst (firstn n (queries es))) -> In q (q_woken s) \/ dget (q_done s) q <> None;
  qo_ids : forall q id, dget (q_ids s) q = Some id <-> In (q, id) (queries es);
  qo_keys : forall id, dget (q_responses s) id <> None <-> In id (response_ids es);
  qo_done : forall q, dget (q_done s) q <> None -> In q (map fst (firstn n (queries es)));
  qo_nodup : NoDup (map fst (queries es))
}.
Lemma firstn_in {A} n (l : list A) x : In x (firstn n l) -> In x l.
Proof. intros H. rewrite <- (firstn_skipn n l). apply in_or_app. auto. Qed.
Lemma firstn_mono {A} n m (l : list A) x : n <= m -> In x (firstn n l) -> In x (firstn m l).
Proof. intros L H. replace (firstn n l) with (firstn n (firstn m l)) in H by (rewrite firstn_firstn; f_equal; lia). eapply firstn_in; eauto. Qed.

Lemma skipn_cons {A} n (l : list A) x r : skipn n l = x :: r -> skipn (S n) l = r /\ firstn (S n) l = firstn n l ++ [x].
Proof.
  revert l. induction n as [|n IH]; intros [|y l]; cbn [skipn]; try discriminate.
  - intros [= -> ->]. auto.
  - intros E. apply IH in E as [E1 E2]. split; [exact E1|]. cbn in *. now rewrite E2.
Qed.

Lemma run_order es : forall s, q_run es qclient_new = Some s -> answered_in_order es -> exists n m, qorder es s n m.
Proof.
  induction es as [|e es IH] using rev_ind; intros s.
  - intros [= <-] _. exists 0, 0. constructor; cbn.
    all: try (intros; reflexivity).
    all: try (intros q []; fail).
    all: try (intros q id; split; [discriminate|intros []]; fail).
    all: try (intros; congruence).
    all: try constructor.
    all: try (intros []; fail). all: try (intros; tauto).
  - rewrite q_run_snoc. destruct (q_run es qclient_new) as [s0|]; [|discriminate]. intros St AO.
    destruct (IH s0 eq_refl (in_order_prefix _ _ AO)) as (n & m & [Hm Hr Hn Hw Hk Hf Hi Hks Hd Hnd]). clear IH.
    destruct AO as [ND AO]. destruct e as [q id|id v| |q]; cbn [q_step] in St.
    + (* a query: its id is new, so it waits *)
      destruct (dhas (q_ids s0) q) eqn:Hq; [discriminate|]. injection St as <-.
      rewrite queries_app in ND. cbn in ND. rewrite map_app in ND. cbn in ND.
      assert (F : dget (q_responses s0) id = None).
      { destruct (dget (q_responses s0) id) eqn:E; auto. exfalso. assert (I : In id (response_ids es)) by (apply Hks; congruence).
        rewrite Hr in I. apply NoDup_remove_2 in ND. rewrite app_nil_r in ND. apply ND. apply in_map_iff in I as (x & <- & I).
        apply in_map. eapply firstn_in; eauto. }
      assert (Nq : ~ In q (map fst (queries es))).
      { intros I. apply in_map_iff in I as ([q' i] & Eq & I). cbn in Eq. subst q'. apply Hi in I. unfold dhas in Hq. rewrite I in Hq. discriminate. }
      unfold evaluate. cbn [q_ids q_responses]. rewrite dget_dset_same. cbn [q_responses]. rewrite F. exists n, m.
      assert (Q : queries (es ++ [QQuery q id]) = queries es ++ [(q, id)]) by (rewrite queries_app; reflexivity).
      assert (Fn : firstn n (queries es ++ [(q, id)]) = firstn n (queries es)).
      { rewrite firstn_app. replace (n - length (queries es)) with 0 by lia. cbn. apply app_nil_r. }
      assert (Fm : firstn m (queries es ++ [(q, id)]) = firstn m (queries es)).
      { rewrite firstn_app. replace (m - length (queries es)) with 0 by lia. cbn. apply app_nil_r. }
      constructor; cbn [q_responses q_ids q_waiting q_woken q_notify q_done]; rewrite ?Q, ?Fn, ?Fm; auto.
      * rewrite app_length. lia.
      * rewrite response_ids_app. cbn. now rewrite app_nil_r.
      * rewrite skipn_app. replace (n - length (queries es)) with 0 by lia. cbn [skipn]. rewrite map_app, Hw. reflexivity.
      * intros q' i. destruct (eq_dec q' q) as [->|N].
        -- rewrite dget_dset_same. split.
           ++ intros [= ->]. apply in_or_app. right. now left.
           ++ intros I. apply in_app_or in I as [I|[[= <-]|[]]]; auto. exfalso. apply Nq. now apply (in_map fst) in I.
        -- rewrite dget_dset_other by auto. rewrite Hi. split; intros I; [apply in_or_app; auto|]. apply in_app_or in I as [I|[[= -> _]|[]]]; auto. congruence.
      * intros i. rewrite Hks, response_ids_app. cbn. rewrite app_nil_r. tauto.
      * rewrite map_app. cbn. apply NoDup_snoc; auto.
    + (* a response *)
      injection St as <-. destruct (AO (es ++ [QResponse id v]) [] ltac:(now rewrite app_nil_r)) as [k K].
      assert (Q : queries (es ++ [QResponse id v]) = queries es) by (rewrite queries_app; apply app_nil_r). rewrite Q in K.
      rewrite response_ids_app in K. cbn [response_ids flat_map app] in K. fold (response_ids es) in K. 
      assert (L : length (response_ids es) = m). { rewrite Hr, map_length, firstn_length. lia. }
      assert (Lk : m < length (queries es) /\ response_ids es ++ [id] = map snd (firstn (S m) (queries es))).
      { pose proof (f_equal (@length Z) K) as LK. rewrite app_length, firstn_length, map_length in LK. cbn in LK. split; [lia|].
        rewrite K, firstn_map. f_equal. destruct (le_lt_dec k (length (queries es))) as [W|W].
        - replace k with (S m) by lia. reflexivity.
        - rewrite !firstn_all2; auto; lia. }
      destruct Lk as [Lm Lr]. exists n, (S m).
      constructor; cbn [q_responses q_ids q_waiting q_woken q_notify q_done]; rewrite ?Q; auto; try lia.
      * rewrite response_ids_app. exact Lr.
      * intros i. rewrite response_ids_app. cbn [response_ids flat_map app]. fold (response_ids es). destruct (eq_dec i id) as [->|N].
        -- rewrite dget_dset_same. split; [intros _; apply in_or_app; right; now left|congruence].
        -- rewrite dget_dset_other by auto. rewrite Hks. split; intros I; [apply in_or_app; auto|]. apply in_app_or in I as [I|[I|[]]]; auto. congruence.
    + (* a notify task *)
      assert (Q : queries (es ++ [QNotify]) = queries es) by (rewrite queries_app; apply app_nil_r).
      assert (Rr : response_ids (es ++ [QNotify]) = response_ids es) by (rewrite response_ids_app; apply app_nil_r).
      destruct (q_notify s0) as [|k] eqn:Ek; [discriminate|].
      destruct (skipn n (queries es)) as [|x rest] eqn:Sk.
      { exfalso. apply (f_equal (@length _)) in Sk. rewrite skipn_length in Sk. cbn in Sk. lia. }
      apply skipn_cons in Sk as [Sk Fs]. cbn [map] in Hw. rewrite Hw in St. injection St as <-. exists (S n), m.
      constructor; cbn [q_responses q_ids q_waiting q_woken q_notify q_done]; rewrite ?Q, ?Rr, ?Fs, ?Sk, ?map_app; auto; try lia.
      * intros q' I. apply in_app_or in I as [I|[<-|[]]]; apply in_or_app; [left; auto|right; now left].
      * intros q' I. apply in_app_or in I as [I|[<-|[]]]; [|left; apply in_or_app; right; now left].
        destruct (Hf _ I); [left; apply in_or_app; auto|auto].
      * intros q' I. apply in_or_app. left. auto.
    + (* a woken waiter finds its answer *)
      assert (Q : queries (es ++ [QWake q]) = queries es) by (rewrite queries_app; apply app_nil_r).
      assert (Rr : response_ids (es ++ [QWake q]) = response_ids es) by (rewrite response_ids_app; apply app_nil_r).
      destruct (smem (q_woken s0) q) eqn:Sm; [|discriminate]. injection St as <-. apply smem_true in Sm. 
      pose proof (Hk _ Sm) as Iq. apply in_map_iff in Iq as ([q' id] & Eq & Iq). cbn in Eq. subst q'.
      assert (Rid : In id (response_ids es)).
      { rewrite Hr. apply in_map_iff. exists (q, id). split; [reflexivity|]. eapply firstn_mono; [|exact Iq]. lia. }
      apply Hks in Rid. destruct (dget (q_responses s0) id) as [v|] eqn:V; [|congruence].
      unfold evaluate. cbn [q_ids q_responses]. rewrite (proj2 (Hi q id) (firstn_in _ _ _ Iq)). cbn [q_responses]. rewrite V.
      exists n, m. constructor; cbn [q_responses q_ids q_waiting q_woken q_notify q_done]; rewrite ?Q, ?Rr; auto.
      * intros q' I. apply Hk. unfold remove_query in I. eapply sremove_in; eauto.
      * intros q' I. destruct (eq_dec q' q) as [->|N]; [right; rewrite dget_dset_same; discriminate|].
        destruct (Hf _ I) as [I'|I']; [left; apply sremove_keep; auto|right; rewrite dget_dset_other by auto; auto].
      * intros q' I. destruct (eq_dec q' q) as [->|N]; [apply in_map_iff; exists (q, id); auto|]. rewrite dget_dset_other in I by auto. auto.
Qed.

Lemma fold_latest_none : forall p id a, ~ In id (response_ids p) ->
  fold_left (fun a e => match e with QResponse i v => if Z.eqb i id then Some v else a | _ => a end) p a = a.
Proof.
  induction p as [|e p IH]; intros id a N; [reflexivity|]. cbn [fold_left].
  destruct e as [q i|i w| |q]; cbn [response_ids flat_map app] in N; try (now apply IH).
  destruct (Z.eqb_spec i id) as [->|Ne]; [exfalso; apply N; now left|]. apply IH. intros X. apply N. now right.
Qed.
Lemma latest_in : forall p id v, latest p id = Some v -> In id (response_ids p).
Proof.
  intros p id v L. destruct (in_dec Z.eq_dec id (response_ids p)) as [X|X]; [exact X|].
  unfold latest in L. rewrite fold_latest_none in L by exact X. discriminate.
Qed.
