(** * Proofs about whole histories of the connector *)
From Coq Require Import List ZArith Bool Lia Arith Permutation.
From Verif Require Import PyBase PyLemmas ClientModel CallbackModel ConnModel ConnSpec ConnProofs.
Import ListNotations.
Open Scope nat_scope.

Lemma split_app {A} (a b c d : list A) x : a ++ b = c ++ x :: d ->
  (exists r, a = c ++ x :: r /\ d = r ++ b) \/ (exists r, c = a ++ r /\ b = r ++ x :: d).
Proof.
  revert c. induction a as [|y a IH]; intros c H.
  - right. exists c. now split.
  - destruct c as [|z c]; cbn in H.
    + injection H as -> <-. left. exists a. now split.
    + injection H as -> H. destruct (IH c H) as [(r & -> & ->)|(r & -> & ->)]; [left|right]; exists r; now split.
Qed.
Lemma step_endsn e s s' g' k : y_step e s = Some (s', g') -> endsn k g' <= 1.
Proof.
  intros H. destruct (step_sc e s s' g' H) as [_ O W T]. destruct (eq_dec k (ev_call e)) as [->|N]; [|rewrite (O k N); lia].
  destruct (final (dget (y_calls s) (ev_call e))); [destruct (T eq_refl) as [_ U]; lia|]. rewrite (W eq_refl). destruct (final _); cbn; lia.
Qed.
Lemma run_ret es s g g1 g2 k p a : y_run es sys_new = Some (s, g) -> g = g1 ++ YLReturn k p a :: g2 -> ret_ok g1 k p a.
Proof.
  revert s g g2. induction es as [|e es IH] using rev_ind; intros s g g2 H E; [injection H as <- <-; destruct g1; discriminate E|].
  apply run_snoc in H as (s1 & h1 & h2 & A & B & ->). apply split_app in E as [(r & -> & ->)|(r & -> & ->)]; [exact (IH _ _ _ A eq_refl)|].
  destruct (run_inv _ _ _ A) as [Y C]. destruct (step_ok e s1 h1 s _ Y C B) as [_ R].
  assert (In (YLReturn k p a) (r ++ YLReturn k p a :: g2)) as X by (apply in_or_app; right; now left).
  destruct (R k p a X) as ((c & id & P & (c' & k' & Q)) & T & U & V).
  assert (M : forall x, In x h1 -> In x (h1 ++ r)) by (intros x I; apply in_or_app; now left).
  split; [exists c, id; split; [auto|exists c', k'; auto]|]. split; [auto|]. split; [auto|]. intros j q I. apply in_app_or in I as [I|I]; [exact (V j q I)|].
  pose proof (step_sc e s1 s _ B) as [_ O _ _].
  assert (J : forall j, endsn j (r ++ YLReturn k p a :: g2) <> 0 -> j = ev_call e) by (intros i Hi; destruct (eq_dec i (ev_call e)) as [Ei|N]; [exact Ei|elim Hi; auto]).
  assert (Ej : j = ev_call e).
  { apply J. rewrite endsn_app. assert (0 < endsn j r); [|lia]. apply endsn_pos. exists (YLReturn j q a). split; [exact I|]. cbn. apply Nat.eqb_refl. }
  assert (Ek : k = ev_call e).
  { apply J. rewrite endsn_app. assert (0 < endsn k (YLReturn k p a :: g2)); [|lia]. apply endsn_pos. exists (YLReturn k p a). split; [now left|]. cbn. apply Nat.eqb_refl. }
  pose proof (step_endsn e s1 s _ k B) as L. rewrite endsn_app in L.
  assert (0 < endsn k (YLReturn k p a :: g2)). { apply endsn_pos. exists (YLReturn k p a). split; [now left|]. cbn. apply Nat.eqb_refl. }
  assert (0 < endsn k r). { apply endsn_pos. exists (YLReturn j q a). split; [exact I|]. cbn. rewrite Ej, Ek. apply Nat.eqb_refl. }
  lia.
Qed.
Lemma run_server es s g k c i : y_run es sys_new = Some (s, g) -> In (YLServer k c i) g -> In (YLReq k c i KListen) g.
Proof.
  revert s g. induction es as [|e es IH] using rev_ind; intros s g H E; [injection H as <- <-; destruct E|].
  apply run_snoc in H as (s1 & h1 & h2 & A & B & ->). apply in_or_app. left. apply in_app_or in E as [E|E]; [eauto|].
  destruct (step_log _ _ _ _ _ B E) as (x & id & port & P & Q & R). destruct (run_inv _ _ _ A) as [Y _].
  assert (i = id) by (eapply (proj2 (z_ctrl _ _ Y c x Q)); eassumption). subst i. exact (z_fut _ _ Y _ _ _ _ P).
Qed.
Definition is_listen (e : yevent) : bool := match e with VListen _ _ => true | _ => false end.
Lemma run_tcps es s g : (forall e, In e es -> is_listen e = false) -> y_run es sys_new = Some (s, g) ->
  NoDup (tcps g) /\ forall l, In l (tcps g) -> dget (y_conns s) l <> None.
Proof.
  revert s g. induction es as [|e es IH] using rev_ind; intros s g L H; [injection H as <- <-; split; [constructor|intros l []]|].
  apply run_snoc in H as (s1 & h1 & h2 & A & B & ->). destruct (IH s1 h1) as [N K]; [intros x X; apply L, in_or_app; now left|exact A|].
  rewrite tcps_app. destruct (step_core _ _ _ _ B) as [_ [P Q|k kd l E M P Q R|k l c kd E D P Q R]].
  - rewrite Q, app_nil_r, P. now split.
  - destruct kd; [|assert (X : is_listen e = false) by (apply L, in_or_app; right; now left); rewrite E in X; discriminate X].
    rewrite Q. cbn [tcps flat_map Datatypes.app]. split.
    + apply Permutation_NoDup with (l := l :: tcps h1); [apply Permutation_cons_append|]. constructor; [|exact N]. intros X. exact (K l X M).
    + intros x X. rewrite P, dset_get. destruct (eq_dec x l); [discriminate|]. apply in_app_or in X as [X|[X|[]]]; [auto|congruence].
  - rewrite R, app_nil_r, P. split; [exact N|]. intros x X. rewrite dset_get. destruct (eq_dec x l); [discriminate|auto].
Qed.

(** ** a VNIC that cannot be reached *)
Lemma moved_all e s s' g' j : y_step e s = Some (s', g') ->
  dget (y_calls s') j = dget (y_calls s) j \/ (j = ev_call e /\ exists x, dget (y_calls s') j = Some x /\ pc_next e s j (dget (y_calls s) j) x).
Proof.
  intros H. destruct (eq_dec j (ev_call e)) as [->|N]; [|left; exact (f_only _ _ _ _ (step_sc _ _ _ _ H) j N)].
  destruct (step_pc _ _ _ _ H) as [E|X]; auto.
Qed.
Lemma new_tcp e s s' g' j l c kd : y_step e s = Some (s', g') -> dget (y_calls s') j = Some (PTcp l c kd) ->
  dget (y_calls s) j = Some (PTcp l c kd) \/ (dget (y_calls s) j = None /\ dget (y_conns s) l = None /\ calls_to l e = Some j).
Proof.
  intros H D. destruct (moved_all _ _ _ _ j H) as [E|(E & x & X & P)]; [left; congruence|]. rewrite D in X. injection X as <-.
  destruct (dget (y_calls s) j) as [[| | | | | | |]|] eqn:O; cbn [pc_next] in P.
  - destruct P as [(_ & id & P)|(_ & P)]; discriminate P.
  - destruct P as (? & ? & _ & P). discriminate P.
  - exfalso. destruct k; repeat match goal with H : _ \/ _ |- _ => destruct H | H : exists _, _ |- _ => destruct H end; discriminate.
  - exfalso. repeat match goal with H : _ \/ _ |- _ => destruct H | H : exists _, _ |- _ => destruct H end; discriminate.
  - destruct P as [P|P]; discriminate P.
  - destruct P.
  - destruct P.
  - destruct P.
  - right. destruct P as (m & kd' & -> & P). destruct (dget (y_conns s) m) as [[d|]|] eqn:C.
    + destruct P as [id P]. discriminate P.
    + discriminate P.
    + injection P as -> _ ->. repeat split; auto. destruct kd'; cbn; now rewrite Nat.eqb_refl.
Qed.
Lemma conns_next e s s' g' l : y_step e s = Some (s', g') ->
  dget (y_conns s') l = dget (y_conns s) l \/ (dget (y_conns s) l = None /\ calls_to l e <> None) \/ (exists k c kd, e = VTcp k true /\ dget (y_calls s) k = Some (PTcp l c kd)).
Proof.
  intros H. destruct (step_core _ _ _ _ H) as [_ [P _|k kd m E M P _ _|k m c kd E D P _ _]].
  - left. now rewrite P.
  - rewrite P. destruct kd; [|now left]. rewrite dset_get. destruct (eq_dec l m) as [->|N]; [|now left]. right. left. split; [exact M|]. rewrite E. cbn. now rewrite Nat.eqb_refl.
  - rewrite P, dset_get. destruct (eq_dec l m) as [->|N]; [|now left]. right. right. eauto.
Qed.
Lemma untouched es s g l : (forall e, In e es -> calls_to l e = None) -> y_run es sys_new = Some (s, g) ->
  dget (y_conns s) l = None /\ forall j c kd, dget (y_calls s) j <> Some (PTcp l c kd).
Proof.
  revert s g. induction es as [|e es IH] using rev_ind; intros s g L H; [injection H as <- <-; split; [reflexivity|discriminate]|].
  apply run_snoc in H as (s1 & h1 & h2 & A & B & ->). destruct (IH s1 h1) as [N K]; [intros x X; apply L, in_or_app; now left|exact A|].
  assert (Le : calls_to l e = None) by (apply L, in_or_app; right; now left). split.
  - destruct (conns_next _ _ _ _ l B) as [E|[[_ E]|(k & c & kd & _ & E)]]; [congruence|congruence|elim (K _ _ _ E)].
  - intros j c kd X. destruct (new_tcp _ _ _ _ _ _ _ _ B X) as [Y|(_ & _ & Y)]; [elim (K _ _ _ Y)|congruence].
Qed.
Lemma sleep_stays e s s' g' j l kd : dget (y_conns s) l = Some None -> dget (y_calls s) j = Some (PSleep l kd) -> y_step e s = Some (s', g') ->
  dget (y_calls s') j = Some (PSleep l kd).
Proof.
  intros C D H. destruct (moved_all _ _ _ _ j H) as [E|(E & x & X & P)]; [congruence|]. rewrite D in P. cbn in P. destruct P as (c & id & P & _). congruence.
Qed.
Definition dead (l : loc) (k : call) (es : list yevent) (s : sys) : Prop :=
  dget (y_conns s) l = Some None /\
  (dget (y_calls s) k = Some PRaised \/ exists c, dget (y_calls s) k = Some (PTcp l c KConnect)) /\
  (forall j c kd, j <> k -> dget (y_calls s) j <> Some (PTcp l c kd)) /\
  (forall e j, In e es -> calls_to l e = Some j -> exists kd, dget (y_calls s) j = Some (PSleep l kd)).
Definition not_tcp (k : call) (s : sys) : Prop := dget (y_calls s) k <> None /\ forall l c kd, dget (y_calls s) k <> Some (PTcp l c kd).
Lemma not_tcp_step e s s' g' k : not_tcp k s -> y_step e s = Some (s', g') -> not_tcp k s' /\ ~ In (YLRaise k YTcp) g'.
Proof.
  intros [N T] H. split; [split|].
  - destruct (moved_all _ _ _ _ k H) as [E|(_ & x & X & _)]; congruence.
  - intros l c kd X. destruct (new_tcp _ _ _ _ _ _ _ _ H X) as [Y|(Y & _)]; [elim (T _ _ _ Y)|elim (N Y)].
  - intros X. destruct (step_log _ _ _ _ _ H X) as (_ & l & c & kd & Y). elim (T _ _ _ Y).
Qed.
Lemma call_fresh e s s' g' l j : calls_to l e = Some j -> y_step e s = Some (s', g') -> dget (y_calls s) j = None /\ ev_call e = j /\
  (dget (y_conns s) l = Some None -> exists kd, dget (y_calls s') j = Some (PSleep l kd)).
Proof.
  intros C H. destruct e as [k m|k m|k ok|k|c p|e|a|k| |k]; cbn [calls_to] in C; try discriminate; (destruct (Nat.eqb_spec m l) as [->|]; [|discriminate]); injection C as <-;
    cbn [y_step] in H; unfold dhas in H; (destruct (dget (y_calls s) k) eqn:D; [discriminate|]); (split; [reflexivity|]); (split; [reflexivity|]); intros Z; unfold begin in H; rewrite Z in H; injection H as <- <-; eexists; apply wc_get.
Qed.
Lemma dead_step e s s' g' l k es : dead l k es s -> y_step e s = Some (s', g') -> (dead l k (es ++ [e]) s') \/ (not_tcp k s' /\ ~ In (YLRaise k YTcp) g' /\ final (dget (y_calls s) k) = false).
Proof.
  intros (C & K & N & S) H.
  assert (Old : forall f j, In f es -> calls_to l f = Some j -> exists kd, dget (y_calls s') j = Some (PSleep l kd)).
  { intros f j I F. destruct (S f j I F) as [kd D]. exists kd. eapply sleep_stays; eassumption. }
  assert (Nn : dget (y_calls s) k <> None) by (destruct K as [K|[c K]]; congruence).
  assert (New : forall j, calls_to l e = Some j -> exists kd, dget (y_calls s') j = Some (PSleep l kd)).
  { intros j F. destruct (call_fresh _ _ _ _ _ _ F H) as (_ & _ & Z). exact (Z C). }
  assert (D1 : dget (y_conns s') l = Some None -> (dget (y_calls s') k = Some PRaised \/ exists c, dget (y_calls s') k = Some (PTcp l c KConnect)) -> dead l k (es ++ [e]) s').
  { intros C' K'. split; [exact C'|]. split; [exact K'|]. split.
    - intros j c kd Nj X. destruct (new_tcp _ _ _ _ _ _ _ _ H X) as [Y|(_ & Y & _)]; [elim (N _ _ _ Nj Y)|congruence].
    - intros f j I F. apply in_app_or in I as [I|[->|[]]]; eauto. }
  destruct (conns_next _ _ _ _ l H) as [E|[[E _]|(j & c & kd & -> & E)]]; [|congruence|].
  - destruct (moved_all _ _ _ _ k H) as [M|(M & x & X & P)].
    + left. apply D1; [congruence|]. rewrite M. exact K.
    + destruct K as [K|[c K]]; rewrite K in P; cbn [pc_next] in P; [destruct P|]. destruct P as [(P & id & Q)|(P & ->)].
      * exfalso. rewrite P in H. cbn [y_step] in H. rewrite K in H. apply eq_sym in E. rewrite C in E.
        match type of H with Some (request _ _ _ ?t) = _ => pose proof (request_core k KConnect c t) as Z; destruct (request k KConnect c t) end. injection H as <- <-.
        destruct Z as (Z & _). cbn [fst with_conns y_conns] in Z. rewrite Z, dget_dset_same in E. discriminate.
      * left. apply D1; [congruence|]. now left.
  - right. assert (j = k) by (destruct (eq_dec j k) as [->|Nj]; [reflexivity|elim (N _ _ _ Nj E)]). subst j.
    assert (Ec : exists id, dget (y_calls s') k = Some (PFuture c id kd)).
    { cbn [y_step] in H. rewrite E in H. unfold request in H. cbn [with_conns with_ctrl y_ctrl] in H. rewrite dget_dset_same in H. injection H as <- <-. eexists. apply wc_get. }
    destruct Ec as [id Ec]. split; [split; [congruence|intros; congruence]|]. split; [|now rewrite E]. intros X. destruct (step_log _ _ _ _ _ H X) as (Y & _). discriminate Y.
Qed.
Lemma dead_hist es1 es2 k l s g : (forall e, In e es1 -> calls_to l e = None) -> y_run (es1 ++ VConnect k l :: es2) sys_new = Some (s, g) ->
  dead l k es2 s \/ (not_tcp k s /\ ~ In (YLRaise k YTcp) g).
Proof.
  intros L. revert s g. induction es2 as [|e es2 IH] using rev_ind; intros s g H.
  - apply run_snoc in H as (s1 & h1 & h2 & A & B & ->). destruct (untouched _ _ _ _ L A) as [C N]. left.
    assert (Cl : calls_to l (VConnect k l) = Some k) by (cbn; now rewrite Nat.eqb_refl).
    destruct (call_fresh _ _ _ _ _ _ Cl B) as (F & _ & _).
    assert (X : dget (y_conns s) l = Some None /\ dget (y_calls s) k = Some (PTcp l (y_nctrl s1) KConnect)).
    { cbn [y_step] in B. destruct (dhas (y_calls s1) k); [discriminate|]. unfold begin in B. rewrite C in B. injection B as <- <-. split; [apply dget_dset_same|apply wc_get]. }
    destruct X as [X1 X2]. split; [exact X1|]. split; [right; eauto|]. split; [|intros f j []].
    intros j c kd Nj Y. destruct (new_tcp _ _ _ _ _ _ _ _ B Y) as [Z|(_ & _ & Z)]; [elim (N _ _ _ Z)|congruence].
  - replace (es1 ++ VConnect k l :: es2 ++ [e]) with ((es1 ++ VConnect k l :: es2) ++ [e]) in H by now rewrite <- app_assoc.
    apply run_snoc in H as (s1 & h1 & h2 & A & B & ->). destruct (IH _ _ A) as [D|[T N]].
    + destruct (dead_step _ _ _ _ _ _ _ D B) as [X|(X & Y & F)]; [now left|right]. split; [exact X|]. intros Z. apply in_app_or in Z as [Z|Z]; [|exact (Y Z)].
      pose proof (run_count _ _ _ k A) as R. rewrite F in R. assert (0 < endsn k h1); [|cbn in R; lia]. apply endsn_pos. eexists. split; [exact Z|]. cbn. apply Nat.eqb_refl.
    + right. destruct (not_tcp_step _ _ _ _ _ T B) as [X Y]. split; [exact X|]. intros Z. apply in_app_or in Z as [Z|Z]; auto.
Qed.
Lemma unreachable es1 es2 k l s g : (forall e, In e es1 -> calls_to l e = None) -> y_run (es1 ++ VConnect k l :: es2) sys_new = Some (s, g) ->
  In (YLRaise k YTcp) g -> forall e j, In e es2 -> calls_to l e = Some j -> ~ ended j g.
Proof.
  intros L H R e j I C E. destruct (dead_hist _ _ _ _ _ _ L H) as [(_ & _ & _ & S)|[_ N]]; [|elim (N R)].
  destruct (S e j I C) as [kd D]. apply endsn_pos in E. rewrite (run_count _ _ _ _ H), D in E. cbn in E. lia.
Qed.

(** ** who waits for what *)
Definition is_conns (o : option cpc) : bool := match o with Some (PConns _ _) => true | _ => false end.
Definition spw (s : sys) (i : Z) : list proto := spawned (y_cbs s) i.
Inductive qchange (s s' : sys) : Prop :=
| QKeep : y_wait s' = y_wait s -> y_woken s' = y_woken s -> y_notify s <= y_notify s' ->
    (forall i, spw s' i <> [] -> spw s i <> [] \/ y_notify s < y_notify s') ->
    (forall j, dget (y_calls s') j = dget (y_calls s) j \/ (is_conns (dget (y_calls s') j) = false /\ is_conns (dget (y_calls s) j) = false)) -> qchange s s'
| QGo k : (is_conns (dget (y_calls s) k) = false /\ y_woken s' = y_woken s \/ is_conns (dget (y_calls s) k) = true /\ In k (y_woken s) /\ y_woken s' = sremove (y_woken s) k) ->
    (is_conns (dget (y_calls s') k) = false /\ y_wait s' = y_wait s \/ (exists c id, dget (y_calls s') k = Some (PConns c id) /\ spw s' id = []) /\ y_wait s' = y_wait s ++ [k]) ->
    y_notify s' = y_notify s -> (forall i, spw s' i = spw s i) -> (forall j, j <> k -> dget (y_calls s') j = dget (y_calls s) j) -> qchange s s'
| QNotif n : y_notify s = S n -> y_notify s' = n -> y_cbs s' = y_cbs s -> y_calls s' = y_calls s ->
    match y_wait s with [] => y_wait s' = [] /\ y_woken s' = y_woken s | k :: r => y_wait s' = r /\ y_woken s' = y_woken s ++ [k] end -> qchange s s'.
Lemma built_notify g s : y_notify s <= y_notify (built g s) /\ ((exists port p n, In (BBuild port p n) g) -> y_notify s < y_notify (built g s)).
Proof.
  unfold built. revert s. induction g as [|x g IH]; intros s; [split; [auto|intros (? & ? & ? & [])]|]. cbn [fold_left].
  assert (K : forall t, y_notify s <= y_notify t -> (exists port p n, In (BBuild port p n) g) -> y_notify s < y_notify (fold_left (fun s x => match x with
    | BBuild _ _ (_, _, a) => with_obs (dset (y_obs s) a false) (with_queue (y_wait s) (y_woken s) (S (y_notify s)) s)
    | _ => s end) g t)) by (intros t L X; pose proof (proj2 (IH t) X); lia).
  destruct x as [port p [[id kd] a]|p a b|p a|p].
  - match goal with |- context [fold_left _ g ?t] => set (t0 := t); assert (L : y_notify t0 = S (y_notify s)) by reflexivity; pose proof (proj1 (IH t0)) end. split; [lia|]. intros _. lia.
  - split; [exact (proj1 (IH s))|]. intros (a1 & a2 & a3 & [X|X]); [discriminate|]. apply K; eauto.
  - split; [exact (proj1 (IH s))|]. intros (a1 & a2 & a3 & [X|X]); [discriminate|]. apply K; eauto.
  - split; [exact (proj1 (IH s))|]. intros (a1 & a2 & a3 & [X|X]); [discriminate|]. apply K; eauto.
Qed.
Lemma spawned_set b id l i p d q r t : spawned (Cbs p d q (dset (b_spawn b) id l) r) i = if eq_dec i id then l else spawned (Cbs p d q (b_spawn b) t) i.
Proof. unfold spawned. cbn [b_spawn]. rewrite dset_get. now destruct (eq_dec i id). Qed.
Lemma try_build_spawn port b b' g : try_build port b = (b', g) -> (forall i, spawned b' i = spawned b i) \/ exists p q n, In (BBuild p q n) g.
Proof.
  unfold try_build. destruct (dget (b_info b) port) as [n|]; [|intros X; injection X as <- <-; now left]. destruct (dget (b_data b) port) as [p|]; [|intros X; injection X as <- <-; now left].
  unfold build_stack. destruct n as [[id kd] a]. destruct (dget (b_protos b) p); intros X; injection X as <- <-; [|now left]. right. eexists _, _, _. now left.
Qed.
Lemma cb_spawn e b b' g : cb_step e b = (b', g) -> (forall i, spawned b' i <> [] -> spawned b i <> []) \/ exists p q n, In (BBuild p q n) g.
Proof.
  intros H. destruct e as [p port|port n|p d|p|id]; cbn [cb_step] in H.
  - destruct (try_build_spawn _ _ _ _ H) as [E|E]; [left|now right]. intros i. rewrite E. auto.
  - destruct (try_build_spawn _ _ _ _ H) as [E|E]; [left|now right]. intros i. rewrite E. auto.
  - left. destruct (dget (b_protos b) p) as [st|]; [|injection H as <- <-; auto]. destruct (p_app st); injection H as <- <-; auto.
  - left. destruct (dget (b_protos b) p) as [st|]; [|injection H as <- <-; auto]. destruct (p_app st); injection H as <- <-; auto.
    destruct (Z.eqb (p_port st) 0); auto. unfold data_closed. destruct (dget (b_back b) p) as [id|]; [|auto]. intros i. unfold spawned at 1. cbn [b_spawn]. rewrite dset_get.
    destruct (eq_dec i id) as [->|N]; [|auto]. destruct (spawned b id); [cbn; auto|discriminate].
  - left. injection H as <- _. destruct (dget (b_spawn b) id) eqn:D; auto. intros i. unfold spawned at 1. cbn [b_spawn]. rewrite dset_get. destruct (eq_dec i id); [congruence|auto].
Qed.
Lemma cb_queue e t s : y_wait t = y_wait s -> y_woken t = y_woken s -> y_notify t = y_notify s -> y_cbs t = y_cbs s -> y_calls t = y_calls s -> qchange s (fst (cb_apply e t)).
Proof.
  intros E1 E2 E3 E4 E5. destruct (cb_apply_core e t) as (_ & A & B & C & D).
  pose proof (fun X => built_notify (snd (cb_step e (y_cbs t))) X) as N. unfold cb_apply in *. destruct (cb_step e (y_cbs t)) as [b g] eqn:E. cbn [fst snd] in *.
  specialize (N (with_cbs b t)). cbn [with_cbs y_notify] in N. destruct N as [N1 N2].
  apply QKeep; [congruence|congruence|lia| |intros j; left; now rewrite A, E5].
  intros i X. unfold spw in *. rewrite B in X. rewrite E4 in E. destruct (cb_spawn _ _ _ _ E) as [Y|Y]; [left; auto|right]. apply N2 in Y. lia.
Qed.
Lemma qkeep_set s t k x : y_wait t = y_wait s -> y_woken t = y_woken s -> y_notify t = y_notify s -> y_cbs t = y_cbs s -> y_calls t = y_calls s ->
  is_conns (dget (y_calls s) k) = false -> is_conns (Some x) = false -> qchange s (with_call k x t).
Proof.
  intros E1 E2 E3 E4 E5 A B. apply QKeep; [exact E1|exact E2|cbn; lia|unfold spw; cbn [with_call y_cbs]; rewrite E4; auto|].
  intros j. cbn [with_call y_calls]. rewrite dset_get. destruct (eq_dec j k) as [->|N]; [right; now split|left; now rewrite E5].
Qed.
Lemma qkeep_same s t : y_wait t = y_wait s -> y_woken t = y_woken s -> y_notify t = y_notify s -> y_cbs t = y_cbs s -> y_calls t = y_calls s -> qchange s t.
Proof. intros E1 E2 E3 E4 E5. apply QKeep; auto; [lia|unfold spw; rewrite E4; auto|intros j; left; now rewrite E5]. Qed.
Lemma qrequest k kd c s t : y_wait t = y_wait s -> y_woken t = y_woken s -> y_notify t = y_notify s -> y_cbs t = y_cbs s -> y_calls t = y_calls s ->
  is_conns (dget (y_calls s) k) = false -> qchange s (fst (request k kd c t)).
Proof.
  intros E1 E2 E3 E4 E5 A. unfold request. destruct (dget (y_ctrl t) c); cbn [fst]; [|now apply qkeep_same]. now apply qkeep_set.
Qed.
Lemma qlook k c id s t : (forall i p, In p (spw t i) -> exists st a, dget (b_protos (y_cbs t)) p = Some st /\ p_app st = Some a) ->
  y_wait t = y_wait s -> y_notify t = y_notify s -> (forall i, spw t i = spw s i) -> y_calls t = y_calls s ->
  (is_conns (dget (y_calls s) k) = false /\ y_woken t = y_woken s \/ is_conns (dget (y_calls s) k) = true /\ In k (y_woken s) /\ y_woken t = sremove (y_woken s) k) ->
  qchange s (fst (look k c id t)).
Proof.
  intros L E1 E3 E4 E5 A.
  assert (P : forall x u, y_wait u = y_wait t -> y_woken u = y_woken t -> y_notify u = y_notify t -> y_cbs u = y_cbs t -> y_calls u = y_calls t -> is_conns (Some x) = false -> qchange s (with_call k x u)).
  { intros x u F1 F2 F3 F4 F5 B. apply (QGo _ _ k); cbn [with_call y_calls y_woken y_wait y_notify].
    - rewrite F2. exact A.
    - left. rewrite dget_dset_same. split; [exact B|congruence].
    - congruence.
    - intros i. unfold spw in *. cbn [with_call y_cbs]. rewrite F4. apply E4.
    - intros j N. rewrite dset_get. destruct (eq_dec j k); [congruence|]. now rewrite F5, E5. }
  unfold look. fold (spw t id). destruct (spw t id) as [|p [|q r]] eqn:Sp.
  - apply (QGo _ _ k); cbn [fst with_call with_queue y_calls y_woken y_wait y_notify].
    + exact A.
    + right. rewrite dget_dset_same. split; [exists c, id; split; [reflexivity|exact Sp]|congruence].
    + exact E3.
    + exact E4.
    + intros j N. rewrite dset_get. destruct (eq_dec j k); [congruence|]. now rewrite E5.
  - destruct (L id p) as (st & a & X & Y); [rewrite Sp; now left|]. rewrite X, Y. unfold await_made. destruct (dget (y_obs t) a) as [[|]|]; cbn [fst]; apply P; reflexivity.
  - cbn [fst]. apply P; reflexivity.
Qed.
Lemma spw_wait i s j : spw (with_cbs (fst (cb_step (QWait i) (y_cbs s))) s) j = spw s j.
Proof.
  unfold spw. cbn [with_cbs y_cbs cb_step fst]. destruct (dget (b_spawn (y_cbs s)) i) eqn:D; [reflexivity|]. unfold spawned. cbn [b_spawn]. rewrite dset_get. destruct (eq_dec j i) as [->|]; [now rewrite D|reflexivity].
Qed.
Lemma step_queue e s g s' g' : yi s g -> y_step e s = Some (s', g') -> qchange s s'.
Proof.
  intros Y H.
  assert (L : forall i p, In p (spw s i) -> exists st a, dget (b_protos (y_cbs s)) p = Some st /\ p_app st = Some a).
  { intros i p X. destruct (x_spawn _ _ _ (z_cb _ _ Y) i p X) as (st & a & P & Q & _). eauto. }
  destruct e as [k l|k l|k ok|k|c p|e|a|k| |k]; cbn [y_step] in *.
  - unfold dhas in H. destruct (dget (y_calls s) k) eqn:D; [discriminate|]. unfold begin in H. destruct (dget (y_conns s) l) as [[c|]|].
    + pose proof (qrequest k KConnect c s s) as Z. destruct (request k KConnect c s). injection H as <- <-. apply Z; auto. now rewrite D.
    + injection H as <- <-. apply qkeep_set; auto. now rewrite D.
    + injection H as <- <-. apply qkeep_set; auto. now rewrite D.
  - unfold dhas in H. destruct (dget (y_calls s) k) eqn:D; [discriminate|]. unfold begin in H. destruct (dget (y_conns s) l) as [[c|]|].
    + pose proof (qrequest k KListen c s s) as Z. destruct (request k KListen c s). injection H as <- <-. apply Z; auto. now rewrite D.
    + injection H as <- <-. apply qkeep_set; auto. now rewrite D.
    + injection H as <- <-. apply qkeep_set; auto. now rewrite D.
  - destruct (dget (y_calls s) k) as [[l c kd| | | | | | |]|] eqn:D; try discriminate. destruct ok.
    + match type of H with Some (request _ _ _ ?t) = _ => pose proof (qrequest k kd c s t) as Z; destruct (request k kd c t) end. injection H as <- <-. apply Z; auto. now rewrite D.
    + injection H as <- <-. apply qkeep_set; auto. now rewrite D.
  - destruct (dget (y_calls s) k) as [[|l kd| | | | | |]|] eqn:D; try discriminate.
    destruct (dget (y_conns s) l) as [[c|]|].
    + pose proof (qrequest k kd c s s) as Z; destruct (request k kd c s). injection H as <- <-. apply Z; auto. now rewrite D.
    + injection H as <- <-. now apply qkeep_same.
    + injection H as <- <-. now apply qkeep_same.
  - destruct (dget (y_ctrl s) c) as [x|]; [|discriminate]. destruct (handle p x) as [x' lg].
    assert (P0 : forall s' g', Some (with_ctrl c x' s, @nil ylog) = Some (s', g') -> qchange s s') by (intros t h X; injection X as <- <-; now apply qkeep_same).
    destruct lg as [? ?|?|?|? [[[id kd] tcp]|] ? ?]; try (eapply P0; exact H).
    destruct (dget (y_factory s) (c, id)) as [k|]; [|eapply P0; exact H]. clear P0.
    match type of H with context [cb_apply ?e ?t] => pose proof (cb_queue e t s) as Z; destruct (cb_apply e t) end.
    injection H as <- <-. apply Z; reflexivity.
  - assert (B : forall e0 t h, Some (cb_apply e0 s) = Some (t, h) -> qchange s t).
    { intros e0 t h X. pose proof (cb_queue e0 s s) as Z. destruct (cb_apply e0 s). injection X as <- <-. apply Z; reflexivity. }
    destruct e as [p port|port n|p b|p|id]; try discriminate H; try (eapply B; exact H). destruct (dhas _ p); [discriminate|eapply B; exact H].
  - destruct (dget (y_obs s) a); injection H as <- <-; now apply qkeep_same.
  - destruct (dget (y_calls s) k) as [[|l kd|c id kd|c id|p a| | |]|] eqn:D; try discriminate.
    + destruct (dget (y_ctrl s) c) as [x|]; [|discriminate]. destruct (dget (c_fut x) id) as [[| |[i port|]]|]; try discriminate.
      * destruct kd.
        -- match type of H with Some (look _ _ _ ?t) = _ => pose proof (qlook k c i s t) as Z; destruct (look k c i t) end. injection H as <- <-. apply Z; auto.
           ++ intros j q. rewrite spw_wait. intros X. destruct (L j q X) as (st & a & P & Q). exists st, a. split; [|exact Q]. cbn. now destruct (dget (b_spawn (y_cbs s)) i).
           ++ intros j. apply spw_wait.
           ++ left. rewrite D. now split.
        -- injection H as <- <-. apply qkeep_set; auto. now rewrite D.
      * injection H as <- <-. apply qkeep_set; auto. now rewrite D.
    + destruct (smem (y_woken s) k) eqn:W; [|discriminate]. apply smem_true in W.
      match type of H with Some (look _ _ _ ?t) = _ => pose proof (qlook k c id s t) as Z; destruct (look k c id t) end. injection H as <- <-. apply Z; auto. right. rewrite D. now repeat split.
    + destruct (dget (y_obs s) a) as [[|]|]; [|discriminate|]; injection H as <- <-; (apply qkeep_set; auto; now rewrite D).
  - destruct (y_notify s) as [|n] eqn:N; [discriminate|]. injection H as <- <-. apply (QNotif _ _ n); auto; destruct (y_wait s); auto; split; reflexivity.
  - destruct (dget (y_calls s) k) as [[|l kd|c id kd|c id|p a| | |]|] eqn:D; try discriminate.
    + destruct (dget (y_ctrl s) c) as [x|]; [|discriminate]. destruct (dget (c_fut x) id) as [[| |]|]; try discriminate.
      injection H as <- <-. apply qkeep_set; auto. now rewrite D.
    + injection H as <- <-. apply qkeep_set; auto. now rewrite D.
Qed.

Record qi (s : sys) : Prop := {
  q_in : forall j, is_conns (dget (y_calls s) j) = true <-> In j (y_wait s ++ y_woken s);
  q_nd : NoDup (y_wait s ++ y_woken s)
}.
Lemma nd_mid {A} (a b : list A) x : NoDup (a ++ x :: b) <-> NoDup (x :: a ++ b).
Proof. split; apply Permutation_NoDup; [symmetry|]; apply Permutation_middle. Qed.
Lemma in_mid {A} (a b : list A) x y : In y (a ++ x :: b) <-> y = x \/ In y (a ++ b).
Proof. rewrite !in_app_iff. cbn. intuition congruence. Qed.
Lemma sremove_perm (l : list nat) x : In x l -> Permutation l (x :: sremove l x).
Proof.
  induction l as [|y l IH]; [intros []|]. intros [->|I]; cbn [sremove].
  - destruct (eq_dec x x); [reflexivity|congruence].
  - destruct (eq_dec x y) as [->|N]; [reflexivity|]. rewrite (IH I) at 1. apply perm_swap.
Qed.
Lemma qi_step s s' : qi s -> qchange s s' -> qi s'.
Proof.
  intros [I N] [E1 E2 _ _ P|k A B _ _ P|n _ _ _ E5 M].
  - split; [|now rewrite E1, E2]. intros j. rewrite E1, E2, <- I. destruct (P j) as [->|[X Y]]; [reflexivity|]. rewrite X, Y. reflexivity.
  - assert (C : forall j, j <> k -> (is_conns (dget (y_calls s') j) = true <-> In j (y_wait s ++ y_woken s))) by (intros j Nj; rewrite (P j Nj); apply I).
    (* after the first half, k is nowhere *)
    assert (H : NoDup (y_wait s ++ y_woken s') /\ ~ In k (y_wait s ++ y_woken s') /\ forall j, j <> k -> (In j (y_wait s ++ y_woken s') <-> In j (y_wait s ++ y_woken s))).
    { destruct A as [[A ->]|(A & W & ->)].
      - split; [exact N|]. split; [|intros; reflexivity]. intros X. apply I in X. congruence.
      - pose proof (sremove_perm _ _ W) as Pm. assert (Pw : Permutation (y_wait s ++ y_woken s) (k :: y_wait s ++ sremove (y_woken s) k)) by (rewrite Pm at 1; symmetry; apply Permutation_middle).
        apply (Permutation_NoDup Pw) in N. apply NoDup_cons_iff in N as [N1 N2]. split; [exact N2|]. split; [exact N1|]. intros j Nj. split; intros X.
        + apply (Permutation_in j (Permutation_sym Pw)). now right.
        + apply (Permutation_in j Pw) in X as [X|X]; [congruence|exact X]. }
    destruct H as (H1 & H2 & H3). destruct B as [[B B2]|[(c & id & B & _) B2]].
    + split; [|now rewrite B2]. intros j. rewrite B2. destruct (eq_dec j k) as [->|Nj]; [|rewrite (C j Nj), H3 by exact Nj; reflexivity]. rewrite B. split; [discriminate|intros X; elim (H2 X)].
    + split.
      * intros j. rewrite B2, <- app_assoc. cbn [Datatypes.app]. rewrite in_mid. destruct (eq_dec j k) as [->|Nj].
        -- rewrite B. cbn. split; auto.
        -- rewrite (C j Nj), H3 by exact Nj. split; [auto|]. intros [X|X]; [congruence|exact X].
      * rewrite B2, <- app_assoc. cbn [Datatypes.app]. apply nd_mid. now constructor.
  - destruct (y_wait s) as [|k r] eqn:W; destruct M as [M1 M2].
    + split; [|rewrite M1, M2; exact N]. intros j. rewrite E5, M1, M2. apply I.
    + assert (Pw : Permutation ((k :: r) ++ y_woken s) (r ++ y_woken s ++ [k])) by (rewrite app_assoc; apply Permutation_cons_append).
      rewrite <- M1, <- M2 in Pw. rewrite <- M1 in I, N. split; [|exact (Permutation_NoDup Pw N)]. intros j. rewrite E5, I. split; apply Permutation_in; [exact Pw|symmetry; exact Pw].
Qed.
Lemma run_qi es s g : y_run es sys_new = Some (s, g) -> qi s.
Proof.
  revert s g. induction es as [|e es IH] using rev_ind; intros s g H.
  - injection H as <- <-. split; [cbn; intros j; split; [discriminate|intros []]|constructor].
  - apply run_snoc in H as (s1 & h1 & h2 & A & B & ->). destruct (run_inv _ _ _ A) as [Y _]. exact (qi_step _ _ (IH _ _ A) (step_queue _ _ _ _ _ Y B)).
Qed.
Definition ni (s : sys) : Prop := forall k c id, In k (y_wait s) -> dget (y_calls s) k = Some (PConns c id) -> spw s id <> [] -> 0 < y_notify s.
Lemma ni_step s s' : length (y_wait s) <= 1 -> ni s -> qchange s s' -> ni s'.
Proof.
  intros L N [E1 E2 E3 E4 P|k0 A B E3 E4 P|n E1 E2 _ E5 M] k c id W D Sp.
  - rewrite E1 in W. destruct (P k) as [X|[X _]]; [|rewrite D in X; discriminate]. destruct (E4 id Sp) as [Y|Y]; [|lia]. rewrite X in D. pose proof (N k c id W D Y). lia.
  - rewrite E4 in Sp. destruct (eq_dec k k0) as [->|Nk].
    + destruct B as [[B _]|[(c' & id' & B & Z) _]]; [rewrite D in B; discriminate|]. rewrite D in B. injection B as <- <-. rewrite E4 in Z. elim (Sp Z).
    + rewrite (P k Nk) in D. rewrite E3. apply (N k c id); auto. destruct B as [[_ B]|[_ B]]; rewrite B in W; [exact W|]. apply in_app_or in W as [W|[W|[]]]; [exact W|congruence].
  - destruct (y_wait s) as [|k1 r]; destruct M as [M1 M2].
    + rewrite M1 in W. destruct W.
    + cbn in L. destruct r; [|cbn in L; lia]. rewrite M1 in W. destruct W.
Qed.

Definition wants (o : option cpc) : bool :=
  match o with Some (PTcp _ _ KConnect | PSleep _ KConnect | PFuture _ _ KConnect | PConns _ _ | PMade _ _) => true | _ => false end.
Lemma run_wants es s g j : y_run es sys_new = Some (s, g) -> wants (dget (y_calls s) j) = true -> exists l, In (VConnect j l) es.
Proof.
  revert s g. induction es as [|e es IH] using rev_ind; intros s g H W; [injection H as <- <-; discriminate W|].
  apply run_snoc in H as (s1 & h1 & h2 & A & B & ->).
  assert (K : wants (dget (y_calls s1) j) = true -> exists l, In (VConnect j l) (es ++ [e])) by (intros X; destruct (IH _ _ A X) as [l Y]; exists l; apply in_or_app; now left).
  destruct (moved_all _ _ _ _ j B) as [E|(_ & x & X & P)]; [rewrite E in W; auto|]. rewrite X in W.
  destruct (dget (y_calls s1) j) as [[l c []|l []|c id []|c id|p a|? ?|? ?|]|] eqn:O; cbn [pc_next] in P; try (apply K; reflexivity); try (destruct P; fail).
  - exfalso. repeat match goal with H : _ \/ _ |- _ => destruct H | H : exists _, _ |- _ => destruct H | H : _ /\ _ |- _ => destruct H end; subst; discriminate.
  - exfalso. repeat match goal with H : _ \/ _ |- _ => destruct H | H : exists _, _ |- _ => destruct H | H : _ /\ _ |- _ => destruct H end; subst; discriminate.
  - exfalso. repeat match goal with H : _ \/ _ |- _ => destruct H | H : exists _, _ |- _ => destruct H | H : _ /\ _ |- _ => destruct H end; subst; discriminate.
  - destruct P as (l & kd & -> & P). destruct kd; [exists l; apply in_or_app; right; now left|]. exfalso. destruct (dget (y_conns s1) l) as [[c|]|]; [destruct P as [id ->]|subst x|subst x]; discriminate.
Qed.
Lemma ended_mono k a b : ended k a -> ended k (a ++ b).
Proof. intros (x & X & E). exists x. split; [apply in_or_app; now left|exact E]. Qed.
Lemma one_prefix es e : one_at_a_time (es ++ [e]) -> one_at_a_time es.
Proof. intros O a k l b s g -> R. apply (O a k l (b ++ [e]) s g); [now rewrite <- app_assoc|exact R]. Qed.
Lemma one_unended es s g j j' l l' : one_at_a_time es -> y_run es sys_new = Some (s, g) -> In (VConnect j l) es -> In (VConnect j' l') es -> ~ ended j g -> ~ ended j' g -> j = j'.
Proof.
  revert s g. induction es as [|e es IH] using rev_ind; intros s g O H I I' N N'; [destruct I|].
  apply run_snoc in H as (s1 & h1 & h2 & A & B & ->).
  assert (M : forall i, ~ ended i (h1 ++ h2) -> ~ ended i h1) by (intros i X Y; apply X, ended_mono, Y).
  assert (Last : forall i m k n, e = VConnect k n -> In (VConnect i m) (es ++ [e]) -> ~ ended i (h1 ++ h2) -> i = k).
  { intros i m k n -> X Z. apply in_app_or in X as [X|[X|[]]]; [|congruence]. exfalso. apply (M i Z). exact (O es k n [] s1 h1 eq_refl A i m X). }
  assert (C : (exists k n, e = VConnect k n) \/ forall k n, e <> VConnect k n) by (destruct e; [left; eauto|right; discriminate..]).
  destruct C as [(k & n & C)|C].
  - rewrite (Last j l k n C I N), (Last j' l' k n C I' N'). reflexivity.
  - apply in_app_or in I as [I|[I|[]]]; [|elim (C _ _ I)]. apply in_app_or in I' as [I'|[I'|[]]]; [|elim (C _ _ I')].
    exact (IH s1 h1 (one_prefix _ _ O) A I I' (M _ N) (M _ N')).
Qed.
Lemma one_wait es s g : one_at_a_time es -> y_run es sys_new = Some (s, g) -> length (y_wait s) <= 1.
Proof.
  intros O H. destruct (run_qi _ _ _ H) as [I N]. apply NoDup_app_l in N.
  assert (K : forall j, In j (y_wait s) -> (exists l, In (VConnect j l) es) /\ ~ ended j g).
  { intros j X. assert (F : is_conns (dget (y_calls s) j) = true) by (apply I, in_or_app; now left). split.
    - apply (run_wants _ _ _ _ H). destruct (dget (y_calls s) j) as [[]|]; try discriminate F; reflexivity.
    - intros E. apply endsn_pos in E. rewrite (run_count _ _ _ _ H) in E. destruct (dget (y_calls s) j) as [[]|]; try discriminate F. cbn in E. lia. }
  destruct (y_wait s) as [|a [|b r]]; [cbn; lia|cbn; lia|]. exfalso. destruct (K a) as [[la A] Ea]; [now left|]. destruct (K b) as [[lb B] Eb]; [right; now left|].
  assert (a = b) by (eapply one_unended; eassumption). subst b. apply NoDup_cons_iff in N as [N _]. apply N. now left.
Qed.
Lemma run_ni es s g : one_at_a_time es -> y_run es sys_new = Some (s, g) -> ni s.
Proof.
  revert s g. induction es as [|e es IH] using rev_ind; intros s g O H; [injection H as <- <-; intros k c id []|].
  apply run_snoc in H as (s1 & h1 & h2 & A & B & ->). destruct (run_inv _ _ _ A) as [Y _]. apply one_prefix in O. exact (ni_step _ _ (one_wait _ _ _ O A) (IH _ _ O A) (step_queue _ _ _ _ _ Y B)).
Qed.

(** ** the future a call waits for can still be given its result *)
Definition fut_live (x : client) (id : Z) : Prop := dget (c_fut x) id = Some FPending \/ exists o, dget (c_fut x) id = Some (FDone o).
Definition vi (s : sys) : Prop :=
  (forall c x, dget (y_ctrl s) c = Some x -> c_up x = true) /\
  (forall k c id kd, dget (y_calls s) k = Some (PFuture c id kd) -> exists x, dget (y_ctrl s) c = Some x /\ fut_live x id).
Lemma complete_live x id o j : fut_live x j -> fut_live (fst (fst (complete x id o))) j /\ c_up (fst (fst (complete x id o))) = c_up x.
Proof.
  unfold complete. destruct (dget (c_fut x) id) as [[| |]|]; cbn [fst]; intros L; (split; [|reflexivity]); try exact L.
  unfold fut_live. cbn [c_fut]. rewrite dset_get. destruct (eq_dec j id); [right; eauto|exact L].
Qed.
Lemma complete_up x id o : c_up (fst (fst (complete x id o))) = c_up x.
Proof. unfold complete. now destruct (dget (c_fut x) id) as [[| |]|]. Qed.
Lemma handle_live p x : c_up (fst (handle p x)) = c_up x /\ forall j, fut_live x j -> fut_live (fst (handle p x)) j.
Proof.
  assert (K : forall y id o, c_up y = c_up x -> c_fut y = c_fut x -> c_up (fst (fst (complete y id o))) = c_up x /\ forall j, fut_live x j -> fut_live (fst (fst (complete y id o))) j).
  { intros y id o A B. split; [rewrite complete_up; exact A|]. intros j L. apply complete_live. unfold fut_live. rewrite B. exact L. }
  destruct p as [id failure port|id tcp sport|]; cbn [handle]; [| |split; auto].
  - destruct (dget (c_futs x) id) as [k|]; [|split; auto].
    set (y := if _ || failure then forget x id else x).
    assert (A : c_up y = c_up x /\ c_fut y = c_fut x) by (unfold y; destruct (_ || failure); split; reflexivity). clearbody y. destruct A as [A B]. destruct failure.
    + pose proof (K y id OFailure A B) as Z. destruct (complete y id OFailure) as [[z d] e]. exact Z.
    + destruct k.
      * cbn [fst]. split; [exact A|]. intros j. unfold fut_live. now rewrite B.
      * pose proof (K y id (OResult id port) A B) as Z. destruct (complete y id (OResult id port)) as [[z d] e]. exact Z.
  - destruct (smem (c_conns x) id); [|split; auto].
    destruct (match dget (c_futs x) id with Some k => k | None => KListen end); [|split; auto].
    pose proof (K (forget x id) id (OResult id sport) eq_refl eq_refl) as Z. destruct (complete (forget x id) id (OResult id sport)) as [[z d] e]. exact Z.
Qed.
Lemma vi_ext s t : y_ctrl t = y_ctrl s -> y_calls t = y_calls s -> vi s -> vi t.
Proof. intros A B V. unfold vi. rewrite A, B. exact V. Qed.
Lemma vi_call s t k x : y_ctrl t = y_ctrl s -> y_calls t = y_calls s -> match x with PFuture _ _ _ => False | _ => True end -> vi s -> vi (with_call k x t).
Proof.
  intros A B N [U F]. split; cbn [with_call y_ctrl y_calls].
  - rewrite A. exact U.
  - intros j c id kd. rewrite dset_get. destruct (eq_dec j k) as [->|]; [intros E; injection E as ->; destruct N|]. rewrite A, B. apply F.
Qed.
Lemma vi_ctrl s c x x' : vi s -> dget (y_ctrl s) c = Some x -> c_up x' = c_up x -> (forall j, fut_live x j -> fut_live x' j) -> vi (with_ctrl c x' s).
Proof.
  intros [U F] D A L. split; cbn [with_ctrl y_ctrl y_calls].
  - intros d y. rewrite dset_get. destruct (eq_dec d c) as [->|]; [|apply U]. intros E. injection E as <-. rewrite A. exact (U c x D).
  - intros k d id kd E. destruct (F k d id kd E) as (y & P & Q). rewrite dset_get. destruct (eq_dec d c) as [->|]; [|eauto]. exists x'. split; [reflexivity|]. apply L. congruence.
Qed.
Lemma vi_request k kd c s x : vi s -> dget (y_ctrl s) c = Some x -> vi (fst (request k kd c s)).
Proof.
  intros V D. unfold request. rewrite D. cbn [fst]. set (x' := fst (client_step (EOpen kd) x)).
  assert (X : c_up x' = c_up x /\ (forall j, fut_live x j -> fut_live x' j) /\ fut_live x' (c_id x')).
  { unfold x'. cbn [client_step]. rewrite (proj1 V c x D). cbn [fst c_up c_id]. split; [reflexivity|]. unfold fut_live. cbn [c_fut]. split.
    - intros j L. rewrite dset_get. destruct (eq_dec j (c_id x + 1)%Z); auto.
    - left. apply dget_dset_same. }
  destruct X as (A & B & C). clearbody x'. pose proof (vi_ctrl s c x x' V D A B) as [U F]. split; cbn [with_call y_ctrl y_calls] in *; [exact U|].
  intros j d id kd'. rewrite dset_get. destruct (eq_dec j k) as [->|]; [|apply F]. intros E. injection E as <- <- <-. exists x'. cbn [with_ctrl y_ctrl]. split; [apply dget_dset_same|exact C].
Qed.
Lemma vi_look k c id s t : y_ctrl t = y_ctrl s -> y_calls t = y_calls s -> vi s -> vi (fst (look k c id t)).
Proof.
  intros A B V. unfold look. destruct (spawned (y_cbs t) id) as [|p [|]].
  - now apply (vi_call s).
  - destruct (dget (b_protos (y_cbs t)) p) as [st|]; [|now apply (vi_ext s)]. destruct (p_app st) as [a|]; [|now apply (vi_ext s)]. unfold await_made.
    destruct (dget (y_obs t) a) as [[|]|]; now apply (vi_call s).
  - now apply (vi_call s).
Qed.
Lemma vi_cb e s t : y_ctrl t = y_ctrl s -> y_calls t = y_calls s -> vi s -> vi (fst (cb_apply e t)).
Proof. intros A B V. destruct (cb_apply_core e t) as ((_ & _ & P) & Q & _). apply (vi_ext s); [now rewrite P|now rewrite Q|exact V]. Qed.
Lemma vi_step e s g s' g' : yi s g -> conns_ok s -> vi s -> y_step e s = Some (s', g') -> vi s'.
Proof.
  intros Y C V H. destruct e as [k l|k l|k ok|k|c p|e|a|k| |k]; cbn [y_step] in *.
  - unfold dhas in H. destruct (dget (y_calls s) k) eqn:D; [discriminate|]. unfold begin in H. destruct (dget (y_conns s) l) as [[c|]|] eqn:E.
    + destruct (dget (y_ctrl s) c) as [x|] eqn:X; [|elim (C l c E X)]. pose proof (vi_request k KConnect c s x V X) as Z. destruct (request k KConnect c s). injection H as <- <-. exact Z.
    + injection H as <- <-. now apply (vi_call s).
    + injection H as <- <-. now apply (vi_call s).
  - unfold dhas in H. destruct (dget (y_calls s) k) eqn:D; [discriminate|]. unfold begin in H. destruct (dget (y_conns s) l) as [[c|]|] eqn:E.
    + destruct (dget (y_ctrl s) c) as [x|] eqn:X; [|elim (C l c E X)]. pose proof (vi_request k KListen c s x V X) as Z. destruct (request k KListen c s). injection H as <- <-. exact Z.
    + injection H as <- <-. now apply (vi_call s).
    + injection H as <- <-. now apply (vi_call s).
  - destruct (dget (y_calls s) k) as [[l c kd| | | | | | |]|] eqn:D; try discriminate. destruct ok.
    + match type of H with Some (request _ _ _ ?t) = _ => assert (V1 : vi t); [|pose proof (vi_request k kd c t _ V1 (dget_dset_same _ _ _)) as Z; destruct (request k kd c t)] end.
      * destruct V as [U F]. destruct (z_tcp _ _ Y k l c kd D) as [_ N]. split; cbn [with_conns with_ctrl y_ctrl y_calls].
        -- intros d y. rewrite dset_get. destruct (eq_dec d c) as [->|]; [|apply U]. intros E. injection E as <-. reflexivity.
        -- intros j d id kd' E. destruct (F _ _ _ _ E) as (y & P & Q). rewrite dset_get. destruct (eq_dec d c) as [->|]; [congruence|eauto].
      * injection H as <- <-. exact Z.
    + injection H as <- <-. now apply (vi_call s).
  - destruct (dget (y_calls s) k) as [[|l kd| | | | | |]|] eqn:D; try discriminate.
    destruct (dget (y_conns s) l) as [[c|]|] eqn:E.
    + destruct (dget (y_ctrl s) c) as [x|] eqn:X; [|elim (C l c E X)]. pose proof (vi_request k kd c s x V X) as Z. destruct (request k kd c s). injection H as <- <-. exact Z.
    + injection H as <- <-. exact V.
    + injection H as <- <-. exact V.
  - destruct (dget (y_ctrl s) c) as [x|] eqn:X; [|discriminate]. destruct (handle_live p x) as [A B]. destruct (handle p x) as [x' lg]. cbn [fst] in A, B.
    pose proof (vi_ctrl s c x x' V X A B) as V1.
    assert (P0 : forall s' g', Some (with_ctrl c x' s, @nil ylog) = Some (s', g') -> vi s') by (intros t h Z; injection Z as <- <-; exact V1).
    destruct lg as [? ?|?|?|? [[[id kd] tcp]|] ? ?]; try (eapply P0; exact H).
    destruct (dget (y_factory s) (c, id)) as [k|]; [|eapply P0; exact H]. clear P0.
    match type of H with context [cb_apply ?e ?t] => pose proof (vi_cb e (with_ctrl c x' s) t) as Z; destruct (cb_apply e t) end.
    injection H as <- <-. apply Z; auto.
  - assert (B : forall e0 t h, Some (cb_apply e0 s) = Some (t, h) -> vi t).
    { intros e0 t h X. pose proof (vi_cb e0 s s) as Z. destruct (cb_apply e0 s). injection X as <- <-. apply Z; auto. }
    destruct e as [p port|port n|p b|p|id]; try discriminate H; try (eapply B; exact H). destruct (dhas _ p); [discriminate|eapply B; exact H].
  - destruct (dget (y_obs s) a); injection H as <- <-; now apply (vi_ext s).
  - destruct (dget (y_calls s) k) as [[|l kd|c id kd|c id|p a| | |]|] eqn:D; try discriminate.
    + destruct (dget (y_ctrl s) c) as [x|]; [|discriminate]. destruct (dget (c_fut x) id) as [[| |[i port|]]|]; try discriminate.
      * destruct kd.
        -- match type of H with Some (look _ _ _ ?t) = _ => pose proof (vi_look k c i s t) as Z; destruct (look k c i t) end. injection H as <- <-. apply Z; auto.
        -- injection H as <- <-. now apply (vi_call s).
      * injection H as <- <-. now apply (vi_call s).
    + destruct (smem (y_woken s) k) eqn:W; [|discriminate].
      match type of H with Some (look _ _ _ ?t) = _ => pose proof (vi_look k c id s t) as Z; destruct (look k c id t) end. injection H as <- <-. apply Z; auto.
    + destruct (dget (y_obs s) a) as [[|]|]; [|discriminate|]; injection H as <- <-; now apply (vi_call s).
  - destruct (y_notify s) as [|n] eqn:N; [discriminate|]. injection H as <- <-. destruct (y_wait s); now apply (vi_ext s).
  - destruct (dget (y_calls s) k) as [[|l kd|c id kd|c id|p a| | |]|] eqn:D; try discriminate.
    + destruct (dget (y_ctrl s) c) as [x|] eqn:X; [|discriminate]. destruct (dget (c_fut x) id) as [[| |]|] eqn:Fx; try discriminate.
      injection H as <- <-. cbn [client_step]. rewrite Fx. cbn [fst]. destruct V as [U F]. split; cbn [with_call with_ctrl y_ctrl y_calls].
      * intros d y. rewrite dset_get. destruct (eq_dec d c) as [->|]; [|apply U]. intros E. injection E as <-. exact (U c x X).
      * intros j d i kd'. rewrite dset_get. destruct (eq_dec j k) as [->|Nj]; [discriminate|]. intros E. destruct (F _ _ _ _ E) as (y & P & Q). rewrite dset_get.
        destruct (eq_dec d c) as [->|]; [|eauto]. eexists. split; [reflexivity|]. replace y with x in Q by congruence.
        destruct (Z.eq_dec i id) as [->|Ni].
        -- exfalso. apply Nj. pose proof (proj1 (z_req _ _ Y _ _ _ _ (z_fut _ _ Y _ _ _ _ E))) as R1. pose proof (proj1 (z_req _ _ Y _ _ _ _ (z_fut _ _ Y _ _ _ _ D))) as R2. congruence.
        -- unfold fut_live in *. cbn [c_fut]. rewrite dset_get. destruct (eq_dec i id); [congruence|exact Q].
    + injection H as <- <-. now apply (vi_call s).
Qed.
Lemma run_vi es s g : y_run es sys_new = Some (s, g) -> vi s.
Proof.
  revert s g. induction es as [|e es IH] using rev_ind; intros s g H.
  - injection H as <- <-. split; discriminate.
  - apply run_snoc in H as (s1 & h1 & h2 & A & B & ->). destruct (run_inv _ _ _ A) as [Y C]. eapply vi_step; eauto.
Qed.

(** ** the application has not been told *)
Lemma built_obs g s a : dget (y_obs (built g s)) a = Some false -> dget (y_obs s) a = Some false \/ exists port p id kd, In (BBuild port p (id, kd, a)) g.
Proof.
  unfold built. revert s. induction g as [|x g IH]; intros s H; [now left|]. cbn [fold_left] in H. apply IH in H as [H|(port & p & id & kd & H)]; [|right; exists port, p, id, kd; now right].
  destruct x as [port p [[id kd] b]|? ? ?|? ?|?]; auto. cbn [with_obs y_obs] in H. rewrite dset_get in H. destruct (eq_dec a b) as [->|]; [|now left]. right. exists port, p, id, kd. now left.
Qed.
Lemma cb_obs e s a : dget (y_obs (fst (cb_apply e s))) a = Some false -> dget (y_obs s) a = Some false \/ exists p, In (YLBuilt a p) (snd (cb_apply e s)).
Proof.
  unfold cb_apply. destruct (cb_step e (y_cbs s)) as [b g]. cbn [fst snd]. intros H. apply built_obs in H as [H|(port & p & id & kd & H)]; [now left|right].
  exists p. apply in_flat_map. eexists. split; [exact H|]. now left.
Qed.
Lemma cb_nomade e s a : ~ In (YLMade a) (snd (cb_apply e s)).
Proof.
  unfold cb_apply. destruct (cb_step e (y_cbs s)) as [b g]. cbn [snd]. intros X. apply in_flat_map in X as (x & _ & X).
  destruct x as [? ? [[? ?] ?]| | |]; cbn in X; intuition discriminate.
Qed.
Lemma step_obs e s s' g' a : NoDup (map fst (y_obs s)) -> y_step e s = Some (s', g') -> dget (y_obs s') a = Some false -> ~ In (YLMade a) g' /\ (dget (y_obs s) a = Some false \/ exists p, In (YLBuilt a p) g').
Proof.
  intros ND H O.
  assert (Del : forall b, dget (ddel (y_obs s) b) a = Some false -> dget (y_obs s) a = Some false).
  { intros b X. destruct (eq_dec a b) as [->|N]; [|now rewrite dget_ddel_other in X by congruence]. exfalso. destruct (ddel_keys (y_obs s) b ND) as [_ Z]. apply Z.
    apply in_map_iff. exists (b, false). split; [reflexivity|]. now apply dget_in'. }
  split.
  - intros I. destruct (step_log _ _ _ _ _ H I) as [-> X]. cbn [y_step] in H. destruct (dget (y_obs s) a); [|congruence]. injection H as <- <-. cbn [with_obs y_obs] in O. rewrite dget_dset_same in O. discriminate.
  - assert (R : forall k kd c t, y_obs t = y_obs s -> dget (y_obs (fst (request k kd c t))) a = Some false -> dget (y_obs s) a = Some false).
    { intros k kd c t E X. unfold request in X. destruct (dget (y_ctrl t) c); cbn [fst with_call with_ctrl y_obs] in X; congruence. }
    assert (Lk : forall k c id t, y_obs t = y_obs s -> dget (y_obs (fst (look k c id t))) a = Some false -> dget (y_obs s) a = Some false).
    { intros k c id t E X. unfold look in X. destruct (spawned (y_cbs t) id) as [|p [|]]; [cbn in X; congruence| |cbn in X; congruence].
      destruct (dget (b_protos (y_cbs t)) p) as [st|]; [|cbn in X; congruence]. destruct (p_app st) as [b|]; [|cbn in X; congruence]. unfold await_made in X.
      rewrite E in X. destruct (dget (y_obs s) b) as [[|]|]; cbn [fst with_call with_obs y_obs] in X; [exact (Del b X)| |]; rewrite E in X; exact X. }
    destruct e as [k l|k l|k ok|k|c p|e|b|k| |k]; cbn [y_step] in H.
    + destruct (dhas (y_calls s) k); [discriminate|]. unfold begin in H. left. destruct (dget (y_conns s) l) as [[c|]|]; [|injection H as <- <-; exact O..].
      pose proof (R k KConnect c s eq_refl) as Z. destruct (request k KConnect c s). injection H as <- <-. exact (Z O).
    + destruct (dhas (y_calls s) k); [discriminate|]. unfold begin in H. left. destruct (dget (y_conns s) l) as [[c|]|]; [|injection H as <- <-; exact O..].
      pose proof (R k KListen c s eq_refl) as Z. destruct (request k KListen c s). injection H as <- <-. exact (Z O).
    + left. destruct (dget (y_calls s) k) as [[l c kd| | | | | | |]|] eqn:D; try discriminate. destruct ok; [|injection H as <- <-; exact O].
      match type of H with Some (request _ _ _ ?t) = _ => pose proof (R k kd c t eq_refl) as Z; destruct (request k kd c t) end. injection H as <- <-. exact (Z O).
    + left. destruct (dget (y_calls s) k) as [[|l kd| | | | | |]|] eqn:D; try discriminate. destruct (dget (y_conns s) l) as [[c|]|]; [|injection H as <- <-; exact O..].
      pose proof (R k kd c s eq_refl) as Z. destruct (request k kd c s). injection H as <- <-. exact (Z O).
    + destruct (dget (y_ctrl s) c) as [x|]; [|discriminate]. destruct (handle p x) as [x' lg].
      assert (P0 : forall s' g', Some (with_ctrl c x' s, @nil ylog) = Some (s', g') -> dget (y_obs s') a = Some false -> dget (y_obs s) a = Some false \/ exists p, In (YLBuilt a p) g') by (intros t h Z W; injection Z as <- <-; now left).
      destruct lg as [? ?|?|?|? [[[id kd] tcp]|] ? ?]; try (eapply P0; eassumption).
      destruct (dget (y_factory s) (c, id)) as [k|]; [|eapply P0; eassumption]. clear P0.
      match type of H with context [cb_apply ?e ?t] => pose proof (cb_obs e t a) as Z; destruct (cb_apply e t) end. injection H as <- <-. destruct (Z O) as [W|[q W]]; [left; exact W|right; exists q; now right].
    + assert (B : forall e0 t h, Some (cb_apply e0 s) = Some (t, h) -> dget (y_obs t) a = Some false -> dget (y_obs s) a = Some false \/ exists p, In (YLBuilt a p) h).
      { intros e0 t h X W. pose proof (cb_obs e0 s a) as Z. destruct (cb_apply e0 s). injection X as <- <-. exact (Z W). }
      destruct e as [p port|port n|p d|p|id]; try discriminate H; try (eapply B; eassumption). destruct (dhas _ p); [discriminate|eapply B; eassumption].
    + left. destruct (dget (y_obs s) b) eqn:E; injection H as <- <-; [|exact O]. cbn [with_obs y_obs] in O. rewrite dset_get in O. destruct (eq_dec a b); [discriminate|exact O].
    + left. destruct (dget (y_calls s) k) as [[|l kd|c id kd|c id|p b| | |]|] eqn:D; try discriminate.
      * destruct (dget (y_ctrl s) c) as [x|]; [|discriminate]. destruct (dget (c_fut x) id) as [[| |[i port|]]|]; try discriminate; [|injection H as <- <-; exact O].
        destruct kd; [|injection H as <- <-; exact O].
        match type of H with Some (look _ _ _ ?t) = _ => pose proof (Lk k c i t eq_refl) as Z; destruct (look k c i t) end. injection H as <- <-. exact (Z O).
      * destruct (smem (y_woken s) k) eqn:W; [|discriminate].
        match type of H with Some (look _ _ _ ?t) = _ => pose proof (Lk k c id t eq_refl) as Z; destruct (look k c id t) end. injection H as <- <-. exact (Z O).
      * destruct (dget (y_obs s) b) as [[|]|]; [|discriminate|]; injection H as <- <-; [exact (Del b O)|exact O].
    + left. destruct (y_notify s) as [|n] eqn:N; [discriminate|]. injection H as <- <-. destruct (y_wait s); exact O.
    + left. destruct (dget (y_calls s) k) as [[|l kd|c id kd|c id|p b| | |]|] eqn:D; try discriminate; [|injection H as <- <-; exact O].
      destruct (dget (y_ctrl s) c) as [x|] eqn:X; [|discriminate]. destruct (dget (c_fut x) id) as [[| |]|] eqn:Fx; try discriminate. injection H as <- <-. exact O.
Qed.
Lemma run_obs es s g a : y_run es sys_new = Some (s, g) -> dget (y_obs s) a = Some false -> exists g1 p g2, g = g1 ++ YLBuilt a p :: g2 /\ ~ In (YLMade a) g2.
Proof.
  revert s g. induction es as [|e es IH] using rev_ind; intros s g H O; [injection H as <- <-; discriminate O|].
  apply run_snoc in H as (s1 & h1 & h2 & A & B & ->). destruct (run_inv _ _ _ A) as [Y _]. destruct (step_obs _ _ _ _ _ (z_obsk _ _ Y) B O) as [N [X|[p X]]].
  - destruct (IH _ _ A X) as (g1 & p & g2 & -> & M). exists g1, p, (g2 ++ h2). split; [now rewrite <- app_assoc|]. intros I. apply in_app_or in I as [I|I]; auto.
  - apply in_split in X as (r1 & r2 & ->). exists (h1 ++ r1), p, r2. split; [now rewrite <- app_assoc|]. intros I. apply N. apply in_or_app. right. now right.
Qed.

Lemma run_pc es s g k l : y_run es sys_new = Some (s, g) -> In (VConnect k l) es -> wants (dget (y_calls s) k) = true \/ final (dget (y_calls s) k) = true.
Proof.
  revert s g. induction es as [|e es IH] using rev_ind; intros s g H I; [destruct I|]. apply run_snoc in H as (s1 & h1 & h2 & A & B & ->).
  apply in_app_or in I as [I|[->|[]]].
  - specialize (IH _ _ A I). destruct (moved_all _ _ _ _ k B) as [E|(_ & x & X & P)]; [now rewrite E|]. rewrite X.
    destruct IH as [IH|IH]; destruct (dget (y_calls s1) k) as [[? ? []|? []|? ? []|? ?|? ?|? ?|? ?|]|]; try discriminate IH; cbn [pc_next] in P; try (destruct P; fail);
      repeat match goal with H : _ \/ _ |- _ => destruct H | H : exists _, _ |- _ => destruct H | H : _ /\ _ |- _ => destruct H end; subst; cbn; auto.
  - left. cbn [y_step] in B. unfold begin, dhas, request in B. destruct (dget (y_calls s1) k); [discriminate|].
    destruct (dget (y_conns s1) l) as [[c|]|] eqn:C; [|injection B as <- <-; rewrite wc_get; reflexivity..].
    destruct (run_inv _ _ _ A) as [_ Cn]. destruct (dget (y_ctrl s1) c) eqn:D; [|elim (Cn l c C D)]. injection B as <- <-. rewrite wc_get; reflexivity.
Qed.
Lemma waiting es s g k l : one_at_a_time es -> y_run es sys_new = Some (s, g) -> quiet s -> In (VConnect k l) es -> ~ ended k g ->
  y_step (VTcp k true) s <> None \/ y_step (VPoll k) s <> None \/
  exists c id, In (YLReq k c id KConnect) g /\
    (unanswered c id s \/ get_connections (y_cbs s) id = [] \/
     exists a c' k' g1 p g2, In (YLApp a k' c' id) g /\ g = g1 ++ YLBuilt a p :: g2 /\ ~ In (YLMade a) g2).
Proof.
  intros O H [Q1 Q2] I N. destruct (run_inv _ _ _ H) as [Y _]. destruct (run_vi _ _ _ H) as [_ F].
  assert (W2 : wants (dget (y_calls s) k) = true).
  { destruct (run_pc _ _ _ _ _ H I) as [W|E]; [exact W|]. elim N. apply endsn_pos. rewrite (run_count _ _ _ _ H), E. cbn. lia. }
  specialize (Q2 k). destruct (dget (y_calls s) k) as [[m c kd|m kd|c id []|c id|p a| | |]|] eqn:D; try discriminate W2.
  - left. cbn [y_step]. rewrite D. discriminate.
  - right. left. cbn [y_step]. rewrite D. destruct (dget (y_conns s) m) as [[c|]|]; discriminate.
  - right. right. exists c, id. pose proof (z_fut _ _ Y _ _ _ _ D) as R.
    split; [exact R|]. left. destruct (F _ _ _ _ D) as (x & P & [Q|[o Q]]); [exists x; now split|]. exfalso. cbn [y_step] in Q2. rewrite D, P, Q in Q2. destruct o; discriminate.
  - right. right. exists c, id. split; [exact (z_conns _ _ Y _ _ _ D)|]. right. left.
    destruct (run_qi _ _ _ H) as [Qi _]. assert (In k (y_wait s ++ y_woken s)) as X by (apply Qi; now rewrite D). apply in_app_or in X as [X|X].
    + destruct (get_connections (y_cbs s) id) eqn:G; [reflexivity|]. exfalso. assert (0 < y_notify s); [apply (run_ni _ _ _ O H k c id X D); unfold spw; unfold get_connections in G; congruence|].
      cbn [y_step] in Q1. destruct (y_notify s); [lia|discriminate].
    + exfalso. cbn [y_step] in Q2. rewrite D in Q2. apply smem_true in X. rewrite X in Q2. discriminate.
  - right. right. destruct (z_made _ _ Y _ _ _ D) as [(c & id & R & (c' & k' & A)) B]. exists c, id. split; [exact R|]. right. right.
    cbn [y_step] in Q2. rewrite D in Q2. destruct (dget (y_obs s) a) as [[|]|] eqn:Ob; try discriminate.
    destruct (run_obs _ _ _ _ H Ob) as (g1 & q & g2 & E & M). exists a, c', k', g1, q, g2. auto.
Qed.
