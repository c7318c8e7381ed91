From Coq Require Import List ZArith Bool Lia.
From Verif Require Import PyBase ObserveModel ObserveSpec.
Import ListNotations.
Open Scope nat_scope.

Lemma fset_same {A} (f : nat -> A) k v : fset f k v k = v.
Proof. unfold fset. now rewrite Nat.eqb_refl. Qed.
Lemma fset_other {A} (f : nat -> A) k v x : x <> k -> fset f k v x = f x.
Proof. unfold fset. intros. destruct (Nat.eqb_spec x k); congruence. Qed.

Record sess_ok (s : pst) (o : ost) (p : nat) (x : sess) : Prop := SessOk {
  so_obs : s_obs s p = Some (x_id x);
  so_lt : x_id x < s_next s;
  so_proto : ad_proto (s_ad s (x_id x)) = p;
  so_orig : forall k, ad_orig (s_ad s (x_id x)) k = Some MOrig;
  so_ls : ad_listeners (s_ad s (x_id x)) = x_ls x;
  so_ne : x_ls x <> [];
  so_tr : ad_transport (s_ad s (x_id x)) = x_tap x;
  so_slot : forall k, s_slot s p k = Some (MWrap (x_id x));
  so_tap : match x_tap x with
           | None => ad_write (s_ad s (x_id x)) = None
           | Some t => ad_write (s_ad s (x_id x)) = Some MOrig /\ s_write s t = MWrap (x_id x) /\ o_tap o t = Some p
           end }.

Record Inv (s : pst) (o : ost) : Prop := InvI {
  i_out : s_out s = o_out o;
  i_next : s_next s = o_next o;
  i_trans : forall p, s_ptrans s p = o_trans o p;
  i_sess : forall p, match o_sess o p with
             | Some x => sess_ok s o p x
             | None => s_obs s p = None /\ forall k, s_slot s p k = Some MOrig
             end;
  i_tap : forall t, match o_tap o t with
             | None => s_write s t = MOrig
             | Some p => exists x, o_sess o p = Some x /\ x_tap x = Some t
             end }.

Lemma inv_new : Inv pst0 ost0.
Proof. constructor; simpl; auto. Qed.

Definition rel (r : result) (q : oresult) : Prop :=
  match snd q with
  | Misuse => True
  | Fine => snd r = None /\ Inv (fst r) (fst q)
  | Exn x => snd r = Some x /\ Inv (fst r) (fst q)
  end.
Lemma rel_then r q f g : rel r q -> (forall s o, Inv s o -> q = (o, Fine) -> rel (f s) (g o)) ->
  rel (andThen r f) (oThen q g).
Proof.
  unfold rel at 1, andThen, oThen. destruct r as [s e], q as [o v]. simpl. intros R H. destruct v.
  - destruct R as [-> R]. now apply H.
  - destruct R as [-> R]. unfold rel. simpl. auto.
  - exact I.
Qed.

Lemma inv_emit s o x : Inv s o -> Inv (emit x s) (oemit x o).
Proof.
  intros [A B C D E]. constructor; simpl; auto.
  - now rewrite A.
  - intros p. specialize (D p). destruct (o_sess o p); auto. destruct D; constructor; auto.
Qed.

Lemma inv_trans s o p t : Inv s o ->
  Inv (set_ptrans p t s) (Ost (o_sess o) (o_tap o) (fset (o_trans o) p t) (o_next o) (o_out o)).
Proof.
  intros [A B C D E]. constructor; simpl; auto.
  - intros q. unfold fset. destruct (q =? p); auto.
  - intros q. specialize (D q). destruct (o_sess o q); auto. destruct D; constructor; auto.
Qed.

(** two sessions of different protocols have different numbers *)
Lemma inv_distinct s o p q x y : Inv s o -> o_sess o p = Some x -> o_sess o q = Some y -> p <> q -> x_id x <> x_id y.
Proof.
  intros I P Q N E. pose proof (i_sess _ _ I p) as A. pose proof (i_sess _ _ I q) as B. rewrite P in A. rewrite Q in B.
  pose proof (so_proto _ _ _ _ A). pose proof (so_proto _ _ _ _ B). congruence.
Qed.

Lemma set_add_ne l ls : set_add l ls <> [].
Proof. unfold set_add. destruct (existsb (Nat.eqb l) ls) eqn:E; [|destruct ls; discriminate]. destruct ls; discriminate. Qed.

Lemma inv_listen s o p l : Inv s o -> Inv (listen p l s) (o_listen p l o).
Proof.
  intros I. pose proof I as [A B C D E]. unfold listen, enable, o_listen. pose proof (D p) as Dp.
  destruct (o_sess o p) as [x|] eqn:P.
  - rewrite (so_obs _ _ _ _ Dp). cbv zeta. rewrite (so_obs _ _ _ _ Dp).
    constructor; cbn [s_out o_out s_next o_next s_ptrans o_trans o_sess o_tap set_ad s_write]; auto.
    + intros q. destruct (Nat.eq_dec q p) as [->|N].
      * rewrite fset_same. destruct Dp. constructor; cbn [x_id x_ls x_tap set_ad s_obs s_next s_ad s_slot s_write o_tap];
          rewrite ?fset_same; cbn [with_listeners ad_proto ad_orig ad_transport ad_write ad_listeners]; auto.
        -- now rewrite so_ls0.
        -- apply set_add_ne.
      * rewrite fset_other by auto. specialize (D q). destruct (o_sess o q) as [y|] eqn:Q; auto.
        pose proof (inv_distinct _ _ _ _ _ _ I Q P N) as Nd.
        destruct D. constructor; cbn [set_ad s_obs s_next s_ad s_slot s_write o_tap]; rewrite ?(fset_other (s_ad s)) by auto; auto.
    + intros t. specialize (E t). destruct (o_tap o t) as [q|]; auto. destruct E as (y & Y & T).
      destruct (Nat.eq_dec q p) as [->|N]; [|exists y; now rewrite fset_other].
      exists (Sess (x_id x) (set_add l (x_ls x)) (x_tap x)). rewrite fset_same. split; auto. simpl. congruence.
  - destruct Dp as [O Sl]. rewrite O. cbv zeta. cbn [s_obs]. rewrite fset_same.
    constructor; cbn [s_out o_out s_next o_next s_ptrans o_trans o_sess o_tap set_ad s_write]; auto.
    + intros q. destruct (Nat.eq_dec q p) as [->|N].
      * rewrite fset_same. constructor; cbn [x_id x_ls x_tap set_ad s_obs s_next s_ad s_slot s_write o_tap];
          rewrite <- ?B, ?fset_same; cbn [with_listeners ad_proto ad_orig ad_transport ad_write ad_listeners s_ad]; rewrite ?fset_same; cbn; auto.
        discriminate.
      * rewrite fset_other by auto. specialize (D q). destruct (o_sess o q) as [y|] eqn:Q.
        -- pose proof (so_lt _ _ _ _ D). destruct D. constructor; cbn [set_ad s_obs s_next s_ad s_slot s_write o_tap];
             rewrite ?(fset_other (s_obs s)), ?(fset_other (s_slot s)) by auto; rewrite ?fset_other by lia; rewrite ?(fset_other (s_ad s)) by lia; auto.
        -- cbn [set_ad s_obs s_slot]. rewrite !fset_other by auto. auto.
    + intros t. specialize (E t). destruct (o_tap o t) as [q|]; auto. destruct E as (y & Y & T).
      destruct (Nat.eq_dec q p) as [->|N]; [congruence|]. exists y. now rewrite fset_other.
Qed.

(** the end of a session: the listeners' list may already have been emptied *)
Lemma inv_restore s s' o p x : Inv s o -> o_sess o p = Some x ->
  s_slot s' = s_slot s -> s_write s' = s_write s -> s_ptrans s' = s_ptrans s -> s_next s' = s_next s ->
  s_obs s' = s_obs s -> s_out s' = s_out s -> (forall a, a <> x_id x -> s_ad s' a = s_ad s a) ->
  let d := s_ad s' (x_id x) in
  ad_orig d = ad_orig (s_ad s (x_id x)) -> ad_transport d = ad_transport (s_ad s (x_id x)) ->
  ad_write d = ad_write (s_ad s (x_id x)) ->
  Inv (restore (x_id x) p s') (o_end p o).
Proof.
  intros I P F1 F2 F3 F4 F5 F6 F7 d Ho Ht Hw. pose proof I as [A B C D E]. pose proof (D p) as Dp. rewrite P in Dp.
  unfold restore, o_end. rewrite P. fold d.
  rewrite Ht, Hw, Ho, F1, F2, F3, F4, F5, F6. pose proof (so_tr _ _ _ _ Dp) as Tr. pose proof (so_tap _ _ _ _ Dp) as Tp. rewrite Tr.
  assert (W : forall t, match x_tap x with Some u => match ad_write (s_ad s (x_id x)) with Some w => fset (s_write s) u w | None => s_write s end | None => s_write s end t
                        = match x_tap x with Some u => if t =? u then MOrig else s_write s t | None => s_write s t end).
  { intros t. destruct (x_tap x) as [u|]; auto. destruct Tp as (-> & _). reflexivity. }
  constructor; cbn [s_out o_out s_next o_next s_ptrans o_trans o_sess o_tap s_write s_obs s_slot]; auto.
  - intros q. destruct (Nat.eq_dec q p) as [->|N].
    + rewrite !fset_same. split; auto. intros k. apply (so_orig _ _ _ _ Dp).
    + rewrite !fset_other by auto. specialize (D q). destruct (o_sess o q) as [y|] eqn:Q; auto.
      pose proof (inv_distinct _ _ _ _ _ _ I Q P N) as Nd.
      destruct D as [D1 D2 D3 D4 D5 D6 D7 D8 D9]. constructor; cbn [s_obs s_next s_ad s_slot s_write o_tap]; rewrite ?(fset_other (s_obs s)), ?(fset_other (s_slot s)) by auto;
        rewrite ?fset_other by auto; rewrite ?F7 by auto; auto.
      destruct (x_tap y) as [t|] eqn:Ty; auto. destruct D9 as (W1 & W2 & W3). split; auto. rewrite W.
      destruct (x_tap x) as [u|]; auto. destruct Tp as (_ & _ & U).
      assert (t <> u) by (intros ->; congruence).
      rewrite fset_other by auto. destruct (Nat.eqb_spec t u); [congruence|]. auto.
  - intros t. rewrite W. specialize (E t). destruct (x_tap x) as [u|].
    + destruct Tp as (W1 & W2 & W3). unfold fset at 1. destruct (Nat.eqb_spec t u) as [->|Nt]; auto.
      destruct (o_tap o t) as [q|] eqn:Tq; auto. destruct E as (y & Y & T).
      destruct (Nat.eq_dec q p) as [->|N]; [|exists y; now rewrite fset_other].
      exfalso. assert (x = y) by congruence. subst y. pose proof (D p) as Dp2. rewrite P in Dp2.
      pose proof (so_tap _ _ _ _ Dp2) as Z. rewrite T in Z. pose proof (so_tr _ _ _ _ Dp2). congruence.
    + destruct (o_tap o t) as [q|]; auto. destruct E as (y & Y & T).
      destruct (Nat.eq_dec q p) as [->|N]; [|exists y; now rewrite fset_other].
      exfalso. assert (x = y) by congruence. subst y. pose proof (so_tr _ _ _ _ Dp). congruence.
Qed.

Lemma remove_absent l ls : existsb (Nat.eqb l) ls = false -> set_remove l ls = ls.
Proof.
  induction ls as [|y r IH]; simpl; auto. intros H. apply orb_false_iff in H as [H1 H2].
  rewrite Nat.eqb_sym, H1. simpl. now rewrite IH.
Qed.

Lemma inv_stop s o p l : Inv s o -> Inv (stop p l s) (o_stop p l o).
Proof.
  intros I. pose proof I as [A B C D E]. unfold stop, o_stop. pose proof (D p) as Dp.
  destruct (o_sess o p) as [x|] eqn:P; [|destruct Dp as [-> _]; auto].
  rewrite (so_obs _ _ _ _ Dp), (so_ls _ _ _ _ Dp).
  destruct (existsb (Nat.eqb l) (x_ls x)) eqn:Ex.
  - cbn [set_ad s_ad]. rewrite fset_same. cbn [with_listeners ad_listeners]. rewrite (so_ls _ _ _ _ Dp).
    destruct (set_remove l (x_ls x)) as [|z r] eqn:R.
    + eapply inv_restore; eauto; cbn [set_ad s_ad]; rewrite ?fset_same; auto.
      intros a Na. now rewrite fset_other.
    + constructor; cbn [s_out o_out s_next o_next s_ptrans o_trans o_sess o_tap set_ad s_write]; auto.
      * intros q. destruct (Nat.eq_dec q p) as [->|N].
        -- rewrite fset_same. destruct Dp. constructor; cbn [x_id x_ls x_tap set_ad s_obs s_next s_ad s_slot s_write o_tap];
             rewrite ?fset_same; cbn [with_listeners ad_proto ad_orig ad_transport ad_write ad_listeners]; auto.
           ++ now rewrite so_ls0.
           ++ discriminate.
        -- rewrite fset_other by auto. specialize (D q). destruct (o_sess o q) as [y|] eqn:Q; auto.
           pose proof (inv_distinct _ _ _ _ _ _ I Q P N) as Nd.
           destruct D. constructor; cbn [set_ad s_obs s_next s_ad s_slot s_write o_tap]; rewrite ?(fset_other (s_ad s)) by auto; auto.
      * intros t. specialize (E t). destruct (o_tap o t) as [q|]; auto. destruct E as (y & Y & T).
        destruct (Nat.eq_dec q p) as [->|N]; [|exists y; now rewrite fset_other].
        exists (Sess (x_id x) (z :: r) (x_tap x)). rewrite fset_same. split; auto. simpl. congruence.
  - rewrite (remove_absent _ _ Ex). destruct (x_ls x) as [|z r] eqn:R; auto.
    constructor; cbn; auto.
    * intros q. destruct (Nat.eq_dec q p) as [->|N].
      -- rewrite fset_same. destruct Dp; constructor; simpl; auto; try congruence; discriminate.
      -- rewrite fset_other by auto. specialize (D q). destruct (o_sess o q); auto. destruct D; constructor; auto.
    * intros t. specialize (E t). destruct (o_tap o t) as [q|]; auto. destruct E as (y & Y & T).
      destruct (Nat.eq_dec q p) as [->|N]; [|exists y; now rewrite fset_other].
      eexists. rewrite fset_same. split; auto. simpl. congruence.
Qed.

Lemma inv_tapping s o p t x : Inv s o -> o_sess o p = Some x ->
  rel (transportData (x_id x) t s, None) (o_tapping p t o).
Proof.
  intros I P. pose proof I as [A B C D E]. pose proof (D p) as Dp. rewrite P in Dp. unfold o_tapping. rewrite P.
  destruct (x_tap x) as [u|] eqn:Tx; [exact Logic.I|]. destruct (o_tap o t) as [q|] eqn:To; [exact Logic.I|].
  pose proof (E t) as Et. rewrite To in Et.
  unfold rel; cbn [fst snd]. split; auto. unfold transportData.
  constructor; cbn [s_out o_out s_next o_next s_ptrans o_trans o_sess o_tap s_write s_obs s_slot]; auto.
  - intros q. destruct (Nat.eq_dec q p) as [->|N].
    + rewrite fset_same. destruct Dp as [D1 D2 D3 D4 D5 D6 D7 D8 D9]. constructor; cbn [x_id x_ls x_tap s_obs s_next s_ad s_slot s_write o_tap];
        rewrite ?fset_same; cbn [ad_proto ad_orig ad_transport ad_write ad_listeners]; auto.
      rewrite Et. auto.
    + rewrite fset_other by auto. specialize (D q). destruct (o_sess o q) as [y|] eqn:Q; auto.
      pose proof (inv_distinct _ _ _ _ _ _ I Q P N) as Nd.
      destruct D as [D1 D2 D3 D4 D5 D6 D7 D8 D9]. constructor; cbn [s_obs s_next s_ad s_slot s_write o_tap]; rewrite ?(fset_other (s_ad s)) by auto; auto.
      destruct (x_tap y) as [v|] eqn:Ty; auto. destruct D9 as (W1 & W2 & W3).
      assert (v <> t) by (intros ->; congruence). rewrite !fset_other by auto. auto.
  - intros v. destruct (Nat.eq_dec v t) as [->|N].
    + rewrite fset_same. eexists. rewrite fset_same. split; auto.
    + rewrite !fset_other by auto. specialize (E v). destruct (o_tap o v) as [q|]; auto. destruct E as (y & Y & T).
      destruct (Nat.eq_dec q p) as [->|Nq]; [congruence|]. exists y. now rewrite fset_other.
Qed.

Section Sim.
Variables (E : env) (f : op -> pst -> result) (g : op -> ost -> oresult).
Hypothesis H : forall o s q, Inv s q -> rel (f o s) (g o q).

Lemma sim_seq ops : forall s o, Inv s o -> rel (seq f ops s) (oseq g ops o).
Proof.
  induction ops as [|c r IH]; intros s o I; cbn [seq oseq]; [split; auto|].
  apply rel_then; [now apply H|]. intros. now apply IH.
Qed.
Lemma sim_perform r s o : Inv s o -> rel (perform f r s) (operform g r o).
Proof.
  intros I. unfold perform, operform. apply rel_then; [now apply sim_seq|].
  intros s1 o1 I1 _. unfold rel. simpl. destruct (r_throw r); simpl; auto.
Qed.

Lemma same_audience_sess x o p : same_audience x o p = true ->
  exists y, o_sess o p = Some y /\ x_id y = x_id x /\ x_ls y = x_ls x.
Proof.
  unfold same_audience. destruct (o_sess o p) as [y|]; [|discriminate]. intros E0.
  apply andb_true_iff in E0 as [E1 E2]. apply Nat.eqb_eq in E1. destruct (list_eq_dec Nat.eq_dec (x_ls y) (x_ls x)); [|discriminate]. eauto.
Qed.

Lemma sim_tell x p e : forall ls s o, Inv s o ->
  rel (notify E f (x_id x) p e (length (x_ls x)) ls s) (otell E g x p e ls o).
Proof.
  induction ls as [|l r IH]; intros s o I; cbn [notify otell]; [split; auto|].
  rewrite <- (i_out _ _ I). apply rel_then; [apply sim_perform; now apply inv_emit|].
  intros s1 o1 I1 _. destruct (same_audience x o1 p) eqn:Sm; [|exact Logic.I].
  destruct (same_audience_sess _ _ _ Sm) as (y & Y & Yi & Yl).
  pose proof (i_sess _ _ I1 p) as Dp. rewrite Y in Dp. rewrite <- Yi, (so_ls _ _ _ _ Dp), Yl, Nat.eqb_refl.
  rewrite Yi. now apply IH.
Qed.
Lemma tell_sess x p e : forall ls o o1,
  (exists y, o_sess o p = Some y /\ x_id y = x_id x /\ x_ls y = x_ls x) -> otell E g x p e ls o = (o1, Fine) ->
  exists y, o_sess o1 p = Some y /\ x_id y = x_id x /\ x_ls y = x_ls x.
Proof.
  induction ls as [|l r IH]; intros o o1 P T; cbn [otell] in T; [inversion T; subst; auto|].
  unfold oThen in T. destruct (operform g _ _) as [o2 v] eqn:Op; cbn [snd fst] in T. destruct v; try (inversion T; fail).
  destruct (same_audience x o2 p) eqn:Sm; [|inversion T]. apply (IH o2); auto. now apply same_audience_sess.
Qed.

Lemma sim_report p e s o : Inv s o -> rel (report E f p e s) (oreport E g p e o).
Proof.
  intros I. unfold report, oreport. pose proof (i_sess _ _ I p) as Dp. destruct (o_sess o p) as [x|] eqn:P.
  - rewrite (so_obs _ _ _ _ Dp), (so_ls _ _ _ _ Dp). apply rel_then; [now apply sim_tell|].
    intros s1 o1 I1 T. destruct (tell_sess x p e _ _ _ (ex_intro _ x (conj P (conj eq_refl eq_refl))) T) as (y & Y & Yi & Yl).
    destruct e.
    + destruct (style E p); [..|split; auto]; rewrite <- (i_trans _ _ I1 p);
        (destruct (s_ptrans s1 p); [rewrite <- Yi; now apply inv_tapping|split; auto]).
    + split; auto. cbn [fst]. rewrite <- Yi. eapply inv_restore; eauto.
    + split; auto.
    + split; auto.
  - destruct Dp as [-> _]. split; auto.
Qed.

Lemma sim_own p e s o : Inv s o -> rel (own E f p e s) (oown E g p e o).
Proof.
  intros I. unfold own, oown. rewrite (i_out _ _ I). apply sim_perform. apply inv_emit.
  destruct e; auto. destruct (style E p); auto. now apply inv_trans.
Qed.

Lemma sim_call p e s o : Inv s o -> rel (call E f p e s) (ocall E g p e o).
Proof.
  intros I. unfold call, ocall. pose proof (i_sess _ _ I p) as Dp. destruct (o_sess o p) as [x|] eqn:P.
  - rewrite (so_slot _ _ _ _ Dp). cbn [chain]. rewrite (so_orig _ _ _ _ Dp).
    assert (C : forall n attr, chain n attr (Some MOrig) = inr []) by (destruct n; reflexivity). rewrite C.
    cbn [map]. rewrite (so_proto _ _ _ _ Dp). apply rel_then; [now apply sim_own|].
    intros s1 o1 I1 _. cbn [reports]. unfold andThen. cbn [snd fst]. now apply sim_report.
  - destruct Dp as [_ Sl]. rewrite Sl. cbn [chain map]. apply rel_then; [now apply sim_own|].
    intros s1 o1 I1 _. split; auto.
Qed.
Lemma sim_write t d s o : Inv s o -> rel (call_write E f t d s) (owrite E g t d o).
Proof.
  intros I. unfold call_write, owrite. pose proof (i_tap _ _ I t) as T. rewrite (i_out _ _ I). destruct (o_tap o t) as [p|] eqn:Tp.
  - destruct T as (x & P & Tx). pose proof (i_sess _ _ I p) as Dp. rewrite P in Dp.
    pose proof (so_tap _ _ _ _ Dp) as Z. rewrite Tx in Z. destruct Z as (Z1 & Z2 & _). rewrite Z2. cbn [chain]. rewrite Z1.
    assert (C : forall n attr, chain n attr (Some MOrig) = inr []) by (destruct n; reflexivity). rewrite C.
    cbn [map]. rewrite (so_proto _ _ _ _ Dp). apply rel_then; [apply sim_perform; now apply inv_emit|].
    intros s1 o1 I1 _. cbn [reports]. unfold andThen. cbn [snd fst]. now apply sim_report.
  - rewrite T. cbn [chain map]. apply rel_then; [apply sim_perform; now apply inv_emit|].
    intros s1 o1 I1 _. split; auto.
Qed.
End Sim.

Lemma sim_exec E n : forall c s o, Inv s o -> rel (exec E n c s) (oexec E n c o).
Proof.
  induction n as [|n IH]; intros c s o I; destruct c; cbn [exec oexec];
    try (split; cbn [fst snd]; auto using inv_listen, inv_stop; fail); try (apply sim_call; auto); apply sim_write; auto.
Qed.
Lemma sim_run E n ops : forall s o o', Inv s o -> orun E n ops o = Some o' -> Inv (run E n ops s) o'.
Proof.
  induction ops as [|c r IH]; intros s o o' I R; cbn [run orun] in *; [now inversion R; subst|].
  pose proof (sim_exec E n c s o I) as S. destruct (exec E n c s) as [s1 e], (oexec E n c o) as [o1 v]. unfold rel in S. cbn [fst snd] in S.
  destruct v; [|..]; try discriminate; destruct S as [-> S]; eapply IH; eauto. now apply inv_emit.
Qed.
