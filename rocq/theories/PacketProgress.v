(** * Arbitrary input: the Deserializer always makes progress, and what it
      delivers is well formed *)
From Coq Require Import List ZArith Bool Lia.
From Verif Require Import PyBase PyLemmas Utf8Model Utf8Proofs StreamModel StreamProofs AddrModel FloatModel FloatSpec FloatProofs PacketModel PacketSpec PacketTags PacketExec PacketRound PacketDeser.
Import ListNotations.
Open Scope Z_scope.

(** ** Progress *)
Fixpoint wfq {A} (p : prog A) (pos : Z) : Prop :=
  match p with
  | PRet _ | PFail _ => True
  | PNeed _ o k => wfq o pos /\ forall b pos', wfq (k b) pos'
  | PSync start o k => start = pos /\ wfq o pos /\ forall s l pos', wfq (k s l) pos'
  | PTell k => wfq (k pos) pos
  | PSetMax _ p => wfq p pos
  | PReadSome _ p => forall pos', wfq p pos'
  end.
Lemma wfq_bind {A B} (p : prog A) (f : A -> prog B) : (forall a pos, wfq (f a) pos) -> forall pos, wfq p pos -> wfq (pbind p f) pos.
Proof. intro F. induction p; cbn; intros pos H'; intuition auto. Qed.
Lemma wfq_wrap {A} (p : prog A) : forall pos, wfq p pos -> wfq (pwrap p) pos.
Proof. induction p; cbn; intros pos H'; intuition auto. Qed.
Lemma wfq_lift {A} (r : res A) pos : wfq (plift r) pos.
Proof. destruct r; exact I. Qed.
Lemma wfq_need {A} n (k : bytes -> prog A) pos : (forall b q, wfq (k b) q) -> wfq (need n k) pos.
Proof. intro H. cbn. auto. Qed.

Section FtyInd.
  Variable P : fty -> Prop.
  Hypotheses (H1 : forall s, P (TScalar s)) (H2 : P TString) (H3 : P TBuffer)
    (H4 : forall t, P t -> P (TList t)) (H5 : forall fs, Forall (fun f => P (snd f)) fs -> P (TFields fs)) (H6 : forall b, P (TPacket b)).
  Fixpoint fty_ind2 (t : fty) : P t :=
    match t with
    | TScalar s => H1 s | TString => H2 | TBuffer => H3 | TList t => H4 t (fty_ind2 t)
    | TFields fs => H5 fs ((fix go (l : list (pystr * fattr * fty)) : Forall (fun f => P (snd f)) l :=
                              match l with [] => Forall_nil _ | x :: r => Forall_cons x (fty_ind2 (snd x)) (go r) end) fs)
    | TPacket b => H6 b
    end.
End FtyInd.

Lemma wfq_items elem : (forall q, wfq elem q) -> forall n acc pos, wfq (dec_items elem n acc) pos.
Proof. intros H n. induction n as [|n IH]; intros acc pos; cbn; [exact I|]. apply wfq_bind; [intros; apply IH|apply wfq_wrap, H]. Qed.
Lemma wfq_loop tags decs : Forall (fun d => forall c q, wfq (d c) q) decs -> forall n cur pos, wfq (dec_fields_loop tags decs n cur) pos.
Proof.
  intros H n. induction n as [|n IH]; intros cur pos; cbn [dec_fields_loop]; [exact I|]. apply wfq_need. intros b q.
  destruct (index_of (be_dec b) tags) as [i|]; [|destruct (be_dec b <? 200); exact I].
  apply wfq_bind; [intros; apply IH|apply wfq_wrap].
  destruct (Nat.lt_ge_cases i (length decs)) as [L|L].
  - apply (proj1 (Forall_forall _ _) H). apply nth_In. exact L.
  - rewrite nth_overflow by exact L. exact I.
Qed.
Lemma wfq_fields fds decs cur pos : Forall (fun d => forall c q, wfq (d c) q) decs -> wfq (dec_fields fds decs cur) pos.
Proof. intro H. unfold dec_fields. apply wfq_bind; [|apply wfq_lift]. intros tags q. apply wfq_need. intros. apply wfq_loop, H. Qed.
Lemma wfq_ty rp : (forall b q, wfq (rp b) q) -> forall t cur pos, wfq (dec_ty rp t cur) pos.
Proof.
  intros R t. induction t as [s| | |t IH|fs IH|b] using fty_ind2; intros cur pos; cbn [dec_ty].
  - unfold dec_scalar. apply wfq_bind; [|apply wfq_lift]. intros w q. apply wfq_need. intros b q'. apply wfq_bind; [|apply wfq_lift]. intros; exact I.
  - unfold dec_string. apply wfq_need. intros b q. apply wfq_need. intros b' q'. apply wfq_bind; [|apply wfq_lift]. intros; exact I.
  - unfold dec_buffer. apply wfq_need. intros b q. apply wfq_need. intros; exact I.
  - unfold dec_list. apply wfq_need. intros b q. apply wfq_items. intros. apply IH.
  - apply wfq_bind; [intros [a []] q; exact I|]. apply wfq_fields. apply Forall_map. eapply Forall_impl; [|exact IH]. auto.
  - apply R.
Qed.
Lemma wfq_packet E depth : forall base pos, wfq (dec_packet E depth base) pos.
Proof.
  induction depth as [|d IH]; intros base pos; cbn [dec_packet]; [exact I|].
  cbn [wfq]. split; [reflexivity|]. split; [exact I|]. intros s l q. cbn [wfq].
  apply wfq_need. intros b1 q1. apply wfq_need. intros b2 q2. apply wfq_bind; [|apply wfq_lift]. intros name q3.
  apply wfq_need. intros b3 q4. apply wfq_need. intros b4 q5. apply wfq_bind; [|apply wfq_lift]. intros ver q6.
  apply wfq_bind; [|apply wfq_lift]. intros [c|] q7.
  - destruct (negb (e_sub E c base)); [exact I|]. apply wfq_bind.
    + intros r q8. cbn [wfq]. match goal with |- context [if ?x then _ else _] => destruct x end; [exact I|]. cbn. intros; destruct (snd r); exact I.
    + apply wfq_fields. apply Forall_map, Forall_forall. intros f _ c' q8. apply wfq_ty. intros; apply IH.
  - cbn [wfq]. match goal with |- context [if ?x then _ else _] => destruct x end; cbn; auto.
Qed.

(** what a suspended generator waits for *)
Definition susp {A} (p : prog A) (s : st) : Prop :=
  match p with
  | PNeed n o k => 1 <= n /\ over_limit n s = false /\ forall b q, wfq (k b) q
  | PSync start o k => over_limit 8 s = false /\ 0 <= start <= b_pos (s_bio s) /\ b_pos (s_bio s) <= start + 8 /\ forall a l q, wfq (k a l) q
  | _ => False
  end.
Definition inb (b : bio) : Prop := 0 <= b_pos b <= zlen (b_data b).
(** the effect of a turn of the generator started at position [lo] *)
Definition turn_ok {A} (lo : Z) (b : bio) (o : outcome A) : Prop :=
  match o with
  | Waiting p s => b_data (s_bio s) = b_data b /\ inb (s_bio s) /\ susp p s
  | Finished _ s | Failed _ s => b_data (s_bio s) = b_data b /\ inb (s_bio s) /\ lo <= b_pos (s_bio s)
  end.
Lemma turn_weak {A} lo lo' b b' (o : outcome A) : lo <= lo' -> b_data b' = b_data b -> turn_ok lo' b' o -> turn_ok lo b o.
Proof. intros L D. destruct o; cbn; rewrite D; intuition lia. Qed.
Lemma read_inb n b : inb b -> let b' := snd (bio_read n b) in b_data b' = b_data b /\ inb b' /\ b_pos b <= b_pos b' /\
  (0 <= n <= ubio_available b -> b_pos b' = b_pos b + n).
Proof.
  unfold inb, bio_read, ubio_available. intros H. cbn [snd b_data b_pos]. destruct (Z.ltb_spec n 0) as [L|L].
  - unfold zlen in *. rewrite skipn_length. repeat split; lia.
  - unfold zlen in *. rewrite firstn_length, skipn_length. repeat split; lia.
Qed.
Lemma scan_bounds rest : forall start,
  match sync_scan rest start with
  | inl (s, half) => start <= s /\ s + (if half then 8 else 0) <= start + zlen rest
  | inr (s, l) => start <= s /\ s + 16 <= start + zlen rest
  end.
Proof.
  induction rest as [|x r IH]; intros start; rewrite sync_scan_eq.
  - cbn. lia.
  - destruct (Z.ltb_spec (zlen (x :: r)) 8); [pose proof (zlen_nonneg (x :: r)); lia|].
    destruct (Z.ltb_spec (zlen (x :: r)) 16); [lia|].
    destruct (header_len (firstn 16 (x :: r))); [lia|]. specialize (IH (start + 1)). rewrite zlen_cons.
    destruct (sync_scan r (start + 1)) as [[s h]|[s l]]; destruct IH; split; try lia.
Qed.
Lemma sync_turn {A} start (over : prog A) k s :
  over_limit 8 s = false -> 0 <= start <= zlen (b_data (s_bio s)) -> (forall a l q, wfq (k a l) q) ->
  (forall a l, forall s', wfq (k a l) (b_pos (s_bio s')) -> inb (s_bio s') -> turn_ok (b_pos (s_bio s')) (s_bio s') (exec (k a l) s')) ->
  turn_ok (start + 16) (s_bio s) (exec (PSync start over k) s).
Proof.
  intros O S W IH. cbn [exec]. rewrite O. pose proof (scan_bounds (stream_rest (s_bio s) start) start) as B.
  assert (RL : zlen (stream_rest (s_bio s) start) = zlen (b_data (s_bio s)) - start) by (destruct (s_bio s) as [dt bp]; apply (rest_le dt bp); cbn in S; lia).
  destruct (sync_scan (stream_rest (s_bio s) start) start) as [[s' half]|[s' l]].
  - cbn [turn_ok susp s_bio b_data b_pos s_max]. unfold inb. cbn [b_pos b_data].
    split; [reflexivity|]. split; [destruct half; lia|]. split; [exact O|]. split; [destruct half; lia|]. split; [destruct half; lia|exact W].
  - eapply turn_weak; [| |apply IH; [apply W|unfold inb; cbn [s_bio b_pos b_data]; lia]]; cbn [s_bio b_pos b_data]; [lia|reflexivity].
Qed.
Lemma exec_turn {A} (p : prog A) : forall s, wfq p (b_pos (s_bio s)) -> inb (s_bio s) -> turn_ok (b_pos (s_bio s)) (s_bio s) (exec p s).
Proof.
  induction p as [a|e|n o IHo k IHk|start o IHo k IHk|k IHk|m p IHp|n p IHp]; intros s W I.
  - cbn. auto with zarith.
  - cbn. auto with zarith.
  - cbn [exec]. destruct W as (Wo & Wk). destruct (over_limit n s) eqn:O; [auto|].
    destruct (Z.ltb_spec (ubio_available (s_bio s)) n) as [L|L]; [cbn; unfold inb, ubio_available in *; repeat split; auto; lia|].
    pose proof (read_inb n (s_bio s) I) as R. destruct (bio_read n (s_bio s)) as [out b']. cbn in R. destruct R as (R1 & R2 & R3 & _).
    eapply turn_weak; [exact R3|exact R1|]. apply (IHk out (St b' (s_max s))); [apply Wk|exact R2].
  - destruct W as (-> & Wo & Wk). destruct (over_limit 8 s) eqn:O; [cbn [exec]; rewrite O; auto|].
    eapply turn_weak; [| |apply (sync_turn (b_pos (s_bio s)) o k s O I Wk)]; [lia|reflexivity|].
    intros a l s' W' I'. apply IHk; auto.
  - cbn [exec]. cbn in W. auto.
  - cbn [exec]. cbn in W. apply (IHp (St (s_bio s) m)); auto.
  - cbn [exec]. pose proof (read_inb n (s_bio s) I) as R. destruct (bio_read n (s_bio s)) as [out b']. cbn in R. destruct R as (R1 & R2 & R3 & _).
    eapply turn_weak; [exact R3|exact R1|]. apply (IHp (St b' (s_max s))); [apply W|exact R2].
Qed.

(** resuming a suspended generator: it waits on, or at least one byte is read *)
Lemma resume_turn {A} (p : prog A) s : susp p s -> inb (s_bio s) -> turn_ok (b_pos (s_bio s) + 1) (s_bio s) (exec p s).
Proof.
  destruct p as [a|e|n o k|start o k|k|m p|n p]; cbn [susp]; try tauto; intros S I.
  - destruct S as (N & O & W). cbn [exec]. rewrite O. destruct (Z.ltb_spec (ubio_available (s_bio s)) n) as [L|L]; [cbn; auto|].
    pose proof (read_inb n (s_bio s) I) as R. destruct (bio_read n (s_bio s)) as [out b']. cbn in R. destruct R as (R1 & R2 & _ & R3).
    eapply turn_weak; [|exact R1|apply (exec_turn (k out) (St b' (s_max s))); [apply W|exact R2]]. cbn. lia.
  - destruct S as (O & B1 & B2 & W). eapply turn_weak; [| |apply (sync_turn start o k s O)]; try reflexivity; [lia|unfold inb in I; lia|exact W|].
    intros a l s' W' I'. apply exec_turn; auto.
Qed.

Lemma tell_sync_turn {A} (p : prog A) s : (exists o k, p = PTell (fun z => PSync z o k)) -> wfq p (b_pos (s_bio s)) ->
  s_max s = 0 -> inb (s_bio s) -> turn_ok (b_pos (s_bio s) + 1) (s_bio s) (exec p s).
Proof.
  intros (o & k & ->) W M I. cbn [wfq] in W. destruct W as (_ & _ & W). cbn [exec].
  change (turn_ok (b_pos (s_bio s) + 1) (s_bio s) (exec (PSync (b_pos (s_bio s)) o k) s)).
  eapply turn_weak; [| |apply (sync_turn (b_pos (s_bio s)) o k s)]; try reflexivity; [lia| |exact I|exact W|].
  - unfold over_limit. now rewrite M.
  - intros a l s' W' I'. apply exec_turn; auto.
Qed.

Section Drain.
Variable E : env.
Variables depth base : nat.
Hypothesis Dp : (0 < depth)%nat.
Definition dinv (d : dser) : Prop :=
  inb (d_bio d) /\ ((d_iter d = dec_packet E depth base /\ d_max d = 0) \/ susp (d_iter d) (St (d_bio d) (d_max d))).
Lemma dinv_new : dinv (d_new E depth base).
Proof. split; [unfold inb; cbn; lia|left; auto]. Qed.
Lemma dinv_update c d : dinv d -> dinv (d_update c d).
Proof.
  destruct d as [[data bp] it m mg]. unfold dinv, d_update. cbn [d_bio d_iter d_max d_managed].
  intros (I & X). unfold inb in I. cbn in I. rewrite update_ok by lia. cbn [d_bio d_iter d_max d_managed].
  split; [unfold inb; cbn [b_pos b_data]; rewrite zlen_app; pose proof (zlen_nonneg c); lia|].
  destruct X as [X|X]; [left; exact X|right]. destruct it; try exact X.
Qed.
Lemma dstep_inv d d' ev : dinv d -> d_step E depth base d = (d', ev) -> dinv d' /\
  match ev with
  | None => b_data (d_bio d') = b_data (d_bio d)
  | Some _ => ubio_available (d_bio d') < ubio_available (d_bio d)
  end.
Proof.
  intros (I & X). unfold d_step.
  assert (T : turn_ok (b_pos (d_bio d) + 1) (d_bio d) (exec (d_iter d) (St (d_bio d) (d_max d)))).
  { destruct X as [(-> & ->)|S].
    - apply (tell_sync_turn (dec_packet E depth base) (St (d_bio d) 0)); [|apply wfq_packet|reflexivity|exact I].
      destruct depth as [|dd]; [lia|]. eexists; eexists; reflexivity.
    - apply (resume_turn _ (St (d_bio d) (d_max d))); auto. }
  destruct (exec (d_iter d) (St (d_bio d) (d_max d))) as [p s|v s|e s]; cbn [turn_ok] in T; destruct T as (D & I' & T); intro H; apply pair_equal_spec in H as (<- & <-).
  - unfold dinv. cbn [d_bio d_iter d_max]. split; [split; [exact I'|right; destruct s; exact T]|exact D].
  - destruct (d_managed d).
    + unfold bio_read. change (-1 <? 0) with true. cbv iota beta zeta. unfold bio_new. rewrite update_ok by lia. cbn [app].
      unfold dinv, inb. cbn [d_bio d_iter d_max b_pos b_data]. split; [split; [pose proof (zlen_nonneg (skipn (Z.to_nat (b_pos (s_bio s))) (b_data (s_bio s)))); lia|left; auto]|].
      unfold ubio_available. cbn [b_data b_pos]. unfold inb, zlen in *. rewrite skipn_length. rewrite D in *. lia.
    + unfold dinv. cbn [d_bio d_iter d_max]. split; [split; [exact I'|left; auto]|]. unfold ubio_available. rewrite D. lia.
  - unfold dinv. cbn [d_bio d_iter d_max].
    assert (R : inb (if eqb (ubio_peek 8 (s_bio s)) (ubio_peek 8 (d_bio d)) then snd (bio_read 1 (s_bio s)) else s_bio s) /\
       b_data (if eqb (ubio_peek 8 (s_bio s)) (ubio_peek 8 (d_bio d)) then snd (bio_read 1 (s_bio s)) else s_bio s) = b_data (d_bio d) /\
       b_pos (s_bio s) <= b_pos (if eqb (ubio_peek 8 (s_bio s)) (ubio_peek 8 (d_bio d)) then snd (bio_read 1 (s_bio s)) else s_bio s)).
    { destruct (eqb _ _); [|split; [exact I'|split; [exact D|lia]]]. pose proof (read_inb 1 (s_bio s) I') as (R1 & R2 & R3 & _). rewrite R1. auto. }
    destruct R as (R1 & R2 & R3). split; [split; [exact R1|left; auto]|]. unfold ubio_available. rewrite R2. lia.
Qed.

(** nextPackets() run by the caller until it is exhausted *)
Inductive drains : dser -> dser -> list devent -> Prop :=
| drains_end d d' : d_step E depth base d = (d', None) -> drains d d' []
| drains_more d d1 ev d' evs : d_step E depth base d = (d1, Some ev) -> drains d1 d' evs -> drains d d' (ev :: evs).
Lemma drain_terminates fuel : forall d, dinv d -> ubio_available (d_bio d) < Z.of_nat fuel ->
  exists d' evs, d_drain E fuel depth base d = (d', evs) /\ drains d d' evs /\ dinv d' /\ zlen evs <= ubio_available (d_bio d).
Proof.
  induction fuel as [|f IH]; intros d I L.
  - exfalso. destruct I as (I & _). unfold inb, ubio_available in *. lia.
  - cbn [d_drain]. destruct (d_step E depth base d) as [d1 [ev|]] eqn:S.
    + destruct (dstep_inv d d1 _ I S) as (I1 & L1). destruct (IH d1 I1) as (d' & evs & S2 & D2 & I2 & L2); [lia|]. rewrite S2.
      exists d', (ev :: evs). split; [reflexivity|]. split; [econstructor; eauto|]. split; [exact I2|]. rewrite zlen_cons. lia.
    + destruct (dstep_inv d d1 _ I S) as (I1 & L1). exists d1, []. split; [reflexivity|]. split; [constructor; exact S|]. split; [exact I1|].
      destruct I as (I & _). unfold inb, ubio_available in *. rewrite zlen_nil. lia.
Qed.
Lemma dinv_run os : forall d, dinv d -> dinv (fst (d_run E depth base os d)).
Proof.
  induction os as [|[b|] os IH]; intros d I; cbn [d_run]; [exact I|apply IH, dinv_update, I|].
  destruct (d_step E depth base d) as [d1 ev] eqn:S. destruct (dstep_inv d d1 ev I S) as (I1 & _).
  specialize (IH d1 I1). destruct (d_run E depth base os d1). exact IH.
Qed.
Lemma next_terminates d : dinv d ->
  exists d' evs, d_next_packets E depth base d = (d', evs) /\ drains d d' evs /\ dinv d' /\ zlen evs <= ubio_available (d_bio d).
Proof.
  intro I. apply drain_terminates; [exact I|]. destruct I as (I & _). unfold inb, ubio_available, zlen in *. lia.
Qed.
End Drain.

(** ** What is delivered *)
Section Shape.
Variable E : env.
Fixpoint post {A} (p : prog A) (Q : A -> Prop) : Prop :=
  match p with
  | PRet a => Q a
  | PFail _ => True
  | PNeed n o k => post o Q /\ forall b, bytes_ok b -> (0 <= n -> zlen b <= n) -> post (k b) Q
  | PSync _ o k => post o Q /\ forall s l, post (k s l) Q
  | PTell k => forall z, post (k z) Q
  | PSetMax _ p => post p Q
  | PReadSome _ p => post p Q
  end.
Lemma post_bind {A B} (p : prog A) (f : A -> prog B) (R : A -> Prop) Q : post p R -> (forall a, R a -> post (f a) Q) -> post (pbind p f) Q.
Proof. intros H F. revert H. induction p; cbn; intros H'; intuition auto. Qed.
Lemma post_wrap {A} (p : prog A) Q : post p Q -> post (pwrap p) Q.
Proof. induction p; cbn; intros H'; intuition auto. Qed.
Lemma post_lift {A B} (r : res A) (f : A -> prog B) Q : (forall a, r = Ok a -> post (f a) Q) -> post (pbind (plift r) f) Q.
Proof. destruct r; cbn; auto. Qed.
Lemma post_need {A} n (k : bytes -> prog A) Q : (forall b, bytes_ok b -> (0 <= n -> zlen b <= n) -> post (k b) Q) -> post (need n k) Q.
Proof. intro H. cbn. auto. Qed.
Lemma post_exec {A} (p : prog A) Q : forall s, post p Q -> bytes_ok (b_data (s_bio s)) ->
  match exec p s with
  | Waiting p' s' => post p' Q /\ b_data (s_bio s') = b_data (s_bio s)
  | Finished a s' => Q a /\ b_data (s_bio s') = b_data (s_bio s)
  | Failed _ s' => b_data (s_bio s') = b_data (s_bio s)
  end.
Proof.
  induction p as [a|e|n o IHo k IHk|start o IHo k IHk|k IHk|m p IHp|n p IHp]; intros s W I.
  - cbn. auto.
  - cbn. auto.
  - cbn [exec]. destruct W as (Wo & Wk). destruct (over_limit n s) eqn:O; [apply IHo; auto|].
    destruct (Z.ltb_spec (ubio_available (s_bio s)) n) as [L|L]; [cbn; auto|].
    unfold bio_read.
    match goal with |- context [exec (k ?out) ?s2] => specialize (IHk out s2) end. cbn [s_bio b_data] in IHk.
    apply IHk; [|exact I]. apply Wk.
    + destruct (n <? 0); [|apply Forall_firstn]; apply Forall_skipn, I.
    + intro N. destruct (Z.ltb_spec n 0); [lia|]. unfold ubio_available, zlen in *. rewrite firstn_length, skipn_length. lia.
  - cbn [exec]. destruct W as (Wo & Wk). destruct (over_limit 8 s) eqn:O; [apply IHo; auto|].
    destruct (sync_scan _ _) as [[s' half]|[s' l]]; [cbn; auto|].
    match goal with |- context [exec (k ?a ?b) ?s2] => specialize (IHk a b s2) end. cbn [s_bio b_data] in IHk. apply IHk; auto.
  - cbn [exec]. cbn in W. apply IHk; auto.
  - cbn [exec]. cbn in W. specialize (IHp (St (s_bio s) m)). apply IHp; auto.
  - cbn [exec]. unfold bio_read.
    match goal with |- context [exec p ?s2] => specialize (IHp s2) end. cbn [s_bio b_data] in IHp. apply IHp; auto.
Qed.

Lemma shaped_node x : part_shape E x -> (forall z, In z (children E x) -> shaped E z) -> shaped E x.
Proof. intros P C y Iy. inversion Iy as [|? z Hz Hq]; subst; [exact P|]. exact (C _ Hz _ Hq). Qed.
Lemma shaped_leaf x : part_shape E x -> children E x = [] -> shaped E x.
Proof. intros P C. apply shaped_node; [exact P|]. rewrite C. intros z []. Qed.
Lemma int_width_inv a w : int_width a = Ok w -> width_for (declared_max a) w.
Proof.
  assert (DM : match eff_max a with Some m => m | None => 2 ^ 32 - 1 end = declared_max a).
  { unfold eff_max, declared_max. destruct (at_max a); [reflexivity|]. destruct (at_bits a); reflexivity. }
  unfold int_width, max_width. rewrite DM. set (m := declared_max a).
  change (2 ^ 8) with 256. change (2 ^ 16) with 65536. change (2 ^ 32) with 4294967296. change (2 ^ 64) with 18446744073709551616.
  assert (X : forall w', In w' [1%nat; 2%nat; 4%nat; 8%nat] -> (w' = 1 \/ w' = 2 \/ w' = 4 \/ w' = 8)%nat) by (cbn; intuition auto).
  destruct (Z.ltb_spec m 256) as [|L1]; [intro W; injection W as <-|
    destruct (Z.ltb_spec m 65536) as [|L2]; [intro W; injection W as <-|
    destruct (Z.ltb_spec m 4294967296) as [|L3]; [intro W; injection W as <-|
    destruct (Z.ltb_spec m 18446744073709551616) as [|L4]; [intro W; injection W as <-|discriminate]]]];
  (split; [cbn; auto|]; split; [cbn; lia|]; intros w' Hw; apply X in Hw; destruct Hw as [Hw|[Hw|[Hw|Hw]]]; subst w'; cbn; lia).
Qed.
Lemma scalar_shape s b w : sc_width s = Ok w -> bytes_ok b -> zlen b <= Z.of_nat w -> forall x, sc_dec s b = Ok x -> scalar_ok s x.
Proof.
  intros Wd B L x D. pose proof (be_dec_range b B) as R.
  assert (P : 256 ^ zlen b <= 256 ^ Z.of_nat w) by (apply Z.pow_le_mono_r; lia).
  destruct s as [a|a| |a]; cbn [sc_width sc_dec] in *.
  - unfold sc_set_int in D. destruct (Z.ltb_spec (be_dec b) 0); [lia|]. cbn [andb] in D.
    destruct (validate a (be_dec b)) eqn:V; [|discriminate]. apply Ok_inj in D. subst x.
    split; [now apply validate_iff|]. exists w. split; [now apply int_width_inv|lia].
  - unfold sc_set_int in D. cbn [andb] in D. destruct (validate a _) eqn:V; [|discriminate]. apply Ok_inj in D. subst x.
    split; [now apply validate_iff|]. pose proof (int_width_inv _ _ Wd) as Wf. exists w. split; [exact Wf|].
    assert (H2 : 256 ^ zlen b / 2 <= 256 ^ Z.of_nat w / 2) by (apply Z.div_le_mono; lia).
    unfold unpack_s. change (Z.of_nat (length b)) with (zlen b).
    pose proof (width_for_pos _ _ Wf) as Wp. destruct (pow256_even w) as (_ & Q0); [lia|].
    destruct b as [|y b0]; [cbn; lia|]. destruct (pow256_even (length (y :: b0))) as (Q1 & Q2); [cbn; lia|].
    change (Z.of_nat (length (y :: b0))) with (zlen (y :: b0)) in Q1, Q2.
    destruct (Z.ltb_spec (be_dec (y :: b0)) (256 ^ zlen (y :: b0) / 2)); lia.
  - apply Ok_inj in D. subst x. exact I.
  - rewrite Wd in D. cbn [bind] in D. unfold float_width in Wd. cbn [scalar_ok]. unfold declared_bits in *.
    set (n := match at_bits a with Some n => n | None => 32 end) in *.
    destruct (Z.eqb_spec n 32) as [E32|_]; [|destruct (Z.eqb_spec n 64) as [E64|_]; [|discriminate]]; apply Ok_inj in Wd; subst w; cbn [Nat.eqb] in D.
    + assert (S : is_single (be_dec b)). { split; [lia|]. change (256 ^ Z.of_nat 4) with (2 ^ 32) in P. lia. }
      pose proof (to_double_exact _ S) as X. pose proof (to_double_same _ S) as (Db & _).
      destruct (validate_f a (to_double (be_dec b))) eqn:V; [|discriminate]. apply Ok_inj in D. subst x.
      split; [exact Db|]. split; [now apply validate_f_iff|left; now split].
    + assert (Db : is_double (be_dec b)). { split; [lia|]. change (256 ^ Z.of_nat 8) with (2 ^ 64) in P. lia. }
      destruct (validate_f a (be_dec b)) eqn:V; [|discriminate]. apply Ok_inj in D. subst x.
      split; [exact Db|]. split; [now apply validate_f_iff|now right].
Qed.

Definition fits (ft : pystr * fattr * fty) (o : option val) : Prop := match o with Some v => shaped E (v, snd ft) | None => True end.
Lemma fits_none fs : Forall2 fits fs (map (fun _ => None) fs).
Proof. induction fs; constructor; [exact I|assumption]. Qed.
Lemma fits_children fs vs z : Forall2 fits fs vs -> In z (set_fields fs vs) -> shaped E z.
Proof.
  induction 1 as [|[f t] [v|] fs vs F _ IH]; cbn [set_fields]; [intros []| |exact IH].
  intros [<-|H]; [exact F|auto].
Qed.
Lemma fits_set i v : forall fs vs ft, Forall2 fits fs vs -> nth_error fs i = Some ft -> shaped E (v, snd ft) -> Forall2 fits fs (set_nth i (Some v) vs).
Proof.
  induction i as [|i IH]; intros fs vs ft F N S; destruct F as [|f o fs vs F1 F]; cbn in N; try discriminate.
  - injection N as ->. constructor; auto.
  - cbn [set_nth]. constructor; eauto.
Qed.
Lemma fits_nth i fs vs ft : Forall2 fits fs vs -> nth_error fs i = Some ft -> fits ft (nth i vs None).
Proof. intros F. revert i. induction F; intros [|i] H1; cbn in *; try discriminate; [injection H1 as ->; auto|auto]. Qed.

Lemma be16 b : bytes_ok b -> zlen b <= 2 -> 0 <= be_dec b < 2 ^ 16.
Proof.
  intros B L. pose proof (be_dec_range b B). pose proof (zlen_nonneg b).
  assert (256 ^ zlen b <= 256 ^ 2) by (apply Z.pow_le_mono_r; lia). change (256 ^ 2) with (2 ^ 16) in *. lia.
Qed.
Lemma post_items elem t : post elem (fun v => shaped E (v, t)) -> forall n acc, zlen acc + Z.of_nat n < 2 ^ 16 -> ~ In None acc ->
  (forall v, In (Some v) acc -> shaped E (v, t)) -> post (dec_items elem n acc) (fun v => shaped E (v, TList t)).
Proof.
  intros H n. induction n as [|n IH]; intros acc L N A; cbn [dec_items].
  - cbn [post]. apply shaped_node; [cbn; split; [lia|exact N]|]. intros [z tz] Hz. cbn [children fst snd] in Hz.
    destruct (set_items_in _ _ _ Hz) as (Ht & Hv). cbn [fst snd] in *. subst tz. apply A. exact Hv.
  - eapply post_bind; [apply post_wrap, H|]. cbn beta. intros v Hv. apply IH.
    + rewrite zlen_app, zlen_cons, zlen_nil. lia.
    + intro X. apply in_app_or in X as [X|[X|[]]]; [auto|discriminate].
    + intros v' X. apply in_app_or in X as [X|[X|[]]]; [auto|]. injection X as <-. exact Hv.
Qed.
Definition dec_good (ft : pystr * fattr * fty) (d : option val -> prog val) : Prop :=
  forall cur, fits ft cur -> post (d cur) (fun v => shaped E (v, snd ft)).
Lemma index_of_lt t tags i : index_of t tags = Some i -> (i < length tags)%nat.
Proof.
  revert i. induction tags as [|x tags IH]; intros i; cbn; [discriminate|]. destruct (t =? x); [intros [= <-]; lia|].
  fold (index_of t tags). destruct (index_of t tags) as [j|]; [|discriminate]. intros [= <-]. specialize (IH j eq_refl). lia.
Qed.
Lemma post_loop tags fs decs : length tags = length fs -> Forall2 dec_good fs decs -> forall n cur, Forall2 fits fs cur ->
  post (dec_fields_loop tags decs n cur) (fun r => Forall2 fits fs (fst r)).
Proof.
  intros Lt Dg n. induction n as [|n IH]; intros cur F; cbn [dec_fields_loop]; [exact F|].
  apply post_need. intros b _ _. destruct (index_of (be_dec b) tags) as [i|] eqn:Ix; [|destruct (be_dec b <? 200); [exact I|exact F]].
  apply index_of_lt in Ix. rewrite Lt in Ix. destruct (nth_error fs i) as [ft|] eqn:Nf; [|apply nth_error_None in Nf; lia].
  assert (G : dec_good ft (nth i decs (fun _ => PFail KeyError))).
  { clear -Dg Nf. revert i Nf. induction Dg; intros [|i] Nf; cbn in *; try discriminate; [injection Nf as ->; auto|auto]. }
  eapply post_bind; [apply post_wrap, G, (fits_nth _ _ _ _ F Nf)|]. cbn beta. intros v Hv. apply IH. eapply fits_set; eauto.
Qed.
Lemma post_fields fs decs cur : Forall2 dec_good fs decs -> Forall2 fits fs cur ->
  post (dec_fields (map fst fs) decs cur) (fun r => Forall2 fits fs (fst r)).
Proof.
  intros G F. unfold dec_fields. apply post_lift. intros tags T. apply post_need. intros b _ _. apply post_loop; auto.
  apply process_fields_iff in T as (_ & T & _). now rewrite T, map_length.
Qed.
Lemma post_ty rp : (forall b, post (rp b) (fun v => shaped E (v, TPacket b))) ->
  forall t (cur : option val), (match cur with Some v => shaped E (v, t) | None => True end) -> post (dec_ty rp t cur) (fun v => shaped E (v, t)).
Proof.
  intros R t. induction t as [s| | |t IH|fs IH|b] using fty_ind2; intros cur F; cbn [dec_ty].
  - unfold dec_scalar. apply post_lift. intros w Hw. apply post_need. intros b B L. apply post_lift. intros x Hx. cbn [post].
    apply shaped_leaf; [|reflexivity]. cbn. eapply scalar_shape; eauto. apply L. lia.
  - unfold dec_string. apply post_need. intros b B L. specialize (L ltac:(lia)). pose proof (be16 b B L).
    apply post_need. intros b' B' L'. apply post_lift. intros s Hs. cbn [post]. apply shaped_leaf; [|reflexivity].
    exists b'. split; [eapply utf8_enc_dec; eauto|]. specialize (L' ltac:(lia)). lia.
  - unfold dec_buffer. apply post_need. intros b B L. specialize (L ltac:(lia)). pose proof (be_dec_range b B) as Rb. pose proof (zlen_nonneg b).
    assert (256 ^ zlen b <= 256 ^ 8) by (apply Z.pow_le_mono_r; lia). change (256 ^ 8) with (2 ^ 64) in *.
    apply post_need. intros b' B' L'. cbn [post]. apply shaped_leaf; [|reflexivity]. split; [exact B'|]. specialize (L' ltac:(lia)). lia.
  - unfold dec_list. apply post_need. intros b B L. specialize (L ltac:(lia)). pose proof (be16 b B L). apply post_items.
    + apply IH. exact I.
    + rewrite zlen_nil. lia.
    + intros [].
    + intros v [].
  - eapply post_bind.
    + apply post_fields.
      * clear -IH. induction IH as [|f fs H _ IHf]; cbn [map]; constructor; [intros c Hc; apply H; destruct c; exact Hc|exact IHf].
      * destruct cur as [[| | | |vs|]|]; try apply fits_none. clear -F.
        pose proof (F _ (in_self E _)) as P. cbn in P. assert (C : forall z, In z (set_fields fs vs) -> shaped E z).
        { intros z Hz y Iy. apply F. econstructor; [|exact Iy]. exact Hz. }
        clear F. revert fs P C. induction vs as [|o vs IH]; intros [|[f t] fs] P C; cbn in P; try discriminate; constructor.
        -- destruct o; [apply C; cbn; auto|exact I].
        -- apply IH; [congruence|]. intros z Hz. apply C. destruct o; cbn; auto.
    + intros [vs [|]] H; cbn [fst snd] in *; [exact I|]. cbn [post]. apply shaped_node.
      * cbn. apply Forall2_len in H. now symmetry.
      * intros z Hz. eapply fits_children; eauto.
  - apply R.
Qed.
Lemma post_packet depth : forall base, post (dec_packet E depth base) (fun v => shaped E (v, TPacket base)).
Proof.
  induction depth as [|d IH]; intros base; cbn [dec_packet]; [exact I|].
  cbn [post]. intros z. split; [exact I|]. intros s l.
  apply post_need. intros b1 _ _. apply post_need. intros b2 _ _. apply post_lift. intros name _.
  apply post_need. intros b3 _ _. apply post_need. intros b4 _ _. apply post_lift. intros ver _.
  apply post_lift. intros [c|] Lk.
  - destruct (e_sub E c base) eqn:Sb; [|exact I]. cbn [negb]. eapply post_bind.
    + apply post_fields; [|apply fits_none]. clear -IH. induction (c_fields (e_cls E c)) as [|f fs IHf]; cbn [map]; constructor; [|exact IHf].
      intros cur Hc. apply post_ty; [exact IH|]. destruct cur; exact Hc.
    + intros [vs fl] H. cbn [fst snd] in *.
      assert (SH : shaped E (VPacket c vs, TPacket base)).
      { apply shaped_node; [|intros z' Hz; eapply fits_children; eauto]. cbn. split; [apply Forall2_len in H; now symmetry|]. eauto. }
      cbn [post]. intros pos. match goal with |- context [if ?x then _ else _] => destruct x end; [exact SH|]. cbn [post]. destruct fl; [exact SH|exact I].
  - cbn [post]. intros pos. match goal with |- context [if ?x then _ else _] => destruct x end; exact I.
Qed.

(** *** ... by a Deserializer *)
Definition dpost (base : nat) (d : dser) : Prop := bytes_ok (b_data (d_bio d)) /\ post (d_iter d) (fun v => shaped E (v, TPacket base)).
Lemma dpost_new depth base : dpost base (d_new E depth base).
Proof. split; [constructor|apply post_packet]. Qed.
Lemma dpost_update base c d : 0 <= b_pos (d_bio d) -> bytes_ok c -> dpost base d -> dpost base (d_update c d).
Proof.
  destruct d as [[data bp] it m mg]. unfold dpost, d_update. cbn [d_bio d_iter d_max d_managed b_pos].
  intros P C (B & X). rewrite update_ok by exact P. cbn [d_bio d_iter b_data]. split; [apply Forall_app; auto|exact X].
Qed.
Lemma dpost_step depth base d d' ev : dpost base d -> d_step E depth base d = (d', ev) -> dpost base d' /\
  forall v, ev = Some (EvPacket v) -> shaped E (v, TPacket base).
Proof.
  intros (B & X). unfold d_step. pose proof (post_exec _ _ (St (d_bio d) (d_max d)) X B) as T.
  destruct (exec (d_iter d) (St (d_bio d) (d_max d))) as [p s|v s|e s]; intro H; apply pair_equal_spec in H as (<- & <-); cbn [s_bio] in T.
  - destruct T as (T1 & T2). split; [split; cbn [d_bio d_iter]; [now rewrite T2|exact T1]|discriminate].
  - destruct T as (T1 & T2). split; [|intros v' [= <-]; exact T1]. split; [|apply post_packet]. cbn [d_bio].
    destruct (d_managed d); [|now rewrite T2]. unfold bio_read. change (-1 <? 0) with true. cbv iota beta zeta.
    unfold bio_new. rewrite update_ok by lia. cbn [b_data app]. apply Forall_skipn. now rewrite T2.
  - split; [|discriminate]. split; [|apply post_packet]. cbn [d_bio]. destruct (eqb _ _); [|now rewrite T].
    unfold bio_read. cbn [snd b_data]. now rewrite T.
Qed.
Lemma dpost_run depth base (Dp : (0 < depth)%nat) os : forall d, dinv E depth base d -> dpost base d -> bytes_ok (fed os) ->
  dpost base (fst (d_run E depth base os d)) /\ forall v, In (EvPacket v) (snd (d_run E depth base os d)) -> shaped E (v, TPacket base).
Proof.
  induction os as [|[b|] os IH]; intros d I X B; cbn [d_run].
  - split; [exact X|intros v []].
  - cbn [fed flat_map] in B. apply Forall_app in B as (B1 & B2). apply IH; [apply dinv_update; auto| |exact B2].
    apply dpost_update; auto. destruct I as (I & _). unfold inb in I. lia.
  - destruct (d_step E depth base d) as [d1 ev] eqn:S. destruct (dstep_inv E depth base Dp d d1 ev I S) as (I1 & _).
    destruct (dpost_step depth base d d1 ev X S) as (X1 & V1). specialize (IH d1 I1 X1 B).
    destruct (d_run E depth base os d1) as [d2 evs]. cbn [fst snd] in *. destruct IH as (IH1 & IH2). split; [exact IH1|].
    intros v Hv. destruct ev as [ev|]; [destruct Hv as [->|Hv]|]; auto.
Qed.
End Shape.
