(** observing changes nothing for the observed *)
From Coq Require Import List ZArith Bool Lia.
From Verif Require Import PyBase ObserveModel ObserveSpec ObserveProofs.
Import ListNotations.
Open Scope nat_scope.

Record N (s1 s2 : ost) : Prop := NI {
  n_trans : forall p, o_trans s1 p = o_trans s2 p;
  n_out : unnoted (o_out s1) = o_out s2;
  n_sess : forall p, o_sess s2 p = None;
  n_tap : forall t, o_tap s2 t = None }.
Definition rel2 (r q : oresult) : Prop :=
  match snd r with Misuse => True | v => snd q = v /\ N (fst r) (fst q) end.
Lemma rel2_then r q f g : rel2 r q -> (forall s o, N s o -> rel2 (f s) (g o)) -> rel2 (oThen r f) (oThen q g).
Proof.
  unfold rel2 at 1, oThen. destruct r as [s e], q as [o v]. simpl. intros R H. destruct e.
  - destruct R as [-> R]. now apply H.
  - destruct R as [-> R]. unfold rel2. simpl. auto.
  - exact I.
Qed.
(** a step of the first program only *)
Lemma rel2_skip r q f : rel2 r q -> (forall s o, N s o -> rel2 (f s) (o, Fine)) -> rel2 (oThen r f) q.
Proof.
  unfold rel2 at 1, oThen. destruct r as [s e], q as [o v]. simpl. intros R H. destruct e.
  - destruct R as [-> R]. now apply H.
  - destruct R as [-> R]. unfold rel2. simpl. auto.
  - exact I.
Qed.
Lemma unnoted_app a b : unnoted (a ++ b) = unnoted a ++ unnoted b.
Proof. apply filter_app. Qed.
Lemma N_emit s o x : is_note x = false -> N s o -> N (oemit x s) (oemit x o).
Proof. intros X [A B C D]. constructor; simpl; auto. rewrite unnoted_app. simpl. rewrite X. simpl. now rewrite B. Qed.
Lemma N_note s o x : is_note x = true -> N s o -> N (oemit x s) o.
Proof. intros X [A B C D]. constructor; simpl; auto. rewrite unnoted_app. simpl. rewrite X. simpl. now rewrite app_nil_r. Qed.

Lemma N_obs s o c : N s o -> o_trans c = o_trans s -> o_out c = o_out s -> N c o.
Proof. intros [A B C D] T O. constructor; auto; congruence. Qed.

Section Non.
Variables (E : env) (f g : op -> ost -> oresult).
Hypothesis Si : silent E.
Hypothesis Bl : blind E.
Hypothesis St : forall p, style E p <> NoAttr.
Hypothesis H : forall c s o, N s o ->
  rel2 (f c s) (if is_obs c then (o, Fine) else g c o).

Lemma n_seq ops : forall s o, N s o -> rel2 (oseq f ops s) (oseq g (unobserved ops) o).
Proof.
  induction ops as [|c r IH]; intros s o I; [split; auto|]. cbn [oseq]. unfold unobserved. cbn [filter].
  specialize (H c s o I). destruct (is_obs c) eqn:Oc; cbn [negb].
  - fold (unobserved r). unfold oThen. destruct (f c s) as [s1 v]. unfold rel2 in H. cbn [fst snd] in *. destruct v; auto.
    + now apply IH.
    + destruct H as [X _]. discriminate.
  - cbn [oseq]. apply rel2_then; auto.
Qed.
Lemma n_perform r s o : N s o -> rel2 (operform f r s) (operform g (unobserved_react r) o).
Proof.
  intros I. unfold operform. apply rel2_then; [now apply n_seq|]. intros s1 o1 I1. unfold rel2; simpl. destruct (r_throw r); auto.
Qed.
Lemma n_tell x p e : forall ls s o, N s o -> rel2 (otell E f x p e ls s) (o, Fine).
Proof.
  induction ls as [|l r IH]; intros s o I; cbn [otell]; [split; auto|].
  rewrite Si. unfold operform. cbn [oseq r_ops r_throw]. unfold oThen. cbn [fst snd].
  destruct (same_audience x (oemit (ONote l p e) s) p); [|exact Logic.I]. apply IH. now apply N_note.
Qed.
Lemma n_report p e s o : N s o -> rel2 (oreport E f p e s) (o, Fine).
Proof.
  intros I. unfold oreport. destruct (o_sess s p) as [x|]; [|split; auto]. apply rel2_skip; [now apply n_tell|].
  intros s1 o1 I1. destruct e; try (split; auto; fail).
  - assert (T : forall u, rel2 (o_tapping p u s1) (o1, Fine)).
    { intros u. unfold o_tapping. destruct (o_sess s1 p) as [y|]; [|split; auto].
      destruct (x_tap y); [exact Logic.I|]. destruct (o_tap s1 u); [exact Logic.I|]. split; auto. apply (N_obs s1); auto. }
    specialize (St p). destruct (style E p); try congruence; destruct (o_trans s1 p) as [u|]; auto; split; auto.
  - split; auto. unfold o_end. cbn [fst]. destruct (o_sess s1 p) as [y|]; auto. apply (N_obs s1); auto.
Qed.
Lemma n_call p e s o : N s o -> rel2 (ocall E f p e s) (ocall (unobserved_env E) g p e o).
Proof.
  intros I. unfold ocall. rewrite (n_sess _ _ I p). 
  assert (R : rel2 (oown E f p e s) (oown (unobserved_env E) g p e o)).
  { unfold oown. cbn [unobserved_env app style]. destruct Bl as [B1 _].
    rewrite B1, (n_out _ _ I). apply n_perform. apply N_emit; auto.
    destruct e; auto. destruct (style E p); auto. destruct I as [A B C D]. constructor; simpl; auto.
    intros q. unfold fset. destruct (q =? p); auto. }
  apply rel2_then; auto. intros s1 o1 I1. destruct (o_sess s p); [now apply n_report|split; auto].
Qed.
Lemma n_write t d s o : N s o -> rel2 (owrite E f t d s) (owrite (unobserved_env E) g t d o).
Proof.
  intros I. unfold owrite. rewrite (n_tap _ _ I t). cbn [unobserved_env peer]. destruct Bl as [_ B2].
  rewrite B2, (n_out _ _ I). apply rel2_then.
  - apply n_perform. now apply N_emit.
  - intros s1 o1 I1. destruct (o_tap s t); [now apply n_report|split; auto].
Qed.
End Non.

Lemma N_listen s o p l : N s o -> N (o_listen p l s) o.
Proof. intros I. unfold o_listen. destruct (o_sess s p); apply (N_obs s); auto. Qed.
Lemma N_stop s o p l : N s o -> N (o_stop p l s) o.
Proof.
  intros I. unfold o_stop. destruct (o_sess s p) as [x|] eqn:P; auto. destruct (set_remove l (x_ls x)).
  - destruct (existsb _ _); auto. unfold o_end. rewrite P. apply (N_obs s); auto.
  - apply (N_obs s); auto.
Qed.
Lemma n_exec E n : silent E -> blind E -> (forall p, style E p <> NoAttr) ->
  forall c s o, N s o ->
  rel2 (oexec E n c s) (if is_obs c then (o, Fine) else oexec (unobserved_env E) n c o).
Proof.
  intros Si Bl St. induction n as [|n IH]; intros c s o I; destruct c; cbn [oexec is_obs];
    try (split; cbn [fst snd]; auto using N_listen, N_stop; fail); try (apply n_call; auto); apply n_write; auto.
Qed.

Lemma n_run E n ops : silent E -> blind E -> (forall p, style E p <> NoAttr) ->
  forall s o s', N s o -> orun E n ops s = Some s' ->
  exists o', orun (unobserved_env E) n (unobserved ops) o = Some o' /\ N s' o'.
Proof.
  intros Si Bl St. induction ops as [|c r IH]; intros s o s' I R; cbn [orun] in R; [inversion R; subst; exists o; auto|].
  unfold unobserved. cbn [filter]. pose proof (n_exec E n Si Bl St c s o I) as X. fold (unobserved r).
  destruct (oexec E n c s) as [s1 v] eqn:Ev. destruct (is_obs c) eqn:Oc; cbn [negb].
  - unfold rel2 in X. cbn [fst snd] in X. destruct v; [|destruct X; discriminate|discriminate].
    destruct X as [_ X]. eapply IH; eauto.
  - cbn [orun]. destruct (oexec (unobserved_env E) n c o) as [o1 w]. unfold rel2 in X. cbn [fst snd] in X.
    destruct v; [|..]; try discriminate; destruct X as [-> X]; eapply IH; eauto. now apply N_emit.
Qed.
