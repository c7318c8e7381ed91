(** * Mock transports: both sides are told, and nothing comes after *)
From Coq Require Import List ZArith Bool Lia.
From Verif Require Import PyBase PyLemmas MockModel MockSpec MockProofs MockProofs2 MockProofs3 MockProofs4.
Import ListNotations.
Open Scope Z_scope.

Lemma snoc_split {A} (l : list A) x l1 y l2 : l ++ [x] = l1 ++ y :: l2 -> (l2 = [] /\ l = l1 /\ x = y) \/ exists l3, l2 = l3 ++ [x] /\ l = l1 ++ y :: l3.
Proof.
  intro E. destruct l2 as [|z l2] using rev_ind.
  - left. apply app_inj_tail in E as [-> ->]. auto.
  - right. clear IHl2. exists l2. change (y :: l2 ++ [z]) with ((y :: l2) ++ [z]) in E. rewrite app_assoc in E. apply app_inj_tail in E as [-> ->]. auto.
Qed.
Lemma list_eq_dec_nil {A} (l : list A) : l = [] \/ l <> []. Proof. destruct l; [now left|right; discriminate]. Qed.
Definition okD (a : api) : Prop := match a with AWrite _ _ | AClose _ | ASetDelay _ true _ => True | _ => False end.
(** after an event of [f] there is no data for i *)
Definition silent (i : side) (f : event -> bool) (l : list event) : Prop := forall l1 e l2, l = l1 ++ e :: l2 -> f e = true -> got i l2 = [].
Lemma silent_snoc i f l e : silent i f l -> (got i [e] <> [] -> forall x, In x l -> f x = false) -> silent i f (l ++ [e]).
Proof.
  intros S0 H l1 x l2 E F. apply snoc_split in E as [(-> & _ & _)|(l3 & -> & ->)]; [reflexivity|]. rewrite got_snoc, (S0 _ _ _ eq_refl F). cbn [app]. destruct (list_eq_dec_nil (got i [e])) as [G|G]; [exact G|]. exfalso. rewrite (H G x) in F; [discriminate|]. apply in_or_app. right. now left.
Qed.
Definition is_lost (i : side) (e : event) : bool := match e with EvLost j _ => Bool.eqb i j | _ => false end.
Definition is_close (i : side) (e : event) : bool := match e with EvClose j => Bool.eqb i j | _ => false end.
Lemma no_losses i l : losses i l = [] -> forall x, In x l -> is_lost i x = false.
Proof. intros H x X. destruct (is_lost i x) eqn:E; [|reflexivity]. destruct x; try discriminate. exfalso. cbn in E. assert (Y : In p (losses i l)) by (apply in_flat_map; eexists; split; [exact X|]; cbn; rewrite E; now left). now rewrite H in Y. Qed.
Lemma losses_same i l e : is_lost i e = false -> losses i (l ++ [e]) = losses i l.
Proof. intro H. rewrite losses_snoc. destruct e; cbn in *; rewrite ?H; apply app_nil_r. Qed.

Record InvD (T : toks) (w : world) : Prop := {
  d_loop : forall i s, delayed (tr w i) = Some s -> t_loop (tr w i) = true;
  d_closed : forall i, closed w i = true -> losses i (w_log w) <> [] \/ (exists t, In (t, (i, JClose)) (w_jobs w)) \/ tget T i = Closing;
  d_lost : forall i, losses i (w_log w) <> [] -> closed w i = true /\ (w_kind w = ToProtocol -> closed w (negb i) = true) /\ (t_protocol (tr w i) = None \/ tget T i = Losing);
  d_losing : forall i, tget T i = Losing -> losses i (w_log w) <> [];
  d_none : forall i, t_protocol (tr w i) = None -> losses i (w_log w) <> [];
  d_after : forall i, silent i (is_lost i) (w_log w)
}.
Definition OwedD (T : toks) (i : side) (x : payload) (w : world) : Prop := InvD T w /\ (w_kind w = ToProtocol -> losses (negb i) (w_log w) <> [] -> t_protocol (tr w (negb i)) = None).
Theorem invD B n hs w w' : history_only okD B hs -> lost_quietly B -> w_jobs w = [] -> InvD idle w -> steps B n w hs = Some w' -> InvD idle w'.
Proof.
  intros [HB HH] Q J P E. apply (steps_inv B okD true InvD OwedD) with (good := fun _ _ => True) (n := n) (hs := hs) (w := w); try exact P; try exact E; try (apply goods_all); try exact HB; try exact HH; try exact Q; [..|rewrite J; intros ? ? []]; clear P E J HB HH hs w w' Q.
  - intros T w i d I0 Ba Fu O C w1.
    assert (X : InvD T w1).
    { destruct I0. assert (Lg : w_log w1 = w_log w ++ [EvWrite i d]) by (unfold w1; cbn [log w_log]; now rewrite log_set). assert (Ls : forall k, losses k (w_log w1) = losses k (w_log w)) by (intro k; rewrite Lg; now apply losses_same).
      assert (Cl : forall k, closed w1 k = closed w k) by (intro k; unfold closed, w1; rewrite tr_log; revert k; now apply (tr_case w (fun k t => t_closed t = t_closed (tr w k)))).
      assert (Pr : forall k, t_protocol (tr w1 k) = t_protocol (tr w k)) by (intro k; unfold w1; rewrite tr_log; revert k; now apply (tr_case w (fun k t => t_protocol t = t_protocol (tr w k)))).
      split.
      - intro k. unfold w1. rewrite tr_log. revert k. apply (tr_case w (fun k t => forall s, delayed t = Some s -> t_loop t = true)); [apply (d_loop0 i)|apply d_loop0].
      - intros k X. rewrite Ls. rewrite Cl in X. destruct (d_closed0 k X) as [Y|[Y|Y]]; auto. right. left. unfold w1. cbn [log w_jobs]. now rewrite jobs_set.
      - intros k X. rewrite Ls in X. rewrite !Cl, Pr. unfold w1. cbn [log w_kind]. rewrite kind_set. now apply d_lost0.
      - intros k X. rewrite Ls. auto.
      - intros k X. rewrite Ls. rewrite Pr in X. auto.
      - intro k. rewrite Lg. apply silent_snoc; [auto|]. intro Y. now contradict Y. }
    assert (Nl : w_kind w1 = ToProtocol -> losses (negb i) (w_log w1) = []).
    { intro K. destruct (losses (negb i) (w_log w1)) eqn:Y; [reflexivity|]. exfalso. destruct (d_lost _ _ X (negb i)) as (_ & Z0 & _); [congruence|]. specialize (Z0 K). rewrite negb_involutive in Z0. unfold closed, w1 in Z0. autorewrite with mock in Z0. cbn in Z0. unfold closed in C. congruence. }
    destruct (delayed _); [|split; [exact X|intros K Y; now rewrite (Nl K) in Y]]. apply later_cases; [exact X|]. destruct X. split; auto. intros k Y. destruct (d_closed0 k Y) as [Z0|[[t Z0]|Z0]]; auto. right. left. exists t. cbn [set_jobs w_jobs]. apply in_or_app. now left.
  - intros T w i I0 Ba P' C Ti w1. destruct I0.
    assert (Lg : w_log w1 = w_log w ++ [EvClose i]) by (unfold w1; cbn [log w_log]; now rewrite log_set). assert (Ls : forall k, losses k (w_log w1) = losses k (w_log w)) by (intro k; rewrite Lg; now apply losses_same).
    assert (Cl : forall k, closed w k = true -> closed w1 k = true) by (intro k; unfold closed, w1; rewrite tr_log; revert k; now apply (tr_case w (fun k t => t_closed (tr w k) = true -> t_closed t = true))).
    assert (Ci : closed w1 (negb i) = closed w (negb i)) by (unfold w1, closed; now autorewrite with mock).
    assert (Pr : forall k, t_protocol (tr w1 k) = t_protocol (tr w k)) by (intro k; unfold w1; rewrite tr_log; revert k; now apply (tr_case w (fun k t => t_protocol t = t_protocol (tr w k)))).
    assert (X : forall T' w2, w_log w2 = w_log w1 -> w_kind w2 = w_kind w1 -> (forall k, tr w2 k = tr w1 k) -> (forall k t, In (t, (k, JClose)) (w_jobs w) -> In (t, (k, JClose)) (w_jobs w2)) -> (forall k, tget T k <> Idle -> tget T' k = tget T k) -> (forall k, tget T' k = Losing -> tget T k = Losing) -> (exists t, In (t, (i, JClose)) (w_jobs w2)) \/ tget T' i = Closing -> InvD T' w2).
    { intros T' w2 Lg2 K2 Tr2 J2 T2 T3 Z0. assert (K1 : w_kind w1 = w_kind w) by (unfold w1; cbn [log w_kind]; apply kind_set). assert (Cl2 : forall k, closed w2 k = closed w1 k) by (intro k; unfold closed; now rewrite Tr2). split.
      - intro k. rewrite Tr2. unfold w1. rewrite tr_log. revert k. apply (tr_case w (fun k t => forall s, delayed t = Some s -> t_loop t = true)); [apply (d_loop0 i)|apply d_loop0].
      - intros k X. rewrite Lg2, Ls. rewrite Cl2 in X. destruct (Bool.bool_dec k i) as [->|N]; [tauto|]. apply other_side in N; subst k. rewrite Ci in X. destruct (d_closed0 _ X) as [Y|[[t Y]|Y]]; [now left|right; left; exists t; auto|right; right; rewrite T2; congruence].
      - intros k X. rewrite Lg2, Ls in X. rewrite !Cl2, Tr2, Pr, K2, K1. destruct (d_lost0 k X) as (Y1 & Y2 & Y3). split; [auto|]. split; [auto|]. destruct Y3 as [Y3|Y3]; [now left|right; rewrite T2; congruence].
      - intros k X. rewrite Lg2, Ls. auto.
      - intros k X. rewrite Lg2, Ls. rewrite Tr2, Pr in X. auto.
      - intro k. rewrite Lg2, Lg. apply silent_snoc; [auto|]. intro Y. now contradict Y. }
    assert (J1 : w_jobs w1 = w_jobs w) by (unfold w1; cbn [log w_jobs]; apply jobs_set).
    destruct (delayed (tr w i)) as [s|] eqn:De.
    + split; [intros _; exact (d_loop0 i s De)|]. unfold later. assert (t_loop (tr w1 i) = true) as -> by (unfold w1; autorewrite with mock; cbn; exact (d_loop0 i s De)). cbn [fst]. apply X; auto.
      * intros k t Y. cbn [set_jobs w_jobs]. rewrite J1. apply in_or_app. now left.
      * left. exists (w_now w1 + s). cbn [set_jobs w_jobs]. apply in_or_app. right. now left.
    + apply X; auto.
      * intros k t Y. now rewrite J1.
      * intros k Y. destruct (Bool.bool_dec k i) as [->|N]; [congruence|]. apply other_side in N; subst k. apply tget_neg.
      * intros k Y. destruct (Bool.bool_dec k i) as [->|N]; [rewrite tget_same in Y; discriminate|]. apply other_side in N; subst k. now rewrite tget_neg in Y.
      * right. apply tget_same.
  - intros T w i l d I0 Ba O. destruct l; [|destruct O]. destruct I0. set (w1 := set_tr _ _ _).
    assert (Cl : forall k, closed w1 k = closed w k) by (intro k; unfold closed, w1; revert k; now apply (tr_case w (fun k t => t_closed t = t_closed (tr w k)))).
    assert (Pr : forall k, t_protocol (tr w1 k) = t_protocol (tr w k)) by (intro k; unfold w1; revert k; now apply (tr_case w (fun k t => t_protocol t = t_protocol (tr w k)))).
    assert (Lg : w_log w1 = w_log w) by (unfold w1; apply log_set). split.
    + intro k. unfold w1. revert k. apply (tr_case w (fun k t => forall s, delayed t = Some s -> t_loop t = true)); [|apply d_loop0]. reflexivity.
    + intros k X. rewrite Lg. rewrite Cl in X. unfold w1. rewrite jobs_set. auto.
    + intros k X. rewrite Lg in X. rewrite !Cl, Pr. unfold w1. rewrite kind_set. auto.
    + intros k X. rewrite Lg. auto.
    + intros k X. rewrite Pr in X. rewrite Lg. auto.
    + intro k. rewrite Lg. auto.
  - intros T w i p _ _ [].
  - intros T w i x p [I0 Nl] Ba Fu K Pr. destruct I0.
    assert (L0 : losses (negb i) (w_log w) = []) by (destruct (losses (negb i) (w_log w)) eqn:Y; [reflexivity|exfalso; rewrite Nl in Pr; [discriminate|exact K|discriminate]]).
    split; cbn [log w_log]; [exact d_loop0| | | | |].
    + intros k. rewrite losses_same by reflexivity. apply d_closed0.
    + intros k. rewrite losses_same by reflexivity. apply d_lost0.
    + intros k. rewrite losses_same by reflexivity. apply d_losing0.
    + intros k. rewrite losses_same by reflexivity. apply d_none0.
    + intro k. apply silent_snoc; [auto|]. cbn. destruct (Bool.eqb k (negb i)) eqn:Y; [|intro Z0; now contradict Z0]. apply Bool.eqb_prop in Y. subst k. intros _. now apply no_losses.
  - intros T w i x [I0 Nl] Ba Fu K Pr. exact I0.
  - intros T w i d [I0 Nl] Ba K. destruct I0. split; cbn [log w_log]; [exact d_loop0| | | | |].
    + intros k. rewrite losses_same by reflexivity. apply d_closed0.
    + intros k. rewrite losses_same by reflexivity. apply d_lost0.
    + intros k. rewrite losses_same by reflexivity. apply d_losing0.
    + intros k. rewrite losses_same by reflexivity. apply d_none0.
    + intro k. apply silent_snoc; [auto|]. intro Y. now contradict Y.
  - intros T w i z [I0 Nl] Ba K. exact I0.
  - intros T w i Ti I0 Ba Fu Pr. destruct I0. split; auto.
    + intros k X. destruct (Bool.bool_dec k i) as [->|N]; [left; auto|]. apply other_side in N; subst k. rewrite tget_neg. auto.
    + intros k X. destruct (d_lost0 k X) as (Y1 & Y2 & Y3). split; [exact Y1|]. split; [exact Y2|]. destruct (Bool.bool_dec k i) as [->|N]; [now left|]. apply other_side in N; subst k. rewrite tget_neg. auto.
    + intros k X. destruct (Bool.bool_dec k i) as [->|N]; [rewrite tget_same in X; discriminate|]. apply other_side in N; subst k. rewrite tget_neg in X. auto.
  - intros T w i p Ti I0 Ba Fu Pr. destruct I0. assert (Bi : closed w i = true) by (apply Ba; congruence).
    assert (Li : losses i (w_log w ++ [EvLost i p]) <> []) by (rewrite losses_snoc; cbn; rewrite Bool.eqb_reflx; intro Y; apply app_eq_nil in Y as [_ Y]; discriminate).
    assert (Ln : losses (negb i) (w_log w ++ [EvLost i p]) = losses (negb i) (w_log w)) by (apply losses_same; cbn; apply eqb_neg').
    split; cbn [log w_log]; [exact d_loop0| | | | |].
    + intros k X. destruct (Bool.bool_dec k i) as [->|N]; [now left|]. apply other_side in N; subst k. rewrite Ln, tget_neg. exact (d_closed0 _ X).
    + intros k X. destruct (Bool.bool_dec k i) as [->|N]; [split; [exact Bi|split; [intro K; now apply Fu|right; apply tget_same]]|]. apply other_side in N; subst k. rewrite Ln in X. rewrite tget_neg. exact (d_lost0 _ X).
    + intros k X. destruct (Bool.bool_dec k i) as [->|N]; [exact Li|]. apply other_side in N; subst k. rewrite Ln. rewrite tget_neg in X. exact (d_losing0 _ X).
    + intros k X. destruct (Bool.bool_dec k i) as [->|N]; [exact Li|]. apply other_side in N; subst k. rewrite Ln. exact (d_none0 _ X).
    + intro k. apply silent_snoc; [auto|]. intro Y. now contradict Y.
  - intros T w i Ti I0 Ba Fu. destruct I0. set (w1 := set_tr _ _ _).
    assert (Cl : forall k, closed w1 k = closed w k) by (intro k; unfold closed, w1; revert k; now apply (tr_case w (fun k t => t_closed t = t_closed (tr w k)))).
    assert (Bi : closed w i = true) by (apply Ba; congruence).
    assert (Li : losses i (w_log w) <> []) by auto. assert (Pn : t_protocol (tr w1 (negb i)) = t_protocol (tr w (negb i))) by (unfold w1; now rewrite tr_set_neg). assert (Pi : t_protocol (tr w1 i) = None) by (unfold w1; now rewrite tr_set_same).
    assert (Lg : w_log w1 = w_log w) by (unfold w1; apply log_set). split; rewrite ?Lg.
    + intro k. unfold w1. revert k. apply (tr_case w (fun k t => forall s, delayed t = Some s -> t_loop t = true)); [apply (d_loop0 i)|apply d_loop0].
    + intros k X. rewrite Cl in X. destruct (Bool.bool_dec k i) as [->|N]; [now left|]. apply other_side in N; subst k. rewrite tget_neg. unfold w1. rewrite jobs_set. auto.
    + intros k X. rewrite !Cl. unfold w1 at 1. rewrite kind_set. destruct (d_lost0 k X) as (Y1 & Y2 & Y3). split; [exact Y1|]. split; [exact Y2|]. destruct (Bool.bool_dec k i) as [->|N]; [now left|]. apply other_side in N; subst k. rewrite Pn, tget_neg. exact Y3.
    + intros k X. destruct (Bool.bool_dec k i) as [->|N]; [rewrite tget_same in X; discriminate|]. apply other_side in N; subst k. rewrite tget_neg in X. auto.
    + intros k X. destruct (Bool.bool_dec k i) as [->|N]; [exact Li|]. apply other_side in N; subst k. rewrite Pn in X. auto.
    + exact d_after0.
  - intros w d I0. destruct I0. split; auto.
  - intros w k t i j I0 _ _ N w1. assert (I1 : forall T', (forall k, tget T' k <> Losing) -> (match j with JClose => tget T' i = Closing | _ => True end) -> InvD T' w1).
    { intros T' X1 X2. destruct I0. split; auto.
      - intros k0 X. destruct (d_closed0 k0 X) as [Y|[[t0 Y]|Y]]; [now left| |destruct k0; discriminate]. right. apply In_nth_error in Y as [m Y]. destruct (Nat.eq_dec m k) as [->|Nm]; [rewrite N in Y; injection Y as <- -> ->; now right|]. left. exists t0. unfold w1. cbn [set_jobs w_jobs].
        apply nth_error_In with (n := if Nat.ltb m k then m else pred m). rewrite nth_remove. destruct (Nat.ltb_spec m k) as [L|L]; [assert (Nat.ltb m k = true) as -> by (now apply Nat.ltb_lt); exact Y|]. assert (Nat.ltb (pred m) k = false) as -> by (apply Nat.ltb_ge; lia). now replace (S (pred m)) with m by lia.
      - intros k0 X. destruct (d_lost0 k0 X) as (Y1 & Y2 & Y3). split; [exact Y1|]. split; [exact Y2|]. destruct Y3 as [Y3|Y3]; [now left|destruct k0; discriminate].
      - intros k0 X. now apply X1 in X. }
    assert (Ow : forall x, j <> JClose -> OwedD idle i x w1).
    { intros x Nj. split; [apply I1; [intros [|]; discriminate|destruct j; [exact Logic.I|congruence]]|]. intros K X. destruct (d_lost _ _ I0 (negb i) X) as (_ & _ & [Y|Y]); [exact Y|destruct i; discriminate]. }
    destruct j as [d|].
    + assert (I2 : InvD idle w1) by (apply I1; [intros [|]; discriminate|exact Logic.I]). destruct (w_loop w); [apply Ow; discriminate|]. destruct d as [|x [|y d]]; auto. apply Ow. discriminate.
    + intros _. apply I1; [intros [|]; destruct i; discriminate|apply tget_same].
Qed.

(** ** Without delays nothing comes after one's own close *)
Record InvE (T : toks) (w : world) : Prop := {
  e_kind : w_kind w = ToProtocol;
  e_delay : forall i, delayed (tr w i) = None;
  e_jobs : w_jobs w = [];
  e_both : forall i, closed w i = true -> closed w (negb i) = true \/ tget T i = Closing;
  e_close : forall i e, In e (w_log w) -> is_close i e = true -> closed w i = true;
  e_after : forall i, silent i (is_close i) (w_log w)
}.
Theorem invE B n hs w w' : history_only plain B hs -> InvE idle w -> steps B n w hs = Some w' -> InvE idle w'.
Proof.
  intros [HB HH] P E. apply (steps_inv B plain false InvE (fun T i _ w => InvE T w /\ closed w i = false)) with (good := fun _ _ => True) (n := n) (hs := hs) (w := w); try exact P; try exact E; try (apply goods_all); try exact HB; try exact HH; [..|rewrite (e_jobs _ _ P); intros ? ? []]; clear P E HB HH hs w w'.
  - intros T w i d I0 Ba Fu O C w1. destruct I0. rewrite e_delay0. assert (Cl : forall k, closed w1 k = closed w k) by (intro k; unfold closed, w1; rewrite tr_log; revert k; now apply (tr_case w (fun k t => t_closed t = t_closed (tr w k)))).
    assert (Lg : w_log w1 = w_log w ++ [EvWrite i d]) by (unfold w1; cbn [log w_log]; now rewrite log_set). split; [|now rewrite Cl]. split.
    + unfold w1. cbn [log w_kind]. now rewrite kind_set.
    + intro k. unfold w1. rewrite tr_log. revert k. apply (tr_case w (fun k t => delayed t = None)); [apply (e_delay0 i)|apply e_delay0].
    + unfold w1. cbn [log w_jobs]. now rewrite jobs_set.
    + intros k. rewrite !Cl. apply e_both0.
    + intros k e X Y. rewrite Cl. rewrite Lg in X. apply in_app_or in X as [X|[<-|[]]]; [eauto|discriminate].
    + intro k. rewrite Lg. apply silent_snoc; [auto|]. intro Y. now contradict Y.
  - intros T w i I0 Ba P' C Ti w1. destruct I0. rewrite e_delay0. assert (Ci : closed w1 i = true) by (unfold w1, closed; now autorewrite with mock). assert (Cn : closed w1 (negb i) = closed w (negb i)) by (unfold w1, closed; now autorewrite with mock).
    assert (Lg : w_log w1 = w_log w ++ [EvClose i]) by (unfold w1; cbn [log w_log]; now rewrite log_set). split.
    + unfold w1. cbn [log w_kind]. now rewrite kind_set.
    + intro k. unfold w1. rewrite tr_log. revert k. apply (tr_case w (fun k t => delayed t = None)); [apply (e_delay0 i)|apply e_delay0].
    + unfold w1. cbn [log w_jobs]. now rewrite jobs_set.
    + intros k X. destruct (Bool.bool_dec k i) as [->|N]; [right; apply tget_same|]. apply other_side in N; subst k. rewrite negb_involutive. now left.
    + intros k e X Y. rewrite Lg in X. apply in_app_or in X as [X|[<-|[]]]; [|cbn in Y; apply Bool.eqb_prop in Y; now subst]. destruct (Bool.bool_dec k i) as [->|N]; [exact Ci|]. apply other_side in N; subst k. rewrite Cn. eauto.
    + intro k. rewrite Lg. apply silent_snoc; [auto|]. intro Y. now contradict Y.
  - intros T w i l d _ _ [].
  - intros T w i p _ _ [].
  - intros T w i x p [I0 C] Ba Fu K Pr. destruct I0. split; auto.
    + intros k e X Y. cbn [log w_log] in X. apply in_app_or in X as [X|[<-|[]]]; [eapply e_close0; eauto|discriminate].
    + intro k. cbn [log w_log]. apply silent_snoc; [auto|]. cbn. destruct (Bool.eqb k (negb i)) eqn:Y; [|intro Z0; now contradict Z0]. apply Bool.eqb_prop in Y. subst k. intros _ e X. destruct (is_close (negb i) e) eqn:Z0; [|reflexivity]. exfalso. pose proof (e_close0 _ _ X Z0) as Cn.
      assert (A : closed w (negb (negb i)) = true) by (destruct (e_both0 _ Cn) as [A|A]; [exact A|exact (Fu _ A K)]). rewrite negb_involutive in A. congruence.
  - intros T w i x [I0 C] Ba Fu K Pr. exact I0.
  - intros T w i d [I0 C] Ba K. destruct I0. congruence.
  - intros T w i z [I0 C] Ba K. exact I0.
  - intros T w i Ti I0 Ba Fu Pr. destruct I0. split; auto. intros k X. destruct (Bool.bool_dec k i) as [->|N]; [left; now apply Fu|]. apply other_side in N; subst k. rewrite tget_neg. auto.
  - intros T w i p Ti I0 Ba Fu Pr. destruct I0. split; auto.
    + intros k X. destruct (Bool.bool_dec k i) as [->|N]; [left; now apply (Fu i)|]. apply other_side in N; subst k. rewrite tget_neg. exact (e_both0 _ X).
    + intros k e X Y. cbn [log w_log] in X. apply in_app_or in X as [X|[<-|[]]]; [eapply e_close0; eauto|discriminate].
    + intro k. cbn [log w_log]. apply silent_snoc; [auto|]. intro Y. now contradict Y.
  - intros T w i Ti I0 Ba Fu. destruct I0. set (w1 := set_tr _ _ _). assert (Cl : forall k, closed w1 k = closed w k) by (intro k; unfold closed, w1; revert k; now apply (tr_case w (fun k t => t_closed t = t_closed (tr w k)))). split; unfold w1; rewrite ?kind_set, ?jobs_set, ?log_set; fold w1; auto.
    + intro k. unfold w1. revert k. apply (tr_case w (fun k t => delayed t = None)); [apply (e_delay0 i)|apply e_delay0].
    + intros k X. rewrite !Cl in *. destruct (e_both0 _ X) as [Y|Y]; [now left|]. destruct (Bool.bool_dec k i) as [->|N]; [congruence|]. apply other_side in N; subst k. rewrite tget_neg. auto.
    + intros k e X Y. rewrite Cl. eauto.
  - intros T w i Ti Ba Fu I0. destruct I0. split; auto. intros k X. destruct (e_both0 _ X) as [Y|Y]; [now left|]. left. now apply Fu.
  - intros w d I0. destruct I0. split; auto.
  - intros w k t i j I0 _ _ N. rewrite (e_jobs _ _ I0) in N. now destruct k.
Qed.
