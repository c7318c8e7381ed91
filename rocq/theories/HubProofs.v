(** * Proofs about the switch with many links *)
From Coq Require Import List ZArith Bool Lia.
From Verif Require Import PyBase PyLemmas AddrModel AddrSpec AddrProofs SwitchModel SwitchProofs FragModel HubModel HubSpec.
Import ListNotations.
Open Scope Z_scope.

Section Hub.
  Context {L : Type} `{EqDec L}.
  Implicit Types (l : L) (g : list (hlog L)) (es : list (hevent L)).

  Lemma ops_app g1 g2 : ops_of (g1 ++ g2) = ops_of g1 ++ ops_of g2.
  Proof. unfold ops_of. rewrite map_app, concat_app. reflexivity. Qed.
  Lemma handled_app l g1 g2 : handled l (g1 ++ g2) = handled l g1 ++ handled l g2.
  Proof. unfold handled. rewrite map_app, concat_app. reflexivity. Qed.
  Lemma sw_run_app os1 os2 : forall s : switch L, sw_run (os1 ++ os2) s = bind (sw_run os1 s) (sw_run os2).
  Proof. induction os1 as [|o os1 IH]; intros s; [reflexivity|]. cbn [app sw_run]. destruct (sw_step o s); [apply IH|reflexivity]. Qed.
  Lemma registered_app os1 os2 : forall m : L -> option pystr, registered (os1 ++ os2) m = registered os2 (registered os1 m).
  Proof. induction os1 as [|o os1 IH]; intros m; [reflexivity|]. cbn [app registered]. apply IH. Qed.

  Lemma outbound_reach os dest s ls : sw_run os sw_empty = Ok s -> sw_outbound dest s = Ok ls ->
    should_reach (registered os unregistered) dest ls.
  Proof.
    intros R O. unfold should_reach.
    destruct (from_string ClsBlock dest) as [a|e] eqn:F.
    - assert (N : NoDup ls).
      { unfold sw_outbound in O. destruct (negb _); [injection O as <-; constructor|]. rewrite F in O.
        assert (Oa : block_ok a) by (apply from_string_ok in F; exact F).
        destruct (loop_spec 5 (sw_addr s) [] a Oa) as (ls' & E & N & _).
        - unfold lead. destruct a as [[|?] [|?] [|?] [|?]]; cbn; lia.
        - rewrite E in O. injection O as <-. apply N. constructor. }
      split; [exact N|]. split.
      + intros P. destruct (outbound_prefix os dest a F P) as (s' & ls' & R' & O' & _ & I). rewrite R in R'. injection R' as <-.
        rewrite O in O'. injection O' as <-. exact I.
      + intros l Hl. destruct (outbound_sound os dest s ls l R O Hl) as (a' & b & Fa & C & M). rewrite F in Fa. injection Fa as <-. eauto.
    - unfold sw_outbound in O. destruct (is_valid_string ClsBlock dest) eqn:V; cbn [negb] in O.
      + rewrite F in O. discriminate.
      + injection O as <-. split; [constructor|reflexivity].
  Qed.

  (** what a log entry must satisfy, given the registrations before it *)
  Definition entry_ok (os : list (swop L)) (x : hlog L) : Prop :=
    match x with
    | GPacket _ (PWire p) ws => exists ls, ws = map (fun l' => (l', p)) ls /\ should_reach (registered os unregistered) (w_dst p) ls
    | GPacket _ _ ws => ws = []
    | GLost _ => True
    end.
  Fixpoint log_ok (os : list (swop L)) g : Prop :=
    match g with [] => True | x :: r => entry_ok os x /\ log_ok (os ++ ops_of [x]) r end.
  Lemma log_ok_app os g1 g2 : log_ok os g1 -> log_ok (os ++ ops_of g1) g2 -> log_ok os (g1 ++ g2).
  Proof.
    revert os. induction g1 as [|x g1 IH]; intros os A B; cbn [app].
    - unfold ops_of in B. cbn in B. rewrite app_nil_r in B. exact B.
    - destruct A as [A1 A2]. split; [exact A1|]. apply IH; [exact A2|]. rewrite <- app_assoc, <- ops_app. exact B.
  Qed.
  Lemma log_ok_split os g1 x g2 : log_ok os (g1 ++ x :: g2) -> entry_ok (os ++ ops_of g1) x.
  Proof.
    revert os. induction g1 as [|y g1 IH]; intros os A; cbn [app] in A; destruct A as [A1 A2].
    - unfold ops_of. cbn. rewrite app_nil_r. exact A1.
    - apply IH in A2. rewrite <- app_assoc, <- ops_app in A2. exact A2.
  Qed.
  Lemma ops1_run os x s s' : sw_run os sw_empty = Ok s -> (match ops_of [x] with [] => s' = s | o :: _ => sw_step o s = Ok s' end) ->
    sw_run (os ++ ops_of [x]) sw_empty = Ok s'.
  Proof.
    intros R S. rewrite sw_run_app, R. cbn [bind]. destruct x as [l p ws|l]; [destruct p|]; cbn in S |- *; subst; try reflexivity; now rewrite S.
  Qed.
  Lemma step_total os o s : sw_run os sw_empty = Ok s -> exists s' : switch L, sw_step o s = Ok s' /\ sw_run (os ++ [o]) sw_empty = Ok s'.
  Proof.
    intros R. destruct (run_ok (os ++ [o])) as (s' & R' & _). exists s'. split; [|exact R'].
    rewrite sw_run_app, R in R'. cbn [bind sw_run] in R'. destruct (sw_step o s); [exact R'|discriminate].
  Qed.
  Lemma send_all_up p up ls : (forall l, In l ls -> In l up) -> send_all p up ls = (map (fun l => (l, p)) ls, true).
  Proof.
    induction ls as [|l ls IH]; intros A; [reflexivity|]. cbn [send_all map].
    assert (X : smem up l = true) by (apply smem_true, A; left; reflexivity). rewrite X, IH by (intros; apply A; right; auto). reflexivity.
  Qed.
  Definition up_ok (os : list (swop L)) (up : list L) : Prop := forall l a, registered os unregistered l = Some a -> In l up.
  Lemma up_ok_reg os up a l : up_ok os up -> In l up -> up_ok (os ++ [SReg a l]) up.
  Proof.
    intros U I l' a' R. rewrite registered_app in R. cbn [registered reg_step] in R. destruct (eq_dec l' l); [subst; exact I|]. eapply U; eauto.
  Qed.

  Lemma hub_loop_ok l up ps : forall os sw, sw_run os sw_empty = Ok sw -> In l up -> up_ok os up ->
    exists sw' log rest, hub_loop l up ps sw = (sw', log, rest) /\ log_ok os log /\ sw_run (os ++ ops_of log) sw_empty = Ok sw' /\
      up_ok (os ++ ops_of log) up /\ handled l log ++ rest = ps /\ (forall l', l' <> l -> handled l' log = []) /\
      (Forall (fun p => ~ poison p) ps -> rest = []).
  Proof.
    induction ps as [|p ps IH]; intros os sw R Il U.
    - exists sw, [], []. cbn. rewrite app_nil_r. auto 10.
    - assert (X : (exists sw1 x, (forall r' s2 log rest, hub_loop l up ps sw1 = (s2, log, rest) -> r' = (s2, x :: log, rest) -> hub_loop l up (p :: ps) sw = r') /\
                 entry_ok os x /\ (exists ws, x = GPacket l p ws) /\ sw_run (os ++ ops_of [x]) sw_empty = Ok sw1 /\ up_ok (os ++ ops_of [x]) up) \/
                (poison p /\ hub_loop l up (p :: ps) sw = (sw, [GPacket l p []], ps) /\ entry_ok os (GPacket l p []) /\ ops_of [GPacket l p []] = [])).
      { destruct p as [a|w|].
        - left. destruct (step_total os (SReg a l) sw R) as (sw1 & E1 & R1). cbn [sw_step] in E1.
          exists sw1, (GPacket l (PAnnounce a) []). split; [|split; [reflexivity|split; [eauto|split; [exact R1|apply up_ok_reg; auto]]]].
          intros r' s2 log rest E ->. cbn [hub_loop]. rewrite E1, E. reflexivity.
        - destruct (outbound_invalid os (w_dst w) sw R) as [_ Q]. destruct (sw_outbound (w_dst w) sw) as [ls|e] eqn:E.
          + left. pose proof (outbound_reach os (w_dst w) sw ls R E) as SR.
            assert (A : forall l', In l' ls -> In l' up).
            { intros l' Hl'. destruct (outbound_sound os (w_dst w) sw ls l' R E Hl') as (a & b & _ & _ & M). eapply U; eauto. }
            exists sw, (GPacket l (PWire w) (map (fun l' => (l', w)) ls)). split; [|split; [|split; [eauto|split]]].
            * intros r' s2 log rest E' ->. cbn [hub_loop]. rewrite E, send_all_up by exact A. rewrite E'. reflexivity.
            * cbn [entry_ok]. eauto.
            * cbn. rewrite app_nil_r. exact R.
            * cbn. rewrite app_nil_r. exact U.
          + right. destruct (proj1 (Q e) eq_refl) as [V F]. split; [split; [exact V|eauto]|]. split; [cbn [hub_loop]; rewrite E; reflexivity|]. split; [|reflexivity].
            cbn [entry_ok]. exists []. split; [reflexivity|]. unfold should_reach. rewrite F. split; [constructor|reflexivity].
        - left. exists sw, (GPacket l POther []). split; [|split; [reflexivity|split; [eauto|split; cbn; rewrite app_nil_r; auto]]].
          intros r' s2 log rest E ->. cbn [hub_loop]. rewrite E. reflexivity. }
      assert (H1 : forall ws, handled l [GPacket l p ws] = [p]) by (intros ws; unfold handled; cbn; destruct (eq_dec l l); [reflexivity|congruence]).
      assert (H2 : forall l' ws, l' <> l -> handled l' [GPacket l p ws] = []) by (intros l' ws N; unfold handled; cbn; destruct (eq_dec l l'); [congruence|reflexivity]).
      destruct X as [(sw1 & x & E & EO & (ws & ->) & R1 & U1)|(P & E & EO & O0)].
      + destruct (IH _ sw1 R1 Il U1) as (sw' & log & rest & E' & LO & R' & U' & Hh & Ho & Hp).
        exists sw', (GPacket l p ws :: log), rest. split; [eapply E; [exact E'|reflexivity]|]. split; [split; [exact EO|exact LO]|].
        change (GPacket l p ws :: log) with ([GPacket l p ws] ++ log). rewrite ops_app, app_assoc, handled_app, H1. split; [exact R'|]. split; [exact U'|].
        split; [cbn [app]; f_equal; exact Hh|]. split.
        * intros l' N. rewrite handled_app, H2, Ho by exact N. reflexivity.
        * intros F. inversion F; subst. auto.
      + exists sw, [GPacket l p []], ps. split; [exact E|]. split; [split; [exact EO|exact I]|]. rewrite O0, app_nil_r, H1. split; [exact R|]. split; [exact U|].
        split; [reflexivity|]. split; [intros l' N; apply H2; exact N|]. intros F. inversion F; subst. contradiction.
  Qed.

  Lemma hub_run_ok es : forall os s, sw_run os sw_empty = Ok (h_sw s) -> up_ok os (h_up s) ->
    forall up, NoDup (h_up s) -> (forall l, In l (h_up s) <-> up l = true) -> well_behaved up es ->
    exists s' g, hub_run es s = (s', g) /\ log_ok os g /\ sw_run (os ++ ops_of g) sw_empty = Ok (h_sw s') /\
      (forall l, handled l g ++ queue_of l s' = queue_of l s ++ received l es) /\
      (forall l, Forall (fun p => ~ poison p) (queue_of l s ++ received l es) -> queue_of l s = [] -> queue_of l s' = []).
  Proof.
    induction es as [|e es IH]; intros os s R U up ND Up W.
    - exists s, []. cbn. rewrite app_nil_r. split; [reflexivity|]. split; [exact I|]. split; [exact R|]. split; [intros; rewrite app_nil_r; reflexivity|]. auto.
    - cbn [well_behaved] in W. destruct e as [l|l ps|l]; destruct W as [W1 W2].
      + cbn [hub_run hub_step].
        destruct (IH os (Hub (h_sw s) (sadd (h_up s) l) (h_queue s)) R) with (up := fun x => if eq_dec x l then true else up x) as (s' & g & E & LO & R' & Q & P).
        { intros l' a M. apply in_sadd. right. eapply U; eauto. }
        { apply nodup_sadd. exact ND. }
        { intros l'. cbn [h_up]. rewrite in_sadd, Up. destruct (eq_dec l' l); [tauto|]. intuition congruence. }
        { exact W2. }
        rewrite E. exists s', g. split; [reflexivity|]. split; [exact LO|]. split; [exact R'|]. split; [exact Q|exact P].
      + cbn [hub_run hub_step].
        destruct (hub_loop_ok l (h_up s) (queue_of l s ++ ps) os (h_sw s) R (proj2 (Up l) W1) U) as (sw1 & log & rest & E1 & LO1 & R1 & U1 & Hh & Ho & Hp).
        rewrite E1.
        destruct (IH (os ++ ops_of log) (Hub sw1 (h_up s) (dset (h_queue s) l rest)) R1 U1 up ND Up W2) as (s' & g & E & LO & R' & Q & P).
        rewrite E. exists s', (log ++ g). split; [reflexivity|]. split; [apply log_ok_app; [exact LO1|exact LO]|].
        rewrite ops_app, app_assoc. split; [exact R'|].
        assert (Qs : forall l', queue_of l' (Hub sw1 (h_up s) (dset (h_queue s) l rest)) = if eq_dec l' l then rest else queue_of l' s).
        { intros l'. unfold queue_of. cbn [h_queue]. destruct (eq_dec l' l) as [->|N]; [rewrite dget_dset_same; reflexivity|rewrite dget_dset_other by exact N; reflexivity]. }
        split.
        * intros l'. rewrite handled_app, <- app_assoc, Q, Qs. unfold received. cbn [map concat]. fold (received l' es).
          destruct (eq_dec l' l) as [->|N].
          -- destruct (eq_dec l l); [|congruence]. rewrite app_assoc, Hh, app_assoc. reflexivity.
          -- rewrite Ho by exact N. destruct (eq_dec l l'); [congruence|]. reflexivity.
        * intros l' F Q0. apply P.
          -- rewrite Qs. unfold received in F. cbn [map concat] in F. fold (received l' es) in F. destruct (eq_dec l' l) as [->|N].
             ++ destruct (eq_dec l l); [|congruence]. rewrite app_assoc in F. apply Forall_app in F. destruct F as [F1 F2]. rewrite (Hp F1). exact F2.
             ++ destruct (eq_dec l l'); [congruence|]. exact F.
          -- rewrite Qs. destruct (eq_dec l' l) as [->|N]; [|exact Q0]. apply Hp. unfold received in F. cbn [map concat] in F. destruct (eq_dec l l); [|congruence].
             rewrite app_assoc in F. apply Forall_app in F. apply F.
      + cbn [hub_run hub_step]. destruct (step_total os (SUnreg l) (h_sw s) R) as (sw1 & E1 & R1). cbn [sw_step] in E1. rewrite E1.
        destruct (IH (os ++ [SUnreg l]) (Hub sw1 (sremove (h_up s) l) (h_queue s)) R1) with (up := fun x => if eq_dec x l then false else up x) as (s' & g & E & LO & R' & Q & P).
        { intros l' a M. rewrite registered_app in M. cbn [registered reg_step] in M. cbn [h_up]. apply in_sremove; [exact ND|]. destruct (eq_dec l' l); [discriminate|]. split; [eapply U; eauto|auto]. }
        { apply nodup_sremove. exact ND. }
        { intros l'. cbn [h_up]. rewrite in_sremove by exact ND. rewrite Up. destruct (eq_dec l' l); [intuition congruence|tauto]. }
        { exact W2. }
        rewrite E. exists s', (GLost l :: g). split; [reflexivity|]. split; [split; [exact I|exact LO]|].
        split; [change (GLost l :: g) with ([GLost l] ++ g); rewrite ops_app, app_assoc; exact R'|]. split; [exact Q|exact P].
  Qed.
End Hub.
