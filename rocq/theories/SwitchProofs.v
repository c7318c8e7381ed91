From Coq Require Import List ZArith Bool Lia.
From Verif Require Import PyBase PyLemmas AddrModel SwitchModel AddrSpec AddrProofs.
Import ListNotations.
Open Scope Z_scope.

Section SwP.
  Context {L : Type} `{EqDec L}.

  Definition swinv (s : switch L) (m : L -> option pystr) : Prop :=
    NoDup (dkeys (sw_link s)) /\ NoDup (dkeys (sw_addr s)) /\
    (forall a ls, dget (sw_addr s) a = Some ls -> NoDup ls) /\
    (forall l, dget (sw_link s) l = m l) /\
    (forall l a, (exists ls, dget (sw_addr s) a = Some ls /\ In l ls) <-> m l = Some a) /\
    (forall l a, m l = Some a -> is_valid_string ClsBlock a = true).

  Lemma swinv_empty : swinv sw_empty unregistered.
  Proof. repeat split; simpl; try constructor; try discriminate. intros [? [? _]]; discriminate. Qed.

  Lemma unreg_spec p s m : swinv s m ->
    exists s', sw_unregister p s = Ok s' /\ swinv s' (reg_step (SUnreg p) m).
  Proof.
    intros (NL & NA & NS & ML & MA & V). unfold sw_unregister.
    destruct (dget (sw_link s) p) as [old|] eqn:E.
    - assert (M : m p = Some old) by (rewrite <- ML; auto).
      destruct (proj2 (MA p old) M) as (ls & G & I). rewrite G.
      replace (smem ls p) with true by (symmetry; now apply smem_true).
      eexists. split; [reflexivity|]. repeat split; simpl.
      + now apply nodup_ddel.
      + now apply nodup_dset.
      + intros a ls'. rewrite dget_dset. destruct (eq_dec a old); [|apply NS].
        intros [= <-]. apply nodup_sremove. eauto.
      + intros l. rewrite dget_ddel by auto. destruct (eq_dec l p); auto.
      + intros (ls' & G' & I'). rewrite dget_dset in G'. destruct (eq_dec a old).
        * subst. inversion G'; subst. apply in_sremove in I' as [I1 I2]; [|eauto].
          destruct (eq_dec l p); [congruence|]. apply MA. eauto.
        * assert (m l = Some a) by (apply MA; eauto). destruct (eq_dec l p); congruence.
      + destruct (eq_dec l p); [discriminate|]. intros M'. apply MA in M' as (ls' & G' & I').
        rewrite dget_dset. destruct (eq_dec a old).
        * subst. exists (sremove ls p). split; auto. apply in_sremove; [eauto|]. split; [congruence|auto].
        * eauto.
      + intros l a. destruct (eq_dec l p); [discriminate|]. apply V.
    - exists s. split; auto. repeat split; simpl; auto.
      + intros l. destruct (eq_dec l p); [subst|]; auto.
      + intros X. destruct (eq_dec l p); [|now apply MA]. subst. apply MA in X. rewrite <- ML in X. congruence.
      + destruct (eq_dec l p); [discriminate|]. apply MA.
      + intros l a. destruct (eq_dec l p); [discriminate|]. apply V.
  Qed.

  Lemma reg_spec a p s m : swinv s m ->
    exists s', sw_register a p s = Ok s' /\ swinv s' (reg_step (SReg a p) m).
  Proof.
    intros Hs. unfold sw_register. destruct (is_valid_string ClsBlock a) eqn:Va; simpl negb; cbn iota.
    - destruct (unreg_spec p s m Hs) as (s1 & E & (NL & NA & NS & ML & MA & V)). rewrite E.
      eexists. split; [reflexivity|]. simpl in ML, MA, V.
      set (links := match dget (sw_addr s1) a with None => [p] | Some ls => sadd ls p end).
      assert (Lk : forall l, In l links <-> l = p \/ exists ls, dget (sw_addr s1) a = Some ls /\ In l ls).
      { intros l. unfold links. destruct (dget (sw_addr s1) a).
        - rewrite in_sadd. split; [intros [|]; eauto|]. intros [|[ls [[= <-] I]]]; auto.
        - simpl. split; [intuition|]. intros [|[ls [? _]]]; [auto|discriminate]. }
      repeat split; cbn [sw_addr sw_link reg_step].
      + now apply nodup_dset.
      + now apply nodup_dset.
      + intros b ls. rewrite dget_dset. destruct (eq_dec b a); [|apply NS]. intros [= <-].
        unfold links. destruct (dget (sw_addr s1) a) eqn:G; [apply nodup_sadd; eauto|repeat constructor; auto].
      + intros l. rewrite dget_dset, ML, Va. destruct (eq_dec l p); auto.
      + rewrite Va. intros (ls & G & I). rewrite dget_dset in G. destruct (eq_dec a0 a).
        * subst. inversion G; subst. apply Lk in I as [->|I]; [destruct (eq_dec p p); congruence|].
          apply MA in I. destruct (eq_dec l p); [discriminate|auto].
        * assert (X : (if eq_dec l p then None else m l) = Some a0) by (apply MA; eauto).
          destruct (eq_dec l p); [discriminate|auto].
      + rewrite Va. intros X. rewrite dget_dset. destruct (eq_dec a0 a).
        * subst. exists links. split; auto. apply Lk. destruct (eq_dec l p); [auto|right].
          apply MA. destruct (eq_dec l p); congruence.
        * apply MA. destruct (eq_dec l p); congruence.
      + intros l b. rewrite Va. destruct (eq_dec l p); [congruence|]. intros. apply (V l).
        destruct (eq_dec l p); congruence.
    - exists s. split; auto. destruct Hs as (NL & NA & NS & ML & MA & V).
      assert (Q : forall l, reg_step (SReg a p) m l = m l).
      { intros l. simpl. rewrite Va. destruct (eq_dec l p); auto. }
      repeat split; auto.
      + intros l. rewrite Q. auto.
      + rewrite Q. apply MA.
      + rewrite Q. apply MA.
      + intros l b. rewrite Q. apply V.
  Qed.

  Lemma run_spec os : forall s m, swinv s m -> exists s', sw_run os s = Ok s' /\ swinv s' (registered os m).
  Proof.
    induction os as [|o os IH]; intros s m Hs; simpl; [eauto|].
    assert (X : exists s', sw_step o s = Ok s' /\ swinv s' (reg_step o m)).
    { destruct o; [now apply reg_spec|now apply unreg_spec]. }
    destruct X as (s1 & E & H1). rewrite E. simpl. now apply IH.
  Qed.

  (** loop *)
  Lemma loop_spec fuel tbl : forall acc b, block_ok b -> (lead b < fuel)%nat ->
    exists ls, outbound_loop fuel tbl acc (Some b) = Ok ls /\
      (NoDup acc -> NoDup ls) /\
      forall l : L, In l ls <-> In l acc \/
        exists n c, (n <= lead b)%nat /\ nth_parent n b = Ok (Some c) /\
          exists xs, dget tbl (addr_str c) = Some xs /\ In l xs.
  Proof.
    induction fuel as [|f IH]; intros acc b O Lf; [lia|]. cbn [outbound_loop].
    set (acc' := sunion acc _).
    assert (A' : forall l, In l acc' <-> In l acc \/ exists xs, dget tbl (addr_str b) = Some xs /\ In l xs).
    { intros l. unfold acc'. rewrite in_sunion. destruct (dget tbl (addr_str b)).
      - split; [intros [|]; eauto|]. intros [|[xs [[= <-] ?]]]; auto.
      - simpl. split; [intuition|]. intros [|[xs [? _]]]; [auto|discriminate]. }
    assert (N' : NoDup acc -> NoDup acc') by (apply nodup_sunion).
    destruct (lead b) as [|k] eqn:Lb.
    - rewrite (proj2 (parent_none b)) by now apply lead0.
      exists acc'. split; [destruct f; reflexivity|]. split; auto. intros l. rewrite A'. split.
      + intros [|X]; auto. right. exists 0%nat, b. simpl. auto.
      + intros [|(n & c & Hn & E & X)]; auto. right. replace n with 0%nat in E by lia. simpl in E. inversion E; subst; auto.
    - assert (Z : a_zone b <> Star) by (rewrite <- lead0; lia).
      destruct (parent_some b O Z) as (c & E & Oc & Lc & Cc & _). rewrite E.
      destruct (IH acc' c Oc) as (ls & E2 & N2 & I2); [lia|]. exists ls. split; auto. split; auto.
      intros l. rewrite I2, A'. rewrite Lc, Lb. simpl pred.
      assert (SH : forall n, nth_parent (S n) b = nth_parent n c).
      { intros n. induction n; [simpl; auto|]. cbn [nth_parent] in *. rewrite IHn. reflexivity. }
      split.
      + intros [[?|X]|(n & d & Hn & En & X)]; auto.
        * right. exists 0%nat, b. simpl. split; [lia|auto].
        * right. exists (S n), d. rewrite SH. split; [lia|auto].
      + intros [?|([|n] & d & Hn & En & X)]; auto.
        * simpl in En. inversion En; subst. auto.
        * right. exists n, d. rewrite SH in En. split; [lia|auto].
  Qed.

  (** more fuel changes nothing *)
  Lemma loop_fuel_enough fuel tbl acc b : block_ok b -> (5 <= fuel)%nat ->
    outbound_loop fuel tbl acc (Some b) = outbound_loop 5 tbl (acc : list L) (Some b).
  Proof.
    intros O F. assert (G : forall f g acc b, block_ok b -> (lead b < f)%nat -> (lead b < g)%nat ->
      outbound_loop f tbl (acc : list L) (Some b) = outbound_loop g tbl acc (Some b)).
    { clear. induction f as [|f IH]; intros g acc b O F G; [lia|]. destruct g as [|g]; [lia|]. simpl.
      destruct (lead b) as [|k] eqn:Lb.
      - rewrite (proj2 (parent_none b)) by now apply lead0. destruct f, g; reflexivity.
      - assert (Z : a_zone b <> Star) by (rewrite <- lead0; lia).
        destruct (parent_some b O Z) as (c & E & Oc & Lc & Cc & _). rewrite E. apply IH; auto; lia. }
    pose proof (lead_le b). apply G; auto; lia.
  Qed.

  (** for prefix-shaped addresses, the chain = the covering prefix-shaped blocks *)
  Lemma prefix_parent a : block_ok a -> prefix_shaped a -> forall n c, nth_parent n a = Ok (Some c) ->
    block_ok c /\ prefix_shaped c /\ covers c a.
  Proof.
    intros O P n. induction n; intros c E; simpl in E.
    - inversion E; subst. repeat split; try apply O; try apply P; apply covers_refl.
    - destruct (nth_parent n a) as [[b|]|] eqn:En; try discriminate.
      destruct (IHn b eq_refl) as (Ob & Pb & Cb).
      destruct (lead b) eqn:Lb.
      + rewrite (proj2 (parent_none b)) in E by now apply lead0. discriminate.
      + destruct (parent_some b Ob) as (c' & E' & Oc & Lc & Cc & Sc); [rewrite <- lead0; lia|].
        rewrite E in E'. inversion E'; subst c'. split; auto. split; [|eapply covers_trans; eauto].
        clear -Sc Pb. unfold prefix_shaped, lead in *.
        destruct b as [[|] [|] [|] [|]]; simpl in *; destruct c as [z' n' d' i']; simpl in *; inversion Sc; subst; intuition congruence.
  Qed.
  Ltac crush_star :=
    repeat match goal with
      | H : _ /\ _ |- _ => destruct H
      | H : ?x = ?x -> _ |- _ => specialize (H eq_refl)
      | H : Num _ = Star -> _ |- _ => clear H
      | H : Num _ = Star |- _ => discriminate H
      | H : Star = Num _ |- _ => discriminate H
      | H : Star = Star |- _ => clear H
      | H : Num _ = Star \/ _ |- _ => destruct H as [H|H]; [discriminate H|]
      | H : Star = Star \/ _ |- _ => clear H
      | H : Num _ = Num _ |- _ => injection H as H
      end; try congruence.
  Lemma prefix_covering a c : block_ok a -> prefix_shaped a -> prefix_shaped c -> covers c a ->
    exists n, (n <= lead a)%nat /\ nth_parent n a = Ok (Some c).
  Proof.
    intros O P Q C.
    assert (Lc : (lead c <= lead a)%nat).
    { unfold lead. unfold covers, covers_part in C. unfold prefix_shaped in *.
      destruct a as [[|] [|] [|] [|]], c as [[|] [|] [|] [|]]; simpl in *; try lia; exfalso; crush_star. }
    destruct (nth_parent_lead (lead a - lead c) a O) as (b & E & Ob & Lb & Cb); [lia|].
    exists (lead a - lead c)%nat. split; [lia|]. rewrite E. repeat f_equal.
    destruct (prefix_parent a O P _ _ E) as (_ & Pb & _).
    replace (lead a - (lead a - lead c))%nat with (lead c) in Lb by lia.
    clear -Lb Pb Q C Cb. unfold lead, prefix_shaped, covers, covers_part in *.
    destruct a as [az an ad ai], b as [bz bn bd bi], c as [cz cn cd ci]; simpl in *.
    destruct bz as [|bz], cz as [|cz]; simpl in Lb; try discriminate;
    destruct bn as [|bn], cn as [|cn]; simpl in Lb; try discriminate;
    destruct bd as [|bd], cd as [|cd]; simpl in Lb; try discriminate;
    destruct bi as [|bi], ci as [|ci]; simpl in Lb; try discriminate;
    crush_star.
  Qed.

  Lemma outbound_prefix os dest a : from_string ClsBlock dest = Ok a -> prefix_shaped a ->
    exists s ls, sw_run os sw_empty = Ok s /\ sw_outbound dest s = Ok ls /\ NoDup ls /\
      forall l : L, In l ls <->
        exists b, block_ok b /\ prefix_shaped b /\ covers b a /\ registered os unregistered l = Some (addr_str b).
  Proof.
    intros F P. destruct (run_spec os sw_empty unregistered swinv_empty) as (s & E & (NL & NA & NS & ML & MA & V)).
    exists s. unfold sw_outbound. rewrite (from_string_valid _ _ _ F), F. simpl negb. cbn iota.
    assert (O : block_ok a) by (apply from_string_ok in F; exact F).
    destruct (loop_spec 5 (sw_addr s) [] a O) as (ls & E2 & N & I); [pose proof (lead_le a); lia|].
    exists ls. split; auto. split; auto. split; [apply N; constructor|]. intros l. rewrite I. split.
    - intros [[]|(n & c & Hn & En & X)]. apply MA in X. destruct (prefix_parent a O P n c En) as (Oc & Pc & Cc). eauto 6.
    - intros (b & Ob & Pb & Cb & R). right. destruct (prefix_covering a b O P Pb Cb) as (n & Hn & En).
      exists n, b. split; auto. split; auto. now apply MA.
  Qed.

  Lemma outbound_sound os dest s ls l : sw_run os sw_empty = Ok s -> sw_outbound dest s = Ok ls -> In l ls ->
    exists a b, from_string ClsBlock dest = Ok a /\ covers b a /\ registered os unregistered l = Some (addr_str b).
  Proof.
    intros E Eo I. destruct (run_spec os sw_empty unregistered swinv_empty) as (s' & E' & (NL & NA & NS & ML & MA & V)).
    assert (s' = s) by congruence. subst s'. unfold sw_outbound in Eo.
    destruct (is_valid_string ClsBlock dest); simpl in Eo; [|inversion Eo; subst; contradiction].
    destruct (from_string ClsBlock dest) as [a|] eqn:F; [|discriminate].
    assert (O : block_ok a) by (apply from_string_ok in F; exact F).
    destruct (loop_spec 5 (sw_addr s) [] a O) as (ls' & E2 & N & I2); [pose proof (lead_le a); lia|].
    cbn [outbound_loop] in E2. rewrite Eo in E2. inversion E2; subst ls'.
    apply I2 in I as [[]|(n & c & Hn & En & X)]. exists a, c. split; auto. split.
    - destruct (nth_parent_lead n a O Hn) as (c' & En' & _ & _ & Cc). congruence.
    - now apply MA.
  Qed.

  Lemma outbound_invalid os dest s : sw_run os (sw_empty : switch L) = Ok s ->
    (is_valid_string ClsBlock dest = false -> sw_outbound dest s = Ok []) /\
    (forall e, sw_outbound dest s = Raise e <->
       is_valid_string ClsBlock dest = true /\ from_string ClsBlock dest = Raise e).
  Proof.
    intros E. unfold sw_outbound. split; [intros ->; reflexivity|]. intros e.
    destruct (is_valid_string ClsBlock dest); simpl negb; cbn iota; [|split; [discriminate|intros []; discriminate]].
    destruct (from_string ClsBlock dest) as [a|e'] eqn:F; [|intuition congruence].
    assert (O : block_ok a) by (apply from_string_ok in F; exact F).
    destruct (loop_spec 5 (sw_addr s) [] a O) as (ls' & E2 & N & I2); [pose proof (lead_le a); lia|].
    rewrite E2. split; [discriminate|intros []; discriminate].
  Qed.

  Lemma run_ok os : exists s : switch L, sw_run os sw_empty = Ok s /\
    (forall l a, (exists ls, dget (sw_addr s) a = Some ls /\ In l ls) <-> registered os unregistered l = Some a) /\
    (forall l, dget (sw_link s) l = registered os unregistered l).
  Proof. destruct (run_spec os sw_empty unregistered swinv_empty) as (s & E & (NL & NA & NS & ML & MA & V)). eauto. Qed.
End SwP.
