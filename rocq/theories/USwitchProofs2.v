(** * Proofs about the unreliable switch: histories *)
From Coq Require Import String.
From Coq Require Import List ZArith QArith Bool Lia Permutation.
From Verif Require Import PyBase PyLemmas AddrModel AddrSpec SwitchModel SwitchProofs FragModel HubModel HubSpec HubProofs ErrModel ErrSpec ErrProofs SpmpModel WanApiModel USwitchModel USwitchSpec USwitchProofs.
Import ListNotations.
Open Scope Z_scope.

Lemma sbe_app a b c d : same_but_errors a b -> same_but_errors c d -> same_but_errors (a ++ c) (b ++ d).
Proof. intros (x & A & B) (y & C & D). exists (x ++ y). split; [now apply Permutation_app|now apply Forall2_app]. Qed.
Lemma sbe_refl a : same_but_errors a a.
Proof. exists a. split; [reflexivity|]. induction a; constructor; auto using altered_refl. Qed.
Lemma sbe_perm_l a a' b : Permutation a a' -> same_but_errors a b -> same_but_errors a' b.
Proof. intros P (x & A & B). exists x. split; [now rewrite <- P|exact B]. Qed.
Lemma sbe_perm_r a b b' : Permutation b b' -> same_but_errors a b -> same_but_errors a b'.
Proof.
  intros P (x & A & B). assert (Q : exists x', Permutation x x' /\ Forall2 altered x' b').
  { clear A. revert x B. induction P; intros v B.
    - exists v. auto.
    - inversion B; subst. destruct (IHP _ H3) as (z & Z1 & Z2). eexists (_ :: z). split; [now constructor|now constructor].
    - inversion B as [|? ? ? ? ? B1]; subst. inversion B1; subst. eexists. split; [apply perm_swap|]. repeat constructor; auto.
    - destruct (IHP1 _ B) as (z & Z1 & Z2). destruct (IHP2 _ Z2) as (w & W1 & W2). exists w. split; [now rewrite Z1|exact W2]. }
  destruct Q as (x' & Q1 & Q2). exists x'. split; [now rewrite A|exact Q2].
Qed.
Lemma sbe_trans a b c : same_but_errors a b -> same_but_errors b c -> same_but_errors a c.
Proof.
  intros A (y & P & B). apply (sbe_perm_r _ _ _ P) in A. destruct A as (x & Q & A). exists x. split; [exact Q|]. clear -A B. revert c B. induction A; intros c B; inversion B; subst; constructor; [eapply altered_trans; eauto|auto].
Qed.

Section Runs.
Context {L : Type} `{EqDec L} {F Settings : Type}.
Variable enc : wire -> bytes.
Variables (parse_float : pystr -> option F) (print_float : F -> pystr).
Variables all_levels get_level set_level : Settings -> list pystr -> Settings * opres.
Variable name : pystr.
Notation usw := (usw L F Settings).
Notation ustep := (u_step enc parse_float print_float all_levels get_level set_level name).
Notation urun := (u_run enc parse_float print_float all_levels get_level set_level name).
Implicit Types (l : L) (s : usw) (e : uevent L).

Definition set_of s := fst (fst (u_conf s)).
Definition delay_of s := snd (fst (u_conf s)).
Lemma process_conf r x : let x' := fst (process (unreliable_server parse_float print_float all_levels get_level set_level name) None r x) in
  forall l, fst (fst x') = error_after (URequest l r) (fst (fst x)) /\ snd (fst x') = delay_after parse_float (URequest l r) (snd (fst x)).
Proof.
  cbv zeta. intro l. unfold process. cbn [unreliable_server s_security s_api]. unfold unreliable_api, all_verbs, plain_verbs. cbn [map app combine dget]. unfold error_after, delay_after.
  Local Ltac fin := first [reflexivity | match goal with |- context [eqb ?a ?b] => replace (eqb a b) with false by (symmetry; unfold eqb; destruct (eq_dec a b); congruence) end].
  destruct (eq_dec (m_request r) (lit "verbs")) as [E|_].
  { rewrite E. unfold op_verbs. destruct (m_args r); split; reflexivity. }
  destruct (eq_dec (m_request r) (lit "all-log-levels")) as [E|_].
  { rewrite E. unfold op_setting. destruct (all_levels (snd x) (m_args r)) as [? [?|?]]; split; reflexivity. }
  destruct (eq_dec (m_request r) (lit "get-log-level")) as [E|_].
  { rewrite E. unfold op_setting. destruct (get_level (snd x) (m_args r)) as [? [?|?]]; split; reflexivity. }
  destruct (eq_dec (m_request r) (lit "set-log-level")) as [E|_].
  { rewrite E. unfold op_setting. destruct (set_level (snd x) (m_args r)) as [? [?|?]]; split; reflexivity. }
  destruct (eq_dec (m_request r) (lit "get-error-rate")) as [E|_].
  { rewrite E. unfold op_get_error. destruct (m_args r); split; reflexivity. }
  destruct (eq_dec (m_request r) (lit "set-error-rate")) as [E|N1].
  { rewrite E. change (eqb (lit "set-error-rate") (lit "set-error-rate")) with true. change (eqb (lit "set-error-rate") (lit "set-delay-rate")) with false. cbv beta iota.
    unfold op_set_error. destruct (m_args r) as [|a [|b [|c q]]]; try (split; reflexivity). destruct (parse_int a); [|split; reflexivity]. destruct (parse_int b); split; reflexivity. }
  destruct (eq_dec (m_request r) (lit "get-delay-rate")) as [E|_].
  { rewrite E. unfold op_get_delay. destruct (m_args r); split; reflexivity. }
  destruct (eq_dec (m_request r) (lit "set-delay-rate")) as [E|N2].
  { rewrite E. change (eqb (lit "set-delay-rate") (lit "set-delay-rate")) with true. change (eqb (lit "set-delay-rate") (lit "set-error-rate")) with false. cbv beta iota.
    unfold op_set_delay. destruct (m_args r) as [|a [|b [|c q]]]; try (split; reflexivity). destruct (parse_int a); [|split; reflexivity]. destruct (parse_float b); split; reflexivity. }
  unfold eqb. destruct (eq_dec (m_request r) (lit "set-error-rate")); [contradiction|]. destruct (eq_dec (m_request r) (lit "set-delay-rate")); [contradiction|]. split; reflexivity.
Qed.
Lemma write_each_log set rt rnd data tos : forall ly pend, let '(_, _, g) := write_each set rt rnd data tos ly pend in forall x, In x g -> exists l b, x = USent l b /\ In l tos.
Proof.
  induction tos as [|l r IH]; intros ly pend; cbn [write_each]; [intros x []|]. destruct (pipe _ _ _ _ _ _) as [ls o]. destruct (settle l o pend) as [pend1 g1] eqn:S0.
  specialize (IH (dset ly l ls) pend1). destruct (write_each set rt rnd data r _ pend1) as [[ly2 pend2] g2]. intros x X. apply in_app_or in X as [X|X].
  - destruct o; injection S0 as <- <-; try contradiction. destruct X as [<-|[]]. exists l, b. split; [reflexivity|now left].
  - destruct (IH x X) as (l' & b & -> & I0). exists l', b. split; [reflexivity|now right].
Qed.
Lemma conf_step e s : set_of (fst (ustep e s)) = error_after e (set_of s) /\ delay_of (fst (ustep e s)) = delay_after parse_float e (delay_of s).
Proof.
  unfold set_of, delay_of. destruct e as [l|l p rnd|l r|n rnd|l]; cbn [u_step]; try (split; reflexivity).
  - destruct p as [a|w|]; cbn [error_after delay_after].
    + destruct (can_draw _); split; reflexivity.
    + destruct (sw_outbound _ _); [|split; reflexivity]. destruct (write_each _ _ _ _ _ _ _) as [[? ?] ?]. split; reflexivity.
    + split; reflexivity.
  - pose proof (process_conf r (u_conf s) l) as X. cbv zeta in X. destruct (process _ None r (u_conf s)) as [x g]. exact X.
  - destruct (nth_error _ _) as [[[l k] b]|]; [|split; reflexivity]. destruct (fire _ _ _ _ _ _) as [ls o]. destruct (settle l o _). split; reflexivity.
Qed.
Lemma conf_run es : forall s, set_of (fst (urun es s)) = error_setting (set_of s) es /\ delay_of (fst (urun es s)) = delay_setting parse_float (delay_of s) es.
Proof.
  induction es as [|e es IH]; intro s; [split; reflexivity|]. cbn [u_run error_setting delay_setting fold_left]. destruct (conf_step e s) as [A B]. destruct (ustep e s) as [s1 g1]. cbn [fst] in A, B.
  destruct (IH s1) as [C D]. destruct (urun es s1) as [s2 g2]. cbn [fst] in *. unfold error_setting, delay_setting in C, D. now rewrite C, D, A, B.
Qed.
Lemma run_app es1 es2 s : urun (es1 ++ es2) s = (fst (urun es2 (fst (urun es1 s))), snd (urun es1 s) ++ snd (urun es2 (fst (urun es1 s)))).
Proof.
  revert s. induction es1 as [|e es1 IH]; intro s; cbn [app u_run]; [cbn; now destruct (urun es2 s)|]. destruct (ustep e s) as [s1 g1]. rewrite IH. destruct (urun es1 s1) as [s2 g2]. cbn [fst snd]. now rewrite app_assoc.
Qed.

(** ** the tables, the links, the layers *)
Definition lay (ly : dict L (list cet)) (pend : list (L * nat * bytes)) : Prop :=
  (forall l, Forall sound (layers_of ly l)) /\ (forall l k b, In (l, k, b) pend -> (1 <= k <= Datatypes.length (layers_of ly l))%nat).
Lemma layers_set ly l ls l' : layers_of (dset ly l ls) l' = if eq_dec l' l then ls else layers_of ly l'.
Proof. unfold layers_of. destruct (eq_dec l' l) as [->|N]; [now rewrite dget_dset_same|now rewrite dget_dset_other]. Qed.
Lemma settle_in l o pend l' k b : In (l', k, b) (fst (settle l o pend)) -> In (l', k, b) pend \/ (l' = l /\ o = Held k b).
Proof. destruct o; cbn; auto. intro X. apply in_app_or in X as [X|[X|[]]]; [auto|]. injection X as -> -> ->. auto. Qed.
Lemma one_lay ly pend l ls o : lay ly pend -> Forall sound ls -> Datatypes.length ls = Datatypes.length (layers_of ly l) -> depth_ok (Datatypes.length (layers_of ly l)) o ->
  lay (dset ly l ls) (fst (settle l o pend)) /\ forall l', Datatypes.length (layers_of (dset ly l ls) l') = Datatypes.length (layers_of ly l').
Proof.
  intros [A B] C D E. assert (K : forall l', Datatypes.length (layers_of (dset ly l ls) l') = Datatypes.length (layers_of ly l')).
  { intro l'. rewrite layers_set. destruct (eq_dec l' l) as [->|]; auto. }
  split; [split|exact K].
  - intro l'. rewrite layers_set. destruct (eq_dec l' l); auto.
  - intros l' k b X. rewrite K. apply settle_in in X as [X|[-> ->]]; [now apply (B l' k b)|exact E].
Qed.
Lemma each_lay set rt rnd data tos : forall ly pend, lay ly pend -> let '(ly', pend', _) := write_each set rt rnd data tos ly pend in
  lay ly' pend' /\ forall l, Datatypes.length (layers_of ly' l) = Datatypes.length (layers_of ly l).
Proof.
  induction tos as [|l r IH]; intros ly pend A; cbn [write_each]; [auto|].
  pose proof (pipe_shape set rt (rnd l) (layers_of ly l) false data (proj1 A l)) as P. destruct (pipe set rt (rnd l) false data (layers_of ly l)) as [ls o]. destruct P as (P1 & P2 & P3).
  destruct (one_lay ly pend l ls o A P1 P2 P3) as [B C]. destruct (settle l o pend) as [pend1 g1]. specialize (IH (dset ly l ls) pend1 B). destruct (write_each set rt rnd data r (dset ly l ls) pend1) as [[ly2 pend2] g2].
  destruct IH as [D E]. split; [exact D|]. intro l'. now rewrite E.
Qed.
Record uinv (os : list (swop L)) (up : L -> bool) s : Prop := {
  v_sw : sw_run os sw_empty = Ok (u_sw s);
  v_reg : up_ok os (u_up s);
  v_nd : NoDup (u_up s);
  v_up : forall l, In l (u_up s) <-> up l = true;
  v_lay : lay (u_layers s) (u_pend s);
  v_one : forall l a, registered os unregistered l = Some a -> layers_of (u_layers s) l <> []
}.
Definition up_after e (up : L -> bool) : L -> bool :=
  match e with UMade l => fun x => if eq_dec x l then true else up x | ULost l => fun x => if eq_dec x l then false else up x | _ => up end.
Definition allowed e (up : L -> bool) : Prop :=
  match e with UMade l => up l = false | UData l _ _ | URequest l _ | ULost l => up l = true | UFire _ _ => True end.
Lemma connected_cons e es up : connected up (e :: es) <-> allowed e up /\ connected (up_after e up) es.
Proof using. clear. destruct e; cbn; tauto. Qed.
Definition ops1 (set : Z * Z) e : list (swop L) := match e with UData l (PAnnounce a) _ => if can_draw set then [SReg a l] else [] | ULost l => [SUnreg l] | _ => [] end.
Lemma announced_cons set e (es : list (uevent L)) : announced set (e :: es) = ops1 set e ++ announced (error_after e set) es.
Proof. reflexivity. Qed.
Lemma announced_app (es2 : list (uevent L)) : forall (es1 : list (uevent L)) set, announced set (es1 ++ es2) = announced set es1 ++ announced (error_setting set es1) es2.
Proof. induction es1 as [|e es1 IH]; intro set; [reflexivity|]. cbn [app]. rewrite !announced_cons, IH, <- app_assoc. reflexivity. Qed.
Lemma inv_new x : uinv [] nobody (usw_new x).
Proof.
  constructor; cbn; try reflexivity; try constructor.
  - intros l a X. discriminate.
  - contradiction.
  - discriminate.
  - intro l. constructor.
  - contradiction.
  - discriminate.
Qed.
Lemma dispatch os up s w : uinv os up s ->
  match sw_outbound (w_dst w) (u_sw s) with
  | Raise _ => from_string ClsBlock (w_dst w) = Raise ValueError \/ (exists x, from_string ClsBlock (w_dst w) = Raise x)
  | Ok ls => map fst (fst (send_all w (u_up s) ls)) = ls /\ should_reach (registered os unregistered) (w_dst w) ls /\ (forall l, In l ls -> exists a, registered os unregistered l = Some a)
  end.
Proof.
  intros [A B C D E G]. destruct (outbound_invalid os (w_dst w) (u_sw s) A) as [_ Q]. destruct (sw_outbound (w_dst w) (u_sw s)) as [ls|x] eqn:O.
  - assert (K : forall l, In l ls -> exists a, registered os unregistered l = Some a) by (intros l X; destruct (outbound_sound os (w_dst w) (u_sw s) ls l A O X) as (a & b & _ & _ & M); eauto).
    rewrite send_all_up by (intros l X; destruct (K l X) as [a M]; exact (B l a M)). cbn [fst]. rewrite map_map. cbn [fst]. rewrite map_id. split; [reflexivity|]. split; [eapply outbound_reach; eauto|exact K].
  - right. destruct (proj1 (Q x) eq_refl) as [_ X]. eauto.
Qed.
Lemma send_fst w (up : list L) ls : forall l, In l (map fst (fst (send_all w up ls))) -> In l ls.
Proof.
  induction ls as [|x ls IH]; cbn [send_all]; [contradiction|]. destruct (smem up x); [|contradiction]. destruct (send_all w up ls) as [ws ok] eqn:E. cbn [map fst]. intros l [<-|X]; [now left|right; auto].
Qed.
Lemma step_inv os up e s : uinv os up s -> allowed e up -> uinv (os ++ ops1 (set_of s) e) (up_after e up) (fst (ustep e s)).
Proof.
  intros V A. pose proof V as [V1 V2 V3 V4 V5 V6]. destruct e as [l|l p rnd|l r|n rnd|l]; cbn [u_step ops1 up_after allowed] in *.
  - rewrite app_nil_r. constructor; cbn; auto.
    + intros l' a M. apply in_sadd. right. eapply V2; eauto.
    + now apply nodup_sadd.
    + intros l'. rewrite in_sadd, V4. destruct (eq_dec l' l); [tauto|]. intuition congruence.
  - destruct p as [a|w|]; cbn [ops1].
    + fold (set_of s). destruct (can_draw (set_of s)) eqn:C; [|rewrite app_nil_r; exact V]. destruct (step_total os (SReg a l) (u_sw s) V1) as (sw1 & E1 & R1). cbn [sw_step] in E1. rewrite E1. constructor; cbn [fst u_sw u_up u_layers u_pend]; auto.
      * apply up_ok_reg; [exact V2|]. now apply V4.
      * destruct V5 as [S1 S2]. split.
        -- intro l'. rewrite layers_set. destruct (eq_dec l' l); [|apply S1]. constructor; [exact C|apply S1].
        -- intros l' k b X. rewrite layers_set. apply S2 in X. destruct (eq_dec l' l) as [->|]; [cbn [Datatypes.length]; lia|exact X].
      * intros l' a' M. rewrite layers_set. destruct (eq_dec l' l); [discriminate|]. apply (V6 l' a'). rewrite registered_app in M. cbn [registered reg_step] in M. destruct (eq_dec l' l); [contradiction|]. exact M.
    + rewrite app_nil_r. destruct (sw_outbound _ _) as [ls|x]; [|exact V]. pose proof (each_lay (fst (fst (u_conf s))) (fst (snd (fst (u_conf s)))) rnd (enc w) (map fst (fst (send_all w (u_up s) ls))) _ _ V5) as X.
      destruct (write_each _ _ _ _ _ _ _) as [[ly pend] g]. destruct X as [X1 X2]. constructor; cbn [fst u_sw u_up u_layers u_pend]; auto. intros l' a' M N. apply (V6 l' a' M). apply length_zero_iff_nil. rewrite <- X2. now rewrite N.
    + rewrite app_nil_r. exact V.
  - rewrite app_nil_r. destruct (process _ None r (u_conf s)). constructor; cbn; auto; apply V5.
  - rewrite app_nil_r. destruct (nth_error (u_pend s) n) as [[[l k] b]|] eqn:N; [|exact V].
    pose proof (fire_shape (fst (fst (u_conf s))) (fst (snd (fst (u_conf s)))) rnd (layers_of (u_layers s) l) k b (proj1 V5 l)) as P. destruct (fire _ _ _ _ _ _) as [ls o]. destruct P as (P1 & P2 & P3).
    assert (V5' : lay (u_layers s) (firstn n (u_pend s) ++ skipn (S n) (u_pend s))).
    { destruct V5 as [S1 S2]. split; [exact S1|]. intros l' k' b' X. apply (S2 l' k' b'). rewrite <- (firstn_skipn n (u_pend s)). apply in_or_app. apply in_app_or in X as [X|X]; [now left|]. right.
      clear -X. revert n X. induction (u_pend s) as [|y q IH]; intros [|n] X; cbn [skipn] in *; auto; try (now right); try (right; eauto; fail). }
    destruct (one_lay _ _ l ls o V5' P1 P2 P3) as [Q1 Q2]. destruct (settle l o _) as [pend g]. constructor; cbn [fst u_sw u_up u_layers u_pend]; auto. intros l' a' M E. apply (V6 l' a' M). apply length_zero_iff_nil. rewrite <- Q2. now rewrite E.
  - destruct (step_total os (SUnreg l) (u_sw s) V1) as (sw1 & E1 & R1). cbn [sw_step] in E1. rewrite E1. constructor; cbn [fst u_sw u_up u_layers u_pend]; auto.
    + intros l' a M. rewrite registered_app in M. cbn [registered reg_step] in M. apply in_sremove; [exact V3|]. destruct (eq_dec l' l); [discriminate|]. split; [eapply V2; eauto|auto].
    + now apply nodup_sremove.
    + intros l'. rewrite in_sremove by exact V3. rewrite V4. destruct (eq_dec l' l); [intuition congruence|tauto].
    + destruct V5 as [S1 S2]. split.
      * intro l'. rewrite layers_set. destruct (eq_dec l' l); [constructor|apply S1].
      * intros l' k b X. apply filter_In in X as [X Y]. cbn [fst] in Y. unfold eqb in Y. rewrite layers_set. destruct (eq_dec l' l); [discriminate|]. now apply (S2 l' k b).
    + intros l' a M. rewrite registered_app in M. cbn [registered reg_step] in M. rewrite layers_set. destruct (eq_dec l' l) as [->|N]; [discriminate|]. exact (V6 l' a M).
Qed.
End Runs.
