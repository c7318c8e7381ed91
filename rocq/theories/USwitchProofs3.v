(** * Proofs about the unreliable switch: what becomes of each packet *)
From Coq Require Import String.
From Coq Require Import List ZArith QArith Bool Lia Permutation.
From Verif Require Import PyBase PyLemmas AddrModel AddrSpec SwitchModel SwitchProofs FragModel HubModel HubSpec HubProofs ErrModel ErrSpec ErrProofs SpmpModel WanApiModel USwitchModel USwitchSpec USwitchProofs USwitchProofs2.
Import ListNotations.
Open Scope Z_scope.

Section Fate.
Context {L : Type} `{EqDec L} {F Settings : Type}.
Variable enc : wire -> bytes.
Variables (parse_float : pystr -> option F) (print_float : F -> pystr).
Variables all_levels get_level set_level : Settings -> list pystr -> Settings * opres.
Variable name : pystr.
Notation usw := (usw L F Settings).
Notation ustep := (u_step enc parse_float print_float all_levels get_level set_level name).
Notation urun := (u_run enc parse_float print_float all_levels get_level set_level name).
Notation got := (@got L _).
Implicit Types (l : L) (s : usw) (e : uevent L).

Definition wp l (pend : list (L * nat * bytes)) : list bytes := map snd (filter (fun q => eqb (fst (fst q)) l) pend).
Lemma wp_app l a b : wp l (a ++ b) = wp l a ++ wp l b.
Proof. unfold wp. now rewrite filter_app, map_app. Qed.
Lemma wp_one l l' k b : wp l [(l', k, b)] = if eq_dec l' l then [b] else [].
Proof. unfold wp, eqb. cbn. destruct (eq_dec l' l); reflexivity. Qed.
Lemma got_app l g1 g2 : got l (g1 ++ g2) = got l g1 ++ got l g2.
Proof. unfold USwitchSpec.got. now rewrite map_app, concat_app. Qed.
Lemma dispatched_app l g1 g2 : dispatched enc l (g1 ++ g2) = dispatched enc l g1 ++ dispatched enc l g2.
Proof. unfold dispatched. now rewrite map_app, concat_app. Qed.
(** one outcome *)
Lemma settle_rel l l' data o pend : result data o ->
  same_but_errors (wp l pend ++ (if eq_dec l' l then [data] else [])) (got l (snd (settle l' o pend)) ++ wp l (fst (settle l' o pend))).
Proof.
  intro R. assert (O : forall b, altered data b -> same_but_errors [data] [b]) by (intros b A; exists [data]; split; [reflexivity|repeat constructor; exact A]).
  destruct o as [b|k b|]; cbn [settle fst snd] in *; [| |contradiction].
  - unfold USwitchSpec.got. cbn. destruct (eq_dec l' l); [|rewrite !app_nil_r; apply sbe_refl]. cbn. eapply sbe_perm_l; [apply Permutation_app_comm|]. apply (sbe_app [data] [b]); [now apply O|apply sbe_refl].
  - rewrite wp_app, wp_one. unfold USwitchSpec.got. cbn. destruct (eq_dec l' l); [apply sbe_app; [apply sbe_refl|now apply O]|rewrite app_nil_r; apply sbe_refl].
Qed.
Definition all_good (set : Z * Z) (ly : dict L (list cet)) : Prop := forall l, Forall (good set) (layers_of ly l).
Lemma each_rel set rt rnd data l : (forall l n, draws_ok set (r_d2 (rnd l n))) -> forall tos ly pend, NoDup tos -> all_good set ly ->
  let '(ly', pend', g) := write_each set rt rnd data tos ly pend in
  all_good set ly' /\ same_but_errors (wp l pend ++ (if in_dec eq_dec l tos then [data] else [])) (got l g ++ wp l pend').
Proof.
  intros D. induction tos as [|x r IH]; intros ly pend N G; cbn [write_each].
  - split; [exact G|]. cbn. rewrite app_nil_r. apply sbe_refl.
  - inversion N as [|? ? N1 N2]; subst. pose proof (pipe_good set rt (rnd x) (D x) (layers_of ly x) false data (G x)) as P. destruct (pipe set rt (rnd x) false data (layers_of ly x)) as [ls o]. destruct P as [P1 P2].
    assert (G' : all_good set (dset ly x ls)) by (intro l'; rewrite layers_set; destruct (eq_dec l' x); auto).
    pose proof (settle_rel l x data o pend P2) as S0. destruct (settle x o pend) as [pend1 g1]. cbn [fst snd] in S0. specialize (IH (dset ly x ls) pend1 N2 G'). destruct (write_each set rt rnd data r (dset ly x ls) pend1) as [[ly2 pend2] g2].
    destruct IH as [A B]. split; [exact A|]. rewrite got_app, <- app_assoc.
    assert (E : (if in_dec eq_dec l (x :: r) then [data] else []) = (if eq_dec x l then [data] else []) ++ (if in_dec eq_dec l r then [data] else [])).
    { destruct (eq_dec x l) as [->|Nx], (in_dec eq_dec l r) as [I2|I2]; cbn [app].
      - contradiction.
      - destruct (in_dec eq_dec l (l :: r)) as [|C]; [reflexivity|exfalso; apply C; now left].
      - destruct (in_dec eq_dec l (x :: r)) as [|C]; [reflexivity|exfalso; apply C; now right].
      - destruct (in_dec eq_dec l (x :: r)) as [[C|C]|]; [contradiction|contradiction|reflexivity]. }
    rewrite E, app_assoc. eapply sbe_trans; [apply sbe_app; [exact S0|apply sbe_refl]|]. rewrite <- app_assoc. apply sbe_app; [apply sbe_refl|exact B].
Qed.
Lemma nth_perm (pend : list (L * nat * bytes)) : forall n q, nth_error pend n = Some q -> Permutation pend (firstn n pend ++ skipn (S n) pend ++ [q]).
Proof.
  intros n q E. apply nth_error_split in E as (a & b & -> & <-). rewrite firstn_app, firstn_all, Nat.sub_diag. cbn [firstn]. rewrite app_nil_r.
  assert (S2 : skipn (S (Datatypes.length a)) (a ++ q :: b) = b) by (clear; induction a as [|x a IH]; [reflexivity|exact IH]). rewrite S2. apply Permutation_app_head. apply Permutation_cons_append.
Qed.
Lemma wp_perm l a b : Permutation a b -> Permutation (wp l a) (wp l b).
Proof.
  intro P. unfold wp. apply Permutation_map. induction P; cbn.
  - constructor.
  - destruct (eqb _ l); [now constructor|assumption].
  - destruct (eqb _ l), (eqb _ l); try reflexivity. apply perm_swap.
  - etransitivity; eauto.
Qed.
Lemma wp_gone l l' pend : l' <> l -> wp l (filter (fun q => negb (eqb (fst (fst q)) l')) pend) = wp l pend.
Proof.
  intro N. unfold wp. f_equal. induction pend as [|[[x k] b] r IH]; [reflexivity|]. cbn [filter fst].
  assert (E1 : forall a c : L, a = c -> eqb a c = true) by (intros a c ->; unfold eqb; destruct (eq_dec c c); congruence).
  assert (E2 : forall a c : L, a <> c -> eqb a c = false) by (intros a c X; unfold eqb; destruct (eq_dec a c); congruence).
  destruct (eq_dec x l') as [->|N1].
  - rewrite (E1 l' l' eq_refl), (E2 l' l N). exact IH.
  - rewrite (E2 x l' N1). cbn [negb filter fst]. rewrite IH. reflexivity.
Qed.
(** settings that stay *)
Definition keeps (set : Z * Z) e : Prop := error_after e set = set.
Lemma reply_got l l' g : got l (map (UReply l') g) = [].
Proof. induction g; [reflexivity|exact IHg]. Qed.
Lemma reply_dispatched l l' g : dispatched enc l (map (UReply l') g) = [].
Proof. induction g; [reflexivity|exact IHg]. Qed.
Lemma each_dispatched l set rt rnd data tos ly pend : let '(_, _, g) := write_each set rt rnd data tos ly pend in dispatched enc l g = [].
Proof.
  pose proof (write_each_log set rt rnd data tos ly pend) as X. destruct (write_each set rt rnd data tos ly pend) as [[? ?] g]. induction g as [|y g IH]; [reflexivity|]. destruct (X y (or_introl eq_refl)) as (l' & b & -> & _). unfold dispatched in *. cbn. apply IH. intros z Z0. apply X. now right.
Qed.
Lemma step_rel os up e s l : uinv os up s -> all_good (set_of s) (u_layers s) -> can_draw (set_of s) = true -> event_fair (set_of s) e -> keeps (set_of s) e -> e <> ULost l ->
  all_good (set_of (fst (ustep e s))) (u_layers (fst (ustep e s))) /\
  same_but_errors (waiting l s ++ dispatched enc l (snd (ustep e s))) (got l (snd (ustep e s)) ++ waiting l (fst (ustep e s))).
Proof.
  intros V G C Fa K Ne. destruct (conf_step enc parse_float print_float all_levels get_level set_level name e s) as [CS _]. rewrite CS. unfold keeps in K. rewrite K. clear CS K.
  change (@waiting L F Settings _ l) with (fun s : usw => wp l (u_pend s)). cbv beta. unfold set_of in *. destruct e as [l'|l' p rnd|l' r|n rnd|l']; cbn [u_step event_fair] in *.
  - split; [exact G|]. cbn. rewrite app_nil_r. apply sbe_refl.
  - assert (D : forall l n, draws_ok (fst (fst (u_conf s))) (r_d2 (rnd l n)) /\ draws_ok (fst (fst (u_conf s))) (r_d1 (rnd l n))) by (intros x n; destruct (Fa x n) as [_ X]; apply can_drawable in C; split; apply X; exact C).
    destruct p as [a|w|].
    + rewrite C. cbn [fst snd u_layers u_pend]. split; [|cbn; rewrite app_nil_r; apply sbe_refl]. intro x. rewrite layers_set. destruct (eq_dec x l') as [->|]; [|apply G]. constructor; [|apply G]. eexists _, _. apply inv_reset. apply D.
    + pose proof (dispatch os up s w V) as Di. destruct (sw_outbound _ _) as [ls|x]; [|cbn; split; [exact G|cbn; rewrite app_nil_r; apply sbe_refl]]. destruct Di as (-> & (ND & _) & _).
      pose proof (each_rel (fst (fst (u_conf s))) (fst (snd (fst (u_conf s)))) rnd (enc w) l (fun x n => proj1 (D x n)) ls (u_layers s) (u_pend s) ND G) as X.
      pose proof (each_dispatched l (fst (fst (u_conf s))) (fst (snd (fst (u_conf s)))) rnd (enc w) ls (u_layers s) (u_pend s)) as Y.
      destruct (write_each _ _ _ _ _ _ _) as [[ly pend] g]. cbn [fst snd u_layers u_pend]. destruct X as [X1 X2]. split; [exact X1|].
      replace (dispatched enc l (UPacket l' (PWire w) ls :: g)) with ((if in_dec eq_dec l ls then [enc w] else []) ++ dispatched enc l g) by reflexivity. rewrite Y, app_nil_r.
      change (got l (UPacket l' (PWire w) ls :: g)) with (got l g). exact X2.
    + split; [exact G|]. cbn. rewrite app_nil_r. apply sbe_refl.
  - destruct (process _ None r (u_conf s)) as [x g]. cbn [fst snd u_layers u_pend]. split; [exact G|]. rewrite reply_got, reply_dispatched, app_nil_r. apply sbe_refl.
  - destruct (nth_error (u_pend s) n) as [[[l' k] b]|] eqn:N; [|split; [exact G|]; cbn; rewrite app_nil_r; apply sbe_refl].
    assert (D : forall n, draws_ok (fst (fst (u_conf s))) (r_d2 (rnd n))) by (intros m; destruct (Fa m) as [_ X]; apply can_drawable in C; apply X; exact C).
    pose proof (fire_good (fst (fst (u_conf s))) (fst (snd (fst (u_conf s)))) rnd D (layers_of (u_layers s) l') k b (G l')) as P. destruct (fire _ _ _ _ _ _) as [ls o]. destruct P as [P1 P2].
    pose proof (settle_rel l l' b o (firstn n (u_pend s) ++ skipn (S n) (u_pend s)) P2) as S0.
    assert (E : dispatched enc l (snd (settle l' o (firstn n (u_pend s) ++ skipn (S n) (u_pend s)))) = []) by (destruct o; reflexivity).
    destruct (settle l' o _) as [pend g]. cbn [fst snd u_layers u_pend] in *. split; [intro x; rewrite layers_set; destruct (eq_dec x l'); auto|]. rewrite E, app_nil_r.
    eapply sbe_perm_l; [symmetry; apply wp_perm, (nth_perm _ _ _ N)|]. rewrite app_assoc, wp_app, wp_one. exact S0.
  - cbn [fst snd u_layers u_pend]. split; [intro x; rewrite layers_set; destruct (eq_dec x l'); [constructor|apply G]|]. cbn. rewrite app_nil_r, wp_gone by congruence. apply sbe_refl.
Qed.
Lemma fair_cons set e es : fair set (e :: es) <-> event_fair set e /\ fair (error_after e set) es. Proof. reflexivity. Qed.
Lemma run_rel l es : forall os up s, uinv os up s -> connected up es -> all_good (set_of s) (u_layers s) -> can_draw (set_of s) = true -> fair (set_of s) es -> Forall (keeps (set_of s)) es -> ~ In (ULost l) es ->
  same_but_errors (waiting l s ++ dispatched enc l (snd (urun es s))) (got l (snd (urun es s)) ++ waiting l (fst (urun es s))).
Proof.
  induction es as [|e es IH]; intros os up s V W G C Fa K N; [cbn; rewrite app_nil_r; apply sbe_refl|]. apply connected_cons in W as [W1 W2]. apply fair_cons in Fa as [F1 F2]. inversion K as [|? ? K1 K2]; subst.
  pose proof (step_inv enc parse_float print_float all_levels get_level set_level name os up e s V W1) as V2. destruct (step_rel os up e s l V G C F1 K1) as [G2 R]; [intros ->; apply N; now left|].
  destruct (conf_step enc parse_float print_float all_levels get_level set_level name e s) as [CS _]. cbn [u_run]. destruct (ustep e s) as [s1 g1]. cbn [fst snd] in *. unfold keeps in K1. rewrite K1 in *.
  specialize (IH _ _ s1 V2 W2). rewrite CS in *. specialize (IH G2 C F2 K2 (fun X => N (or_intror X))). destruct (urun es s1) as [s2 g2]. cbn [fst snd] in *.
  rewrite got_app, dispatched_app, app_assoc. eapply sbe_trans; [apply sbe_app; [exact R|apply sbe_refl]|]. rewrite <- !app_assoc. apply sbe_app; [apply sbe_refl|exact IH].
Qed.

(** ** silence *)
Lemma each_silent set rt rnd data : can_draw set = false -> forall tos ly pend, lay ly pend -> (forall l, In l tos -> layers_of ly l <> []) ->
  let '(_, _, g) := write_each set rt rnd data tos ly pend in g = [].
Proof.
  intro C. induction tos as [|l r IH]; intros ly pend V N; cbn [write_each]; [reflexivity|].
  pose proof (pipe_silent set rt (rnd l) (layers_of ly l) false data C (proj1 V l) (N l (or_introl eq_refl))) as P.
  pose proof (pipe_shape set rt (rnd l) (layers_of ly l) false data (proj1 V l)) as Q. destruct (pipe set rt (rnd l) false data (layers_of ly l)) as [ls o]. destruct Q as (Q1 & Q2 & Q3).
  destruct (one_lay ly pend l ls o V Q1 Q2 Q3) as [B B2]. cbn [snd] in P. destruct o; [contradiction| |]; cbn [settle fst] in *.
  - specialize (IH (dset ly l ls) (pend ++ [(l, depth, b)]) B). destruct (write_each _ _ _ _ _ _ _) as [[? ?] g]. cbn. apply IH. intros x X Y. apply (N x (or_intror X)). apply length_zero_iff_nil. rewrite <- B2. now rewrite Y.
  - specialize (IH (dset ly l ls) pend B). destruct (write_each _ _ _ _ _ _ _) as [[? ?] g]. cbn. apply IH. intros x X Y. apply (N x (or_intror X)). apply length_zero_iff_nil. rewrite <- B2. now rewrite Y.
Qed.
Lemma step_silent os up e s : uinv os up s -> can_draw (set_of s) = false -> forall l b, ~ In (USent l b) (snd (ustep e s)).
Proof.
  intros V C l b. unfold set_of in C. pose proof V as [V1 V2 V3 V4 V5 V6]. destruct e as [l'|l' p rnd|l' r|n rnd|l']; cbn [u_step]; try (intros []; fail).
  - destruct p as [a|w|].
    + rewrite C. intros [X|[]]; discriminate.
    + pose proof (dispatch os up s w V) as Di. destruct (sw_outbound _ _) as [ls|x]; [|intros [X|[]]; discriminate]. destruct Di as (-> & _ & R).
      pose proof (each_silent (fst (fst (u_conf s))) (fst (snd (fst (u_conf s)))) rnd (enc w) C ls (u_layers s) (u_pend s) V5) as X. destruct (write_each _ _ _ _ _ _ _) as [[ly pend] g]. cbn [snd].
      rewrite X; [intros [Y|[]]; discriminate|]. intros x Y. destruct (R x Y) as [a M]. exact (V6 x a M).
    + intros [X|[]]; discriminate.
  - destruct (process _ None r (u_conf s)) as [x g]. cbn [snd]. intro X. apply in_map_iff in X as (? & ? & ?). discriminate.
  - destruct (nth_error (u_pend s) n) as [[[l' k] d]|] eqn:N; [|intros []]. pose proof (fire_silent (fst (fst (u_conf s))) (fst (snd (fst (u_conf s)))) rnd (layers_of (u_layers s) l') k d C (proj1 V5 l') (proj2 V5 l' k d (nth_error_In _ _ N))) as P.
    destruct (fire _ _ _ _ _ _) as [ls o]. cbn [snd] in P. destruct o; [contradiction| |]; cbn; intros [].
Qed.
Lemma run_silent es : forall os up s, uinv os up s -> connected up es -> can_draw (set_of s) = false -> Forall (keeps (set_of s)) es -> forall l b, ~ In (USent l b) (snd (urun es s)).
Proof.
  induction es as [|e es IH]; intros os up s V W C K l b; [intros []|]. apply connected_cons in W as [W1 W2]. inversion K as [|? ? K1 K2]; subst. pose proof (step_silent os up e s V C l b) as X.
  pose proof (step_inv enc parse_float print_float all_levels get_level set_level name os up e s V W1) as V2. destruct (conf_step enc parse_float print_float all_levels get_level set_level name e s) as [CS _]. cbn [u_run]. destruct (ustep e s) as [s1 g1]. cbn [fst snd] in *.
  unfold keeps in K1. rewrite K1 in CS. rewrite <- CS in C, K2. specialize (IH _ _ s1 V2 W2 C K2 l b). destruct (urun es s1) as [s2 g2]. cbn [snd] in *. intro Y. apply in_app_or in Y as [Y|Y]; auto.
Qed.
(** ** the invariant and the log of runs *)
Lemma run_inv es : forall os up s, uinv os up s -> connected up es -> uinv (os ++ announced (set_of s) es) (fold_left (fun u e => up_after e u) es up) (fst (urun es s)).
Proof.
  induction es as [|e es IH]; intros os up s V W; [cbn; now rewrite app_nil_r|]. apply connected_cons in W as [W1 W2]. pose proof (step_inv enc parse_float print_float all_levels get_level set_level name os up e s V W1) as V2.
  destruct (conf_step enc parse_float print_float all_levels get_level set_level name e s) as [CS _]. rewrite announced_cons, app_assoc. cbn [u_run fold_left]. destruct (ustep e s) as [s1 g1]. cbn [fst] in *. rewrite <- CS. specialize (IH _ _ s1 V2 W2). destruct (urun es s1). exact IH.
Qed.
Lemma connected_app es2 : forall (es1 : list (uevent L)) up, connected up (es1 ++ es2) <-> connected up es1 /\ connected (fold_left (fun u e => up_after e u) es1 up) es2.
Proof using. clear. induction es1 as [|e es1 IH]; intro up; cbn [app fold_left]; [cbn; tauto|]. rewrite !connected_cons, IH. tauto. Qed.
Lemma fair_app es2 : forall (es1 : list (uevent L)) set, fair set (es1 ++ es2) <-> fair set es1 /\ fair (error_setting set es1) es2.
Proof using. clear. induction es1 as [|e es1 IH]; intro set; cbn [app]; [cbn; tauto|]. rewrite !fair_cons, IH. cbn. tauto. Qed.
(** ** delays *)
Lemma each_prompt set z rnd data : z <= 0 -> (forall l n, (0 <= r_late (rnd l n))%Q) -> forall tos ly pend, let '(_, pend', _) := write_each set (RInt z) rnd data tos ly pend in pend' = pend.
Proof.
  intros Z0 R. induction tos as [|l r IH]; intros ly pend; cbn [write_each]; [reflexivity|]. pose proof (pipe_prompt set z (rnd l) Z0 (R l) (layers_of ly l) false data) as P.
  destruct (pipe set (RInt z) (rnd l) false data (layers_of ly l)) as [ls o]. destruct o; [|contradiction|]; cbn [settle snd] in *; specialize (IH (dset ly l ls) pend); destruct (write_each _ _ _ _ _ _ _) as [[? ?] ?]; exact IH.
Qed.
Lemma each_held set z rnd data : 1 <= z -> (forall l n, (r_late (rnd l n) < 1)%Q) -> forall tos ly pend, (forall l, In l tos -> layers_of ly l <> []) ->
  let '(_, pend', g) := write_each set (RInt z) rnd data tos ly pend in g = [] /\ pend' = pend ++ map (fun l => (l, Datatypes.length (layers_of ly l), data)) tos.
Proof.
  intros Z0 R. induction tos as [|l r IH]; intros ly pend N; cbn [write_each]; [cbn; now rewrite app_nil_r|].
  rewrite (pipe_held set z (rnd l) (layers_of ly l) data Z0 (R l) (N l (or_introl eq_refl))). cbn [settle].
  assert (E : forall x, layers_of (dset ly l (layers_of ly l)) x = layers_of ly x) by (intro x; rewrite layers_set; destruct (eq_dec x l) as [->|]; reflexivity).
  specialize (IH (dset ly l (layers_of ly l)) (pend ++ [(l, Datatypes.length (layers_of ly l), data)])). destruct (write_each _ _ _ _ _ _ _) as [[? ?] g]. destruct IH as [A B]; [intros x X; rewrite E; apply N; now right|].
  split; [exact A|]. rewrite B, <- app_assoc. cbn [map app]. f_equal. f_equal. apply map_ext. intro x. now rewrite E.
Qed.
End Fate.
