From Coq Require Import List ZArith Bool Lia.
From Verif Require Import PyBase LineModel LineSpec.
Import ListNotations.
Open Scope nat_scope.

(** ** The search for the delimiter *)
Lemma starts_some d : forall b r, starts d b = Some r <-> b = d ++ r.
Proof.
  induction d as [|x d IH]; intros b r; cbn; [split; congruence|].
  destruct b as [|y b]; [split; discriminate|]. destruct (Z.eqb_spec x y) as [->|N].
  - rewrite IH. split; congruence.
  - split; congruence.
Qed.
Lemma starts_none d b : starts d b = None <-> forall r, b <> d ++ r.
Proof.
  split.
  - intros E r ->. assert (X : starts d (d ++ r) = Some r) by now apply starts_some. congruence.
  - intros H. destruct (starts d b) as [r|] eqn:E; auto. apply starts_some in E. now apply H in E.
Qed.
Lemma split1_sound d : forall b l r, split1 d b = Some (l, r) -> b = l ++ d ++ r /\ forall p q, b = p ++ d ++ q -> length l <= length p.
Proof.
  induction b as [|x b IH]; intros l r; cbn.
  - destruct (starts d []) eqn:S; [|discriminate]. intros [= <- <-]. apply starts_some in S. cbn. split; [auto|]. intros; lia.
  - destruct (starts d (x :: b)) eqn:S.
    + intros [= <- <-]. apply starts_some in S. cbn. split; [auto|intros; lia].
    + destruct (split1 d b) as [[l' r']|] eqn:E; [|discriminate]. intros [= <- <-].
      destruct (IH _ _ eq_refl) as [-> F]. split; [reflexivity|]. intros [|y p] q P.
      * cbn in P. rewrite starts_none in S. now apply S in P.
      * cbn in P. injection P as _ P. apply F in P. cbn. lia.
Qed.
Lemma split1_none d : forall b, split1 d b = None -> ~ occurs d b.
Proof.
  induction b as [|x b IH]; cbn; intros E (p & q & P).
  - destruct (starts d []) eqn:S; [discriminate|]. rewrite starts_none in S. destruct p; [|discriminate]. cbn in P. now apply S in P.
  - destruct (starts d (x :: b)) eqn:S; [discriminate|]. destruct (split1 d b) as [[]|] eqn:E1; [discriminate|].
    destruct p as [|y p].
    + rewrite starts_none in S. cbn in P. now apply S in P.
    + injection P as _ P. apply IH; [reflexivity|]. now exists p, q.
Qed.
Lemma split_line_sound d b l r : split_line d b = Some (l, r) -> b = l ++ d ++ r /\ is_line d l /\ d <> [].
Proof.
  unfold split_line. destruct d as [|x d]; [discriminate|]. intros E. apply split1_sound in E as [-> F]. split; [reflexivity|].
  split; [|discriminate]. intros p q P. assert (L := F p (q ++ r)).
  assert (X : l ++ (x :: d) ++ r = p ++ (x :: d) ++ q ++ r).
  { rewrite app_assoc, P, <- !app_assoc. reflexivity. }
  specialize (L X). assert (length q = 0).
  { apply (f_equal (@length Z)) in P. rewrite !app_length in P. lia. }
  destruct q; [|discriminate]. rewrite app_nil_r in P. now apply app_inv_tail in P.
Qed.
Lemma split_line_none d b : d <> [] -> split_line d b = None -> ~ occurs d b.
Proof. unfold split_line. destruct d; [contradiction|]. intros _. apply split1_none. Qed.
Lemma split_line_complete d l r : d <> [] -> is_line d l -> split_line d (l ++ d ++ r) = Some (l, r).
Proof.
  intros N L. destruct (split_line d (l ++ d ++ r)) as [[l' r']|] eqn:E.
  - unfold split_line in E. destruct d as [|x d]; [contradiction|]. apply split1_sound in E as [E F].
    assert (Q : length l' <= length l) by (apply (F l r); reflexivity).
    assert (l' = l).
    { (* l' is no longer than l, so its delimiter ends within l ++ d *)
      assert (exists q, l ++ (x :: d) = l' ++ (x :: d) ++ q).
      { exists (skipn (length (l' ++ x :: d)) (l ++ (x :: d))).
        rewrite app_assoc. rewrite <- (firstn_skipn (length (l' ++ x :: d)) (l ++ x :: d)) at 1. f_equal.
        assert (W : firstn (length (l' ++ x :: d)) (l ++ (x :: d) ++ r) = l' ++ x :: d).
        { rewrite E, app_assoc, firstn_app, Nat.sub_diag, firstn_all. cbn [firstn]. apply app_nil_r. }
        rewrite app_assoc, firstn_app in W. rewrite !app_length in *.
        replace (length l' + length (x :: d) - (length l + length (x :: d))) with 0 in W by lia.
        cbn [firstn] in W. rewrite app_nil_r in W. exact W. }
      destruct H as [q H]. symmetry. symmetry. apply (L l' q H). }
    subst l'. apply app_inv_head, app_inv_head in E. now subst.
  - exfalso. apply (split_line_none d _ N E). now exists l, r.
Qed.

(** ** Conservation *)
Lemma given_app g h : given (g ++ h) = given g ++ given h.
Proof. unfold given. now rewrite map_app, concat_app. Qed.
Lemma used_app d g h : used d (g ++ h) = used d g ++ used d h.
Proof. unfold used. now rewrite map_app, concat_app. Qed.
Lemma upcalls_app g h : upcalls (g ++ h) = upcalls g ++ upcalls h.
Proof. unfold upcalls. now rewrite map_app, concat_app. Qed.
Lemma raw_after_app m g h : raw_after m (g ++ h) = raw_after (raw_after m g) h.
Proof. revert m. induction g as [|[] g IH]; intros m; cbn; auto. Qed.

(** from buffer [b], a record [g] leads to buffer [b'] and what is used at every
    moment was there *)
Inductive flows (d : bytes) (max : nat) : bytes -> bool -> list llog -> bytes -> bool -> Prop :=
| f_nil b m : flows d max b m [] b m
| f_in b m x g b' m' : flows d max (b ++ x) m g b' m' -> flows d max b m (LIn x :: g) b' m'
| f_line b l m' g b' : flows d max b false g b' m' -> is_line d l -> d <> [] -> length l <= max -> flows d max (l ++ d ++ b) false (LUp (ULine l) :: g) b' m'
| f_raw b m' g b' : flows d max [] true g b' m' -> flows d max b true (LUp (URaw b) :: g) b' m'
| f_exc b m' g b' : flows d max [] false g b' m' -> max < length b -> flows d max b false (LUp (UExceeded b) :: g) b' m'
| f_clr b m m' g b' : flows d max [] m g b' m' -> flows d max b m (LClear b :: g) b' m'
| f_mode b m x g b' m' : flows d max b x g b' m' -> flows d max b m (LMode x :: g) b' m'.

Lemma flows_app d max b m g b1 m1 g' b2 m2 : flows d max b m g b1 m1 -> flows d max b1 m1 g' b2 m2 -> flows d max b m (g ++ g') b2 m2.
Proof. induction 1; intros F; cbn; auto; constructor; auto. Qed.

Lemma act_flows d max a s : flows d max (r_buf s) (r_raw s) (snd (lr_act a s)) (r_buf (fst (lr_act a s))) (r_raw (fst (lr_act a s))).
Proof. destruct a; cbn; repeat constructor. Qed.
Lemma acts_flows d max l : forall s, flows d max (r_buf s) (r_raw s) (snd (lr_acts l s)) (r_buf (fst (lr_acts l s))) (r_raw (fst (lr_acts l s))).
Proof.
  induction l as [|a l IH]; intros s; cbn; [constructor|].
  pose proof (act_flows d max a s) as A. destruct (lr_act a s) as [s1 g1]. specialize (IH s1). destruct (lr_acts l s1) as [s2 g2].
  cbn in *. eapply flows_app; eauto.
Qed.
Lemma acts_busy l : forall s, r_busy (fst (lr_acts l s)) = r_busy s.
Proof.
  induction l as [|a l IH]; intros s; cbn; [reflexivity|].
  destruct (lr_act a s) as [s1 g1] eqn:E. specialize (IH s1). destruct (lr_acts l s1). cbn in *. rewrite IH.
  destruct a; cbn in E; injection E as <- _; reflexivity.
Qed.

Section R.
  Context (d : bytes) (max : nat) {U : Type} (handler : U -> upcall -> U * list lact * hres).

  Lemma fetch_flows s c s1 g b' m' : fetch d max s = Some (c, s1) -> flows d max (r_buf s1) (r_raw s1) g b' m' ->
    flows d max (r_buf s) (r_raw s) (LUp c :: g) b' m'.
  Proof.
    unfold fetch. destruct (r_buf s) as [|x b] eqn:B; [discriminate|]. destruct (r_raw s) eqn:R.
    - intros [= <- <-]. cbn. rewrite R. intros F. now constructor.
    - destruct (split_line d (x :: b)) as [[l r]|] eqn:S.
      + apply split_line_sound in S as (E & L & N). destruct (Nat.ltb_spec max (length l)) as [G|G].
        * intros [= <- <-]. cbn. rewrite R. intros F. rewrite E. constructor; auto. rewrite !app_length. lia.
        * intros [= <- <-]. cbn. rewrite R. intros F. rewrite E. constructor; auto; lia.
      + destruct (Nat.ltb_spec max (length (x :: b))) as [G|G]; [|discriminate].
        intros [= <- <-]. cbn. rewrite R. intros F. constructor; auto.
  Qed.
  Lemma loop_flows fuel : forall u s u' s' g o, lr_loop d max handler fuel u s = Some (u', s', g, o) ->
    flows d max (r_buf s) (r_raw s) g (r_buf s') (r_raw s') /\ r_busy s' = r_busy s.
  Proof.
    induction fuel as [|n IH]; intros u s u' s' g o; cbn [lr_loop]; [discriminate|].
    destruct (fetch d max s) as [[c s1]|] eqn:F; [|intros [= <- <- <- <-]; split; [constructor|reflexivity]].
    assert (B1 : r_busy s1 = r_busy s).
    { unfold fetch in F. destruct (r_buf s); [discriminate|]. destruct (r_raw s); [injection F as _ <-; reflexivity|].
      destruct (split_line _ _) as [[]|]; destruct (max <? _); try discriminate; injection F as _ <-; reflexivity. }
    destruct (handler u c) as [[u2 acts] h]. pose proof (acts_flows d max acts s1) as A. pose proof (acts_busy acts s1) as B2.
    destruct (lr_acts acts s1) as [s2 g2]. cbn in A, B2.
    destruct (after c h s2) as [o'|].
    - intros [= <- <- <- <-]. split; [eapply fetch_flows; eauto|congruence].
    - destruct (lr_loop d max handler n u2 s2) as [[[[u3 s3] g3] o3]|] eqn:E; [|discriminate].
      intros [= <- <- <- <-]. apply IH in E as [E B3]. split; [|congruence]. eapply fetch_flows; eauto. eapply flows_app; eauto.
  Qed.
  Lemma data_flows fuel b u s u' s' g o : lr_data d max handler fuel b u s = Some (u', s', g, o) ->
    flows d max (r_buf s) (r_raw s) g (r_buf s') (r_raw s').
  Proof.
    unfold lr_data. destruct (r_busy s).
    - intros [= <- <- <- <-]. cbn. repeat constructor.
    - destruct (lr_loop _ _ _ _ _ _) as [[[[u1 s1] g1] o1]|] eqn:E; [|discriminate]. intros [= <- <- <- <-].
      apply loop_flows in E as [E _]. cbn in *. now constructor.
  Qed.
  Lemma ext_flows fuel a u s u' s' g o : lr_ext d max handler fuel a u s = Some (u', s', g, o) ->
    flows d max (r_buf s) (r_raw s) g (r_buf s') (r_raw s').
  Proof.
    destruct a as [b|e| | |]; cbn [lr_ext]; try (intros [= <- <- <- <-]; cbn; repeat constructor).
    - apply data_flows.
    - destruct e as [|x e]; [intros [= <- <- <- <-]; cbn; repeat constructor|].
      destruct (lr_data _ _ _ _ _ _ _) as [[[[u1 s1] g1] o1]|] eqn:E; [|discriminate]. intros [= <- <- <- <-].
      apply data_flows in E. cbn in E. now constructor.
  Qed.
  Lemma run_flows fuel l : forall u s u' s' g, lr_run d max handler fuel l u s = Some (u', s', g) ->
    flows d max (r_buf s) (r_raw s) g (r_buf s') (r_raw s').
  Proof.
    induction l as [|a l IH]; intros u s u' s' g; cbn [lr_run]; [intros [= <- <- <-]; constructor|].
    destruct (lr_ext _ _ _ _ _ _ _) as [[[[u1 s1] g1] o1]|] eqn:E; [|discriminate].
    destruct (lr_run _ _ _ _ l u1 s1) as [[[u2 s2] g2]|] eqn:E2; [|discriminate]. intros [= <- <- <-].
    apply ext_flows in E. apply IH in E2. eapply flows_app; eauto.
  Qed.
End R.

Lemma flows_balance d max b m g b' m' : flows d max b m g b' m' -> b ++ given g = used d g ++ b'.
Proof.
  induction 1; unfold given, used in *; cbn [map concat]; rewrite ?app_nil_l, ?app_nil_r in *; auto.
  - rewrite <- IHflows, <- app_assoc. reflexivity.
  - rewrite <- !app_assoc, IHflows, <- ?app_assoc. reflexivity.
  - rewrite <- app_assoc, <- IHflows. reflexivity.
  - rewrite <- app_assoc, <- IHflows. reflexivity.
  - rewrite <- app_assoc, <- IHflows. reflexivity.
Qed.
Lemma flows_mode d max b m g b' m' : flows d max b m g b' m' -> m' = raw_after m g.
Proof. induction 1; cbn; auto. Qed.
Lemma flows_split d max b m g b' m' : flows d max b m g b' m' -> forall g1 g2, g = g1 ++ g2 ->
  exists b1, flows d max b m g1 b1 (raw_after m g1) /\ flows d max b1 (raw_after m g1) g2 b' m'.
Proof.
  induction 1 as [b m|b m x g b' m' F IH|b l m' g b' F IH L N G|b m' g b' F IH|b m' g b' F IH G|b m m' g b' F IH|b m x g b' m' F IH];
    intros [|e g1] g2 E; try discriminate; try (cbn in E; subst g2; eexists; split; [constructor|constructor; eauto]; fail);
    try (cbn in E; injection E as <- E; destruct (IH _ _ E) as (b1 & A & B); exists b1; cbn; split; [constructor; auto|exact B]).
Qed.

(** ** Quiet end of a receive *)
Section Q.
  Context (d : bytes) (max : nat) {U : Type} (handler : U -> upcall -> U * list lact * hres).
  Lemma fetch_none s : d <> [] -> fetch d max s = None ->
    r_buf s = [] \/ (r_raw s = false /\ ~ occurs d (r_buf s) /\ length (r_buf s) <= max).
  Proof.
    intros N. unfold fetch. destruct (r_buf s) as [|x b] eqn:B; [auto|]. right. destruct (r_raw s); [discriminate|].
    destruct (split_line d (x :: b)) as [[l r]|] eqn:S; [destruct (max <? length l); discriminate|].
    destruct (Nat.ltb_spec max (length (x :: b))); [discriminate|]. split; [reflexivity|]. split; [now apply split_line_none|lia].
  Qed.
  Lemma loop_idle fuel : forall u s u' s' g, lr_loop d max handler fuel u s = Some (u', s', g, OIdle) -> fetch d max s' = None.
  Proof.
    induction fuel as [|n IH]; intros u s u' s' g; cbn [lr_loop]; [discriminate|].
    destruct (fetch d max s) as [[c s1]|] eqn:F; [|intros [= <- <- <-]; exact F].
    destruct (handler u c) as [[u2 acts] h]. destruct (lr_acts acts s1) as [s2 g2].
    destruct (after c h s2) as [o'|] eqn:A.
    - intros [= <- <- <- ->]. exfalso. destruct h as [w|], c; cbn in A; try discriminate; destruct w; try discriminate.
      destruct (r_tr s2) as [|[]|]; discriminate.
    - destruct (lr_loop d max handler n u2 s2) as [[[[u3 s3] g3] o3]|] eqn:E; [|discriminate].
      intros [= <- <- <- ->]. eapply IH; eauto.
  Qed.
End Q.

(** ** Termination *)
Section T.
  Context (d : bytes) (max : nat) {U : Type} (handler : U -> upcall -> U * list lact * hres).
  Lemma fetch_shrinks s c s1 : fetch d max s = Some (c, s1) -> length (r_buf s1) < length (r_buf s).
  Proof.
    unfold fetch. destruct (r_buf s) as [|x b] eqn:B; [discriminate|]. destruct (r_raw s).
    - intros [= <- <-]. cbn. lia.
    - destruct (split_line d (x :: b)) as [[l r]|] eqn:S.
      + apply split_line_sound in S as (E & _ & N). destruct (max <? length l); intros [= <- <-]; cbn [with_buf r_buf]; [cbn; lia|].
        rewrite E, !app_length. destruct d; [contradiction|cbn; lia].
      + destruct (max <? length (x :: b)); [|discriminate]. intros [= <- <-]. cbn. lia.
  Qed.
  Lemma acts_shrink l : forall s, Forall feeds_nothing l -> length (r_buf (fst (lr_acts l s))) <= length (r_buf s).
  Proof.
    induction l as [|a l IH]; intros s F; cbn; [lia|]. inversion F as [|? ? Fa Fl]; subst.
    destruct (lr_act a s) as [s1 g1] eqn:E. specialize (IH s1 Fl). destruct (lr_acts l s1) as [s2 g2]. cbn in *.
    assert (length (r_buf s1) <= length (r_buf s)); [|lia].
    destruct a; cbn in E, Fa; injection E as <- _; subst; cbn; rewrite ?app_nil_r; lia.
  Qed.
  Lemma loop_ends : no_feedback handler -> forall fuel u s, length (r_buf s) < fuel -> lr_loop d max handler fuel u s <> None.
  Proof.
    intros NF. induction fuel as [|n IH]; intros u s L; [lia|]. cbn [lr_loop].
    destruct (fetch d max s) as [[c s1]|] eqn:F; [|discriminate]. apply fetch_shrinks in F.
    pose proof (NF u c) as FA. destruct (handler u c) as [[u2 acts] h]. cbn in FA.
    pose proof (acts_shrink acts s1 FA) as SA. destruct (lr_acts acts s1) as [s2 g2]. cbn in SA.
    destruct (after c h s2); [discriminate|]. specialize (IH u2 s2).
    destruct (lr_loop d max handler n u2 s2) as [[[[]]]|]; [discriminate|]. exfalso. apply IH; [lia|reflexivity].
  Qed.
End T.

(** ** Consumers: lines do not depend on chunks *)
Lemma stream_cons d l ls rest : stream_of d (l :: ls) rest = l ++ d ++ stream_of d ls rest.
Proof. unfold stream_of. cbn. now rewrite <- !app_assoc. Qed.
Lemma stream_app d ls ls' rest : stream_of d (ls ++ ls') rest = stream_of d ls (stream_of d ls' rest).
Proof. unfold stream_of. now rewrite map_app, concat_app, <- app_assoc. Qed.
Lemma app_le_split {A} (a b x y : list A) : a ++ b = x ++ y -> length x <= length a -> exists z, a = x ++ z /\ y = z ++ b.
Proof.
  revert x. induction a as [|h a IH]; intros x E L.
  - destruct x; [|cbn in L; lia]. exists []. cbn in *. auto.
  - destruct x as [|k x]; [exists (h :: a); auto|]. cbn in E. injection E as -> E. cbn in L.
    destruct (IH x E) as (z & -> & ->); [lia|]. exists z. auto.
Qed.
Lemma not_occurs_prefix d a b : ~ occurs d (a ++ b) -> ~ occurs d a.
Proof. intros N (p & q & ->). apply N. exists p, (q ++ b). now rewrite <- !app_assoc. Qed.
Lemma line_prefix_not_occurs d l a b : d <> [] -> is_line d l -> a ++ b = l ++ d -> b <> [] -> ~ occurs d a.
Proof.
  intros N L E B (p & q & ->). rewrite <- !app_assoc in E. assert (p = l) by (apply (L p (q ++ b)); congruence). subst p.
  apply app_inv_head in E. apply (f_equal (@length Z)) in E. rewrite !app_length in E. destruct b; [contradiction|cbn in E; lia].
Qed.

(** where a chunk boundary falls *)
Lemma boundary d m : d <> [] -> forall ls rest A B, A ++ B = stream_of d ls rest ->
  Forall (fun l => is_line d l /\ length l + length d <= S m) ls ->
  exists la lb r, ls = la ++ lb /\ A = stream_of d la r /\ r ++ B = stream_of d lb rest /\
    (lb = [] \/ (~ occurs d r /\ length r <= m)).
Proof.
  intros N. induction ls as [|l ls IH]; intros rest A B E F.
  - exists [], [], A. repeat split; auto.
  - inversion F as [|? ? [Ll Fl] F']; subst. rewrite stream_cons, app_assoc in E.
    destruct (le_lt_dec (length (l ++ d)) (length A)) as [G|G].
    + destruct (app_le_split _ _ _ _ E G) as (z & -> & E'). symmetry in E'.
      destruct (IH rest z B E' F') as (la & lb & r & -> & -> & Er & Hr). exists (l :: la), lb, r.
      split; [reflexivity|]. split; [now rewrite stream_cons, <- app_assoc|]. auto.
    + exists [], (l :: ls), A. split; [reflexivity|]. split; [reflexivity|]. split; [now rewrite stream_cons, E, <- app_assoc|].
      right. assert (exists z, l ++ d = A ++ z /\ B = z ++ stream_of d ls rest) as (z & Ez & _).
      { apply (app_le_split (l ++ d) (stream_of d ls rest) A B); [now rewrite E|lia]. }
      rewrite app_length in G. split; [|lia]. apply (line_prefix_not_occurs d l A z N Ll); [now rewrite Ez|].
      intros ->. rewrite app_nil_r in Ez. apply (f_equal (@length Z)) in Ez. rewrite app_length in Ez. lia.
Qed.

Section C.
  Context (d : bytes) (max : nat) {U : Type} (handler : U -> upcall -> U * list lact * hres).
  Hypothesis N : d <> [].
  Hypothesis H : consumer handler.
  Definition quiet (t : trkind) : Prop := t = NoTransport \/ t = Twisted false.

  Lemma loop_lines : forall ls r u s n, Forall (fun l => is_line d l /\ length l <= max) ls ->
    quiet (r_tr s) -> r_raw s = false -> r_buf s = stream_of d ls r ->
    exists u', lr_loop d max handler (length ls + n) u s =
      match lr_loop d max handler n u' (with_buf s r) with
      | Some (u3, s3, g3, o) => Some (u3, s3, map (fun l => LUp (ULine l)) ls ++ g3, o)
      | None => None
      end.
  Proof.
    induction ls as [|l ls IH]; intros r u s n F Q R E.
    - exists u. cbn [length Nat.add map app]. assert (X : with_buf s r = s) by (destruct s; cbn in *; subst; reflexivity). rewrite X.
      destruct (lr_loop d max handler n u s) as [[[[]]]|]; reflexivity.
    - inversion F as [|? ? [Ll Lm] F']; subst. cbn [length Nat.add lr_loop].
      assert (FT : fetch d max s = Some (ULine l, with_buf s (stream_of d ls r))).
      { unfold fetch. rewrite E, R, stream_cons. destruct (l ++ d ++ stream_of d ls r) as [|x b] eqn:X.
        - exfalso. destruct l; [cbn in X; destruct d; [contradiction|discriminate]|discriminate].
        - rewrite <- X, split_line_complete by auto. destruct (Nat.ltb_spec max (length l)); [lia|reflexivity]. }
      rewrite FT. destruct (H u (ULine l)) as [HA HR]. destruct (handler u (ULine l)) as [[u2 acts] h]. cbn in HA, HR. subst acts h.
      cbn [lr_acts after]. cbn [r_tr with_buf].
      destruct (IH r u2 (with_buf s (stream_of d ls r)) n F' Q R eq_refl) as (u' & IE). exists u'.
      change (with_buf (with_buf s (stream_of d ls r)) r) with (with_buf s r) in IE.
      destruct Q as [Q|Q]; rewrite Q, IE; destruct (lr_loop d max handler n u' (with_buf s r)) as [[[[]]]|]; reflexivity.
  Qed.
  Lemma loop_rest r u s n : r_buf s = r -> r_raw s = false -> ~ occurs d r -> length r <= max ->
    lr_loop d max handler (S n) u s = Some (u, s, [], OIdle).
  Proof.
    intros E R O L. cbn [lr_loop]. unfold fetch. rewrite E, R. destruct r as [|x b]; [reflexivity|].
    destruct (split_line d (x :: b)) as [[l q]|] eqn:S.
    - exfalso. apply split_line_sound in S as (S & _). apply O. exists l, q. exact S.
    - destruct (Nat.ltb_spec max (length (x :: b))); [lia|reflexivity].
  Qed.
  Lemma loop_long r u s n : r_buf s = r -> r_raw s = false -> max < length r ->
    (forall l q, r = l ++ d ++ q -> is_line d l -> max < length l) ->
    exists u' b, lr_loop d max handler (S n) u s = Some (u', with_buf s [], [LUp (UExceeded b)], OExceeded).
  Proof.
    intros E R L O. cbn [lr_loop].
    assert (FT : exists b, fetch d max s = Some (UExceeded b, with_buf s [])).
    { unfold fetch. rewrite E, R. destruct r as [|x b]; [cbn in L; lia|].
      destruct (split_line d (x :: b)) as [[l q]|] eqn:S.
      - apply split_line_sound in S as (S & Sl & _). specialize (O l q S Sl). destruct (Nat.ltb_spec max (length l)); [eauto|lia].
      - destruct (Nat.ltb_spec max (length (x :: b))); [eauto|lia]. }
    destruct FT as [b FT]. rewrite FT. destruct (H u (UExceeded b)) as [HA HR]. destruct (handler u (UExceeded b)) as [[u2 acts] h].
    cbn in HA, HR. subst acts h. cbn. eauto.
  Qed.

  Lemma upcalls_lines ls : upcalls (map (fun l => LUp (ULine l)) ls) = map ULine ls.
  Proof. induction ls as [|l ls IH]; [reflexivity|]. cbn in *. unfold upcalls in *. cbn. now rewrite IH. Qed.
  Lemma stream_len ls r : length ls <= length (stream_of d ls r).
  Proof. induction ls as [|l ls IH]; [cbn; lia|]. rewrite stream_cons, !app_length. destruct d; [contradiction|]. cbn [length] in *. lia. Qed.

  (** one chunk *)
  Lemma data_lines fuel c u s ls r : r_busy s = false -> r_raw s = false -> quiet (r_tr s) ->
    r_buf s ++ c = stream_of d ls r -> Forall (fun l => is_line d l /\ length l <= max) ls -> ~ occurs d r -> length r <= max ->
    length ls < fuel ->
    exists u', lr_data d max handler fuel c u s = Some (u', with_buf s r, LIn c :: map (fun l => LUp (ULine l)) ls, OIdle).
  Proof.
    intros B R Q E F O L G. unfold lr_data. rewrite B.
    set (s1 := with_busy (with_buf s (r_buf s ++ c)) true).
    destruct (loop_lines ls r u s1 (S (fuel - S (length ls))) F Q R E) as [u' X]. exists u'.
    replace (length ls + S (fuel - S (length ls))) with fuel in X by lia. rewrite X.
    rewrite (loop_rest r u' (with_buf s1 r) _ eq_refl R O L). rewrite app_nil_r. destruct s; cbn in *. subst. reflexivity.
  Qed.
  Lemma run_lines fuel : forall cs u s ls rest, r_busy s = false -> r_raw s = false -> quiet (r_tr s) ->
    r_buf s ++ concat cs = stream_of d ls rest -> Forall (fun l => is_line d l /\ length l + length d <= S max) ls ->
    ~ occurs d rest -> length rest <= max -> ~ occurs d (r_buf s) -> length (r_buf s) <= max -> length ls < fuel ->
    exists u' g, lr_run d max handler fuel (map AData cs) u s = Some (u', with_buf s rest, g) /\ upcalls g = map ULine ls.
  Proof.
    induction cs as [|c cs IH]; intros u s ls rest B R Q E F O L Ob Lb G; cbn [map lr_run concat] in *.
    - rewrite app_nil_r in E. destruct ls as [|l ls].
      + exists u, []. cbn in E. subst rest. destruct s; auto.
      + exfalso. apply Ob. rewrite E, stream_cons. exists l, (stream_of d ls rest). reflexivity.
    - rewrite app_assoc in E. destruct (boundary d max N ls rest _ _ E F) as (la & lb & r & -> & Ea & Er & Hr).
      assert (Hr' : ~ occurs d r /\ length r <= max).
      { destruct Hr as [->|Hr]; [|exact Hr]. cbn in Er. subst rest. split; [eapply not_occurs_prefix; eauto|rewrite app_length in L; lia]. }
      destruct Hr' as [Or Lr]. rewrite app_length in G. apply Forall_app in F as [Fa Fb].
      destruct (data_lines fuel c u s la r B R Q Ea) as (u1 & X); auto.
      { eapply Forall_impl; [|exact Fa]. cbn. intros l [P1 P2]. split; [exact P1|]. destruct d; [contradiction|cbn in P2; lia]. }
      { lia. }
      cbn [lr_ext]. rewrite X. destruct (IH u1 (with_buf s r) lb rest) as (u2 & g2 & X2 & Y2); auto; [lia|].
      rewrite X2. exists u2. eexists. split; [reflexivity|]. 
      change (LIn c :: map (fun l => LUp (ULine l)) la) with ([LIn c] ++ map (fun l => LUp (ULine l)) la).
      rewrite !upcalls_app, upcalls_lines, Y2, map_app. reflexivity.
  Qed.

  Lemma data_long fuel c u s ls r : r_busy s = false -> r_raw s = false -> quiet (r_tr s) ->
    r_buf s ++ c = stream_of d ls r -> Forall (fun l => is_line d l /\ length l <= max) ls -> max < length r ->
    (forall l q, r = l ++ d ++ q -> is_line d l -> max < length l) ->
    length ls < fuel ->
    exists u' b, lr_data d max handler fuel c u s = Some (u', with_buf s [], LIn c :: map (fun l => LUp (ULine l)) ls ++ [LUp (UExceeded b)], OExceeded).
  Proof.
    intros B R Q E F L O G. unfold lr_data. rewrite B.
    set (s1 := with_busy (with_buf s (r_buf s ++ c)) true).
    destruct (loop_lines ls r u s1 (S (fuel - S (length ls))) F Q R E) as [u' X].
    replace (length ls + S (fuel - S (length ls))) with fuel in X by lia. rewrite X.
    destruct (loop_long r u' (with_buf s1 r) (fuel - S (length ls)) eq_refl R L O) as (u2 & b & Y). rewrite Y. exists u2, b. destruct s; cbn in *. subst. reflexivity.
  Qed.
  Lemma run_long fuel : forall cs u s ls l tail, r_busy s = false -> r_raw s = false -> quiet (r_tr s) ->
    r_buf s ++ concat cs = stream_of d ls (l ++ tail) -> Forall (fun l => is_line d l /\ length l + length d <= S max) ls ->
    ~ occurs d l -> max + length d <= length l -> ~ occurs d (r_buf s) -> length (r_buf s) <= max -> length ls < fuel ->
    forall u' s' g, lr_run d max handler fuel (map AData cs) u s = Some (u', s', g) ->
    exists b more, upcalls g = map ULine ls ++ UExceeded b :: more.
  Proof.
    induction cs as [|c cs IH]; intros u s ls l tail B R Q E F O L Ob Lb G u' s' g; cbn [map lr_run concat] in *.
    - rewrite app_nil_r in E. exfalso. destruct ls as [|l0 ls].
      + cbn in E. rewrite E, app_length in Lb. destruct d; [contradiction|cbn in L; lia].
      + apply Ob. rewrite E, stream_cons. exists l0, (stream_of d ls (l ++ tail)). reflexivity.
    - rewrite app_assoc in E. destruct (boundary d max N ls _ _ _ E F) as (la & lb & r & -> & Ea & Er & Hr).
      rewrite app_length in G. apply Forall_app in F as [Fa Fb].
      assert (Fa' : Forall (fun l => is_line d l /\ length l <= max) la).
      { eapply Forall_impl; [|exact Fa]. cbn. intros l' [P1 P2]. split; [exact P1|]. destruct d; [contradiction|cbn in P2; lia]. }
      assert (Hr' : (~ occurs d r /\ length r <= max) \/ (lb = [] /\ max < length r)).
      { destruct (le_lt_dec (length r) max) as [W|W]; [left|].
        - split; [|exact W]. destruct Hr as [->|Hr]; [|apply Hr]. cbn in Er. symmetry in Er.
          destruct (app_le_split _ _ _ _ Er) as (z & -> & _); [lia|]. now apply not_occurs_prefix in O.
        - destruct Hr as [->|Hr]; [right; auto|lia]. }
      destruct Hr' as [[Or Lr]|[-> Lr]].
      + destruct (data_lines fuel c u s la r B R Q Ea) as (u1 & X); auto; [lia|].
        cbn [lr_ext]. rewrite X. destruct (lr_run d max handler fuel (map AData cs) u1 (with_buf s r)) as [[[u2 s2] g2]|] eqn:Y; [|discriminate].
        intros [= <- <- <-]. assert (Gb : length lb < fuel) by lia. destruct (IH u1 (with_buf s r) lb l tail B R Q Er Fb O L Or Lr Gb u2 s2 g2 Y) as (b & more & Y2). exists b, more.
        match goal with |- upcalls (LIn c :: ?x) = _ => change (upcalls (LIn c :: x)) with (upcalls x) end.
        rewrite !upcalls_app, upcalls_lines, Y2, map_app, <- app_assoc. reflexivity.
      + destruct (data_long fuel c u s la r B R Q Ea) as (u1 & b & X); auto; [|lia|].
        { intros l' q -> Ll'. destruct (le_lt_dec (length l') max) as [W|W]; [exfalso|exact W]. cbn in Er.
          assert (exists z, l = (l' ++ d) ++ z /\ (q ++ concat cs) = z ++ tail) as (z & Z & _).
          { apply app_le_split; [rewrite <- !app_assoc in *; symmetry; exact Er|rewrite app_length; lia]. }
          apply O. exists l', z. now rewrite <- app_assoc in Z. }
        cbn [lr_ext]. rewrite X. destruct (lr_run d max handler fuel (map AData cs) u1 (with_buf s [])) as [[[u2 s2] g2]|] eqn:Y; [|discriminate].
        intros [= <- <- <-]. exists b, (upcalls g2). rewrite (app_nil_r la).
        match goal with |- upcalls (LIn c :: ?x) = _ => change (upcalls (LIn c :: x)) with (upcalls x) end.
        rewrite !upcalls_app, upcalls_lines. cbn [upcalls map concat app]. rewrite <- app_assoc. reflexivity.
  Qed.

  (** asyncio's transports *)
  Lemma data_plain fuel c u s l r : r_busy s = false -> r_raw s = false -> r_tr s = Plain ->
    r_buf s ++ c = l ++ d ++ r -> is_line d l -> length l <= max -> 0 < fuel ->
    exists u', lr_data d max handler fuel c u s = Some (u', with_buf s r, [LIn c; LUp (ULine l)], OExc).
  Proof.
    intros B R T E Ll Lm G. destruct fuel as [|n]; [lia|]. unfold lr_data. rewrite B. cbn [lr_loop].
    set (s1 := with_busy (with_buf s (r_buf s ++ c)) true).
    assert (FT : fetch d max s1 = Some (ULine l, with_buf s1 r)).
    { unfold fetch, s1. cbn [with_busy with_buf r_buf r_raw]. rewrite E, R. destruct (l ++ d ++ r) as [|x b] eqn:X.
      - exfalso. destruct l; [cbn in X; destruct d; [contradiction|discriminate]|discriminate].
      - rewrite <- X, split_line_complete by auto. destruct (Nat.ltb_spec max (length l)); [lia|reflexivity]. }
    rewrite FT. destruct (H u (ULine l)) as [HA HR]. destruct (handler u (ULine l)) as [[u2 acts] h]. cbn in HA, HR. subst acts h.
    cbn [lr_acts after]. unfold s1. cbn [r_tr with_buf with_busy]. rewrite T. exists u2. destruct s; cbn in *; subst. reflexivity.
  Qed.
End C.
