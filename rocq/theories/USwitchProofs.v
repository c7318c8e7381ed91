(** * Proofs about the unreliable switch: one write *)
From Coq Require Import String.
From Coq Require Import List ZArith QArith Bool Lia Permutation Sorted.
From Verif Require Import PyBase PyLemmas StreamProofs ErrModel ErrSpec ErrProofs USwitchModel USwitchSpec.
Import ListNotations.
Open Scope Z_scope.

Lemma draws_can set d : draws_ok set d -> can_draw set = true.
Proof.
  intros [A B]. unfold can_draw. destruct (Z.leb_spec (fst set) 0); [reflexivity|]. cbn [orb].
  destruct d as [|x d]; [unfold zlen in A; cbn in A; lia|]. inversion B; subst. apply Z.leb_le. lia.
Qed.
Lemma can_drawable set : can_draw set = true <-> drawable set.
Proof. unfold can_draw, drawable. rewrite orb_true_iff, !Z.leb_le. reflexivity. Qed.
Lemma corrupt_2 index range bad : forall data, corrupt2 index range bad data =
  match corrupt index range bad data with Ok (d, b) => (b, Some d) | Raise _ => (fst (corrupt2 index range bad data), None) end.
Proof.
  induction bad as [|b r IH]; intro data; cbn [corrupt2 corrupt]; [reflexivity|]. destruct (b <? range); [|reflexivity]. destruct (flip data (b - index)) as [d|]; [|reflexivity]. rewrite IH at 1. destruct (corrupt index range r d) as [[? ?]|]; reflexivity.
Qed.
(** where it does not raise it is the transport of ErrModel.v *)
Lemma ce_write_2 set d1 d2 data c c' out : can_draw set = true -> ce_write set d1 d2 data c = Ok (c', out) -> ce_write2 set d1 d2 data c = (c', Some out).
Proof.
  intros C E. unfold ce_write, ce_write2 in *. rewrite C. destruct (eqb (c_set c) set); cbv zeta in *; cbn [c_index c_bad c_set reset] in *.
  - rewrite corrupt_2. destruct (corrupt _ _ _ _) as [[o b]|]; [|discriminate]. injection E as <- <-. destruct (snd set <? _); reflexivity.
  - rewrite corrupt_2. destruct (corrupt _ _ _ _) as [[o b]|]; [|discriminate]. injection E as <- <-. destruct (snd set <? _); reflexivity.
Qed.
Lemma ce2_ok set d1 d2 drawn pos c data : inv set drawn pos c -> draws_ok set d2 ->
  exists c', ce_write2 set d1 d2 data c = (c', Some (flipped drawn pos data)) /\
    (if snd set <? pos + zlen data then inv set d2 0 c' else inv set drawn (pos + zlen data) c').
Proof. intros I D. destruct (write_inv set d1 d2 drawn pos c data I D) as (c' & E & X). exists c'. split; [|exact X]. apply ce_write_2; [now apply (draws_can set d2)|exact E]. Qed.
Lemma ce2_silent set d1 d2 data c : can_draw set = false -> can_draw (c_set c) = true -> ce_write2 set d1 d2 data c = (Cet (c_index c) [] (c_set c), None).
Proof.
  intros C D. unfold ce_write2. unfold eqb. destruct (eq_dec (c_set c) set) as [E|E]; [rewrite E in D; congruence|]. now rewrite C.
Qed.
Lemma ce2_can set d1 d2 data c : can_draw (c_set c) = true -> can_draw (c_set (fst (ce_write2 set d1 d2 data c))) = true.
Proof.
  intro D. unfold ce_write2. destruct (eqb (c_set c) set) eqn:E.
  - destruct (corrupt2 _ _ _ _) as [bad [out|]]; [|exact D]. destruct (snd set <? _); [|exact D]. destruct (can_draw set) eqn:C; [exact C|exact D].
  - destruct (can_draw set) eqn:C; [|exact D]. destruct (corrupt2 _ _ _ _) as [bad [out|]]; [|exact C]. destruct (snd set <? _); exact C.
Qed.
Lemma flipped_altered B d : forall p, altered d (flipped B p d).
Proof. unfold altered. induction d as [|b d IH]; intro p; cbn [flipped]; constructor; [destruct (smem B p); auto|apply IH]. Qed.
Lemma altered_refl d : altered d d. Proof. unfold altered. induction d; constructor; auto. Qed.
Lemma lxor_twice b : Z.lxor (Z.lxor b 255) 255 = b.
Proof. now rewrite Z.lxor_assoc, Z.lxor_nilpotent, Z.lxor_0_r. Qed.
Lemma altered_trans a b c : altered a b -> altered b c -> altered a c.
Proof.
  unfold altered. intro A. revert c. induction A as [|x y a b X A IH]; intros c B; inversion B; subst; constructor; [|auto].
  destruct X as [-> | ->], H1 as [-> | ->]; rewrite ?lxor_twice; auto.
Qed.

(** ** the layers of a link *)
Definition good (set : Z * Z) (c : cet) : Prop := exists drawn pos, inv set drawn pos c.
Definition result (data : bytes) (o : outcome) : Prop := match o with Sent b | Held _ b => altered data b | Dropped => False end.
Lemma result_trans a b o : altered a b -> result b o -> result a o.
Proof. destruct o; cbn; intros; try contradiction; eapply altered_trans; eauto. Qed.
Lemma pipe_good set rt rnd : (forall n, draws_ok set (r_d2 (rnd n))) -> forall ls due data, Forall (good set) ls ->
  let (ls', o) := pipe set rt rnd due data ls in Forall (good set) ls' /\ result data o.
Proof.
  intro D. induction ls as [|c r IH]; intros due data G; cbn [pipe]; [split; [constructor|apply altered_refl]|].
  destruct (negb due && late rt (rnd (Datatypes.length r))); [split; [exact G|apply altered_refl]|]. inversion G as [|? ? (drawn & pos & I) G2]; subst.
  destruct (ce2_ok set (r_d1 (rnd (Datatypes.length r))) _ drawn pos c data I (D (Datatypes.length r))) as (c' & E & X). rewrite E.
  specialize (IH false (flipped drawn pos data) G2). destruct (pipe set rt rnd false (flipped drawn pos data) r) as [r' o]. destruct IH as [A B].
  split; [constructor; [destruct (snd set <? pos + zlen data); unfold good; eauto|exact A]|]. eapply result_trans; [apply flipped_altered|exact B].
Qed.
Lemma fire_good set rt rnd : (forall n, draws_ok set (r_d2 (rnd n))) -> forall ls depth data, Forall (good set) ls ->
  let (ls', o) := fire set rt rnd depth data ls in Forall (good set) ls' /\ result data o.
Proof.
  intro D. induction ls as [|c r IH]; intros depth data G; cbn [fire]; [split; [constructor|apply altered_refl]|].
  destruct (Nat.eqb _ depth); [now apply pipe_good|]. inversion G; subst. specialize (IH depth data H2). destruct (fire set rt rnd depth data r) as [r' o]. destruct IH. split; [now constructor|assumption].
Qed.
(** lengths and settings of the layers; the depth of what waits *)
Definition sound (c : cet) : Prop := can_draw (c_set c) = true.
Definition depth_ok (n : nat) (o : outcome) : Prop := match o with Held k _ => (1 <= k <= n)%nat | _ => True end.
Lemma pipe_shape set rt rnd : forall ls due data, Forall sound ls ->
  let (ls', o) := pipe set rt rnd due data ls in Forall sound ls' /\ Datatypes.length ls' = Datatypes.length ls /\ depth_ok (Datatypes.length ls) o.
Proof.
  induction ls as [|c r IH]; intros due data G; cbn [pipe]; [repeat constructor|].
  destruct (negb due && late rt (rnd (Datatypes.length r))); [cbn; repeat split; [exact G|lia|lia]|]. inversion G; subst.
  pose proof (ce2_can set (r_d1 (rnd (Datatypes.length r))) (r_d2 (rnd (Datatypes.length r))) data c H1) as X. destruct (ce_write2 _ _ _ data c) as [c' [out|]]; cbn [fst] in X.
  - specialize (IH false out H2). destruct (pipe set rt rnd false out r) as [r' o]. destruct IH as (A & B & C). split; [now constructor|]. split; [cbn; now rewrite B|]. destruct o; cbn in *; lia || exact Logic.I.
  - split; [now constructor|]. split; [reflexivity|exact Logic.I].
Qed.
Lemma fire_shape set rt rnd : forall ls depth data, Forall sound ls ->
  let (ls', o) := fire set rt rnd depth data ls in Forall sound ls' /\ Datatypes.length ls' = Datatypes.length ls /\ depth_ok (Datatypes.length ls) o.
Proof.
  induction ls as [|c r IH]; intros depth data G; [repeat constructor|]. cbn [fire]. destruct (Nat.eqb _ depth); [now apply pipe_shape|]. inversion G; subst. specialize (IH depth data H2). destruct (fire set rt rnd depth data r) as [r' o].
  destruct IH as (A & B & C). split; [now constructor|]. split; [cbn; now rewrite B|]. destruct o; cbn in *; lia || exact Logic.I.
Qed.
(** with settings that cannot be drawn from nothing comes through *)
Lemma pipe_silent set rt rnd ls due data : can_draw set = false -> Forall sound ls -> ls <> [] ->
  match snd (pipe set rt rnd due data ls) with Sent _ => False | _ => True end.
Proof.
  intros C G N. destruct ls as [|c r]; [congruence|]. cbn [pipe]. destruct (negb due && late rt (rnd (Datatypes.length r))); [exact Logic.I|]. inversion G; subst. rewrite (ce2_silent _ _ _ _ _ C H1). exact Logic.I.
Qed.
Lemma fire_silent set rt rnd ls depth data : can_draw set = false -> Forall sound ls -> (1 <= depth <= Datatypes.length ls)%nat ->
  match snd (fire set rt rnd depth data ls) with Sent _ => False | _ => True end.
Proof.
  intros C. revert depth. induction ls as [|c r IH]; intros depth G D; [cbn in D; lia|]. cbn [fire]. destruct (Nat.eqb_spec (Datatypes.length (c :: r)) depth) as [E|E]; [apply pipe_silent; [exact C|exact G|discriminate]|].
  inversion G; subst. specialize (IH depth H2). destruct (fire set rt rnd depth data r) as [r' o]. cbn [snd] in *. apply IH. cbn in *. lia.
Qed.
(** ** delays *)
Lemma late_never z x : z <= 0 -> (0 <= r_late x)%Q -> late (RInt z) x = false.
Proof.
  intros A B. unfold late, rate_q. apply negb_false_iff. apply Qle_bool_iff. eapply Qle_trans; [|exact B]. unfold Qle. cbn. lia.
Qed.
Lemma late_always z x : 1 <= z -> (r_late x < 1)%Q -> late (RInt z) x = true.
Proof.
  intros A B. unfold late, rate_q. apply negb_true_iff. apply not_true_iff_false. intro X. apply Qle_bool_iff in X. apply (Qlt_irrefl 1). eapply Qle_lt_trans; [|exact B]. eapply Qle_trans; [|exact X]. unfold Qle. cbn. lia.
Qed.
Lemma pipe_prompt set z rnd : z <= 0 -> (forall n, (0 <= r_late (rnd n))%Q) -> forall ls due data,
  match snd (pipe set (RInt z) rnd due data ls) with Held _ _ => False | _ => True end.
Proof.
  intros Z0 R. induction ls as [|c r IH]; intros due data; cbn [pipe]; [exact Logic.I|]. rewrite (late_never z _ Z0 (R _)), andb_false_r.
  destruct (ce_write2 _ _ _ data c) as [c' [out|]]; [|exact Logic.I]. specialize (IH false out). destruct (pipe set (RInt z) rnd false out r). exact IH.
Qed.
Lemma pipe_held set z rnd ls data : 1 <= z -> (forall n, (r_late (rnd n) < 1)%Q) -> ls <> [] ->
  pipe set (RInt z) rnd false data ls = (ls, Held (Datatypes.length ls) data).
Proof. intros Z0 R N. destruct ls as [|c r]; [congruence|]. cbn [pipe negb andb]. now rewrite (late_always z _ Z0 (R _)). Qed.

(** ** after a change of settings *)
Lemma flip_longer d rel d' : flip d rel = Ok d' -> zlen d <= zlen d'.
Proof.
  unfold flip, item. pose proof (zlen_nonneg d) as Z0. destruct (Z.ltb_spec rel 0) as [N|N].
  - destruct (Z.leb_spec 0 (zlen d + rel)); [|discriminate]. destruct (Z.ltb_spec (zlen d + rel) (zlen d)); [|discriminate]. cbn [andb]. intro E. injection E as <-.
    unfold slice_to, slice_from, idx. destruct (Z.ltb_spec rel 0); [|lia]. unfold zlen in *. rewrite app_length, firstn_length; cbn [app Datatypes.length]; rewrite skipn_length.
    destruct (Z.ltb_spec (rel + 1) 0); lia.
  - destruct (Z.leb_spec 0 rel); [|lia]. destruct (Z.ltb_spec rel (zlen d)); [|discriminate]. cbn [andb]. intro E. injection E as <-.
    unfold slice_to, slice_from, idx. destruct (Z.ltb_spec rel 0); [lia|]. destruct (Z.ltb_spec (rel + 1) 0); [lia|]. unfold zlen in *. rewrite app_length, firstn_length; cbn [app Datatypes.length]; rewrite skipn_length. lia.
Qed.
Lemma corrupt2_longer index range bad : forall data bad' out, corrupt2 index range bad data = (bad', Some out) -> zlen data <= zlen out /\ (Datatypes.length bad' <= Datatypes.length bad)%nat.
Proof.
  induction bad as [|b r IH]; intros data bad' out E; cbn [corrupt2] in E; [injection E as <- <-; lia|]. destruct (b <? range); [|injection E as <- <-; lia].
  destruct (flip data (b - index)) as [d|] eqn:Fl; [|discriminate]. apply flip_longer in Fl. apply IH in E. cbn [Datatypes.length]. lia.
Qed.
Lemma corrupt2_raises index range bad : forall data bad', corrupt2 index range bad data = (bad', None) -> (Datatypes.length bad' < Datatypes.length bad)%nat.
Proof.
  induction bad as [|b r IH]; intros data bad' E; cbn [corrupt2] in E; [discriminate|]. destruct (b <? range); [|discriminate].
  destruct (flip data (b - index)) as [d|] eqn:Fl; [|injection E as <-; cbn; lia]. apply IH in E. cbn [Datatypes.length]. lia.
Qed.
(** how many more writes there can be before a window begins *)
Definition lag (set : Z * Z) (c : cet) : nat := (Datatypes.length (c_bad c) + Z.to_nat (snd set + 1 - c_index c))%nat.
Lemma ce2_lag set d1 d2 data c : can_draw set = true -> draws_ok set d2 -> data <> [] -> c_set c = set ->
  let c' := fst (ce_write2 set d1 d2 data c) in
  inv set d2 0 c' \/ (c_set c' = set /\ (lag set c' < lag set c)%nat).
Proof.
  intros C D N E. unfold ce_write2. rewrite E. replace (eqb set set) with true by (unfold eqb; destruct (eq_dec set set); congruence).
  assert (P : 1 <= zlen data) by (destruct data; [congruence|unfold zlen; cbn [Datatypes.length]; lia]).
  destruct (corrupt2 _ _ _ _) as [bad [out|]] eqn:K.
  - apply corrupt2_longer in K as [K1 K2]. destruct (Z.ltb_spec (snd set) (c_index c + zlen out)).
    + rewrite C. cbn [fst]. left. now apply inv_reset.
    + right. cbn [fst]. unfold lag. cbn [c_bad c_index c_set]. split; [reflexivity|]. lia.
  - right. apply corrupt2_raises in K. cbn [fst]. unfold lag. cbn [c_bad c_index c_set]. split; [reflexivity|]. lia.
Qed.
Lemma ce2_sync set d1 d2 data c : can_draw set = true -> draws_ok set d1 -> exists c1, c_set c1 = set /\ ce_write2 set d1 d2 data c = ce_write2 set d1 d2 data c1 /\
  (lag set c1 <= Datatypes.length (c_bad c) + Z.to_nat (fst set) + Z.to_nat (snd set + 1 - c_index c))%nat /\ c_index c1 = c_index c.
Proof.
  intros C D. unfold eqb. destruct (eq_dec (c_set c) set) as [E|E].
  - exists c. split; [exact E|]. split; [reflexivity|]. split; [unfold lag; lia|reflexivity].
  - exists (reset set (c_index c) d1). split; [reflexivity|]. unfold ce_write2, eqb. destruct (eq_dec (c_set c) set); [contradiction|]. rewrite C. cbn [reset c_set]. destruct (eq_dec set set); [|congruence]. split; [reflexivity|].
    split; [|reflexivity]. unfold lag, reset. cbn [c_bad c_index]. rewrite sort_length. destruct (distinct_spec d1) as (_ & _ & X). destruct D as [D _]. unfold zlen in D. lia.
Qed.
Definition draws_fit (set : Z * Z) (w : bytes * (list Z * list Z)) : Prop := draws_ok set (fst (snd w)) /\ draws_ok set (snd (snd w)).
Lemma ce_writes2_inv set ws : forall drawn pos c, inv set drawn pos c -> Forall (draws_fit set) ws ->
  snd (ce_writes2 set ws c) = map Some (windows (snd set) drawn pos (map (fun w => (fst w, snd (snd w))) ws)).
Proof.
  induction ws as [|[data [d1 d2]] ws IH]; intros drawn pos c I0 Fo; [reflexivity|]. inversion Fo as [|? ? [F1 F2] F3]; subst. cbn [fst snd] in *.
  cbn [ce_writes2]. destruct (ce2_ok set d1 d2 drawn pos c data I0 F2) as (c' & E & X). rewrite E. destruct (ce_writes2 set ws c') as [c2 os] eqn:E2. cbn [snd map windows fst].
  destruct (snd set <? pos + zlen data); specialize (IH _ _ _ X F3); rewrite E2 in IH; cbn [snd] in IH; now rewrite IH.
Qed.
Lemma recovers set ws : forall c, can_draw set = true -> c_set c = set -> Forall (draws_fit set) ws -> Forall (fun w => fst w <> []) ws ->
  (lag set c < Datatypes.length ws)%nat ->
  exists n data d1 d2, (n <= lag set c)%nat /\ nth_error ws n = Some (data, (d1, d2)) /\
    skipn (S n) (snd (ce_writes2 set ws c)) = map Some (windows (snd set) d2 0 (map (fun w => (fst w, snd (snd w))) (skipn (S n) ws))).
Proof.
  induction ws as [|[data [d1 d2]] ws IH]; intros c C E Fo N Lg; [cbn in Lg; lia|]. inversion Fo as [|? ? [F1 F2] F3]; subst x l. inversion N as [|? ? N1 N2]; subst x l. cbn [fst snd] in *.
  cbn [ce_writes2]. destruct (ce2_lag set d1 d2 data c C F2 N1 E) as [X|[X1 X2]]; destruct (ce_write2 set d1 d2 data c) as [c' o] eqn:Ew; cbn [fst] in *.
  - exists 0%nat, data, d1, d2. split; [lia|]. split; [reflexivity|]. pose proof (ce_writes2_inv set ws d2 0 c' X F3) as W. destruct (ce_writes2 set ws c'). cbn [snd skipn] in *. exact W.
  - cbn [Datatypes.length] in Lg. destruct (IH c' C X1 F3 N2 ltac:(lia)) as (n & da & e1 & e2 & A & B & D). exists (S n), da, e1, e2. split; [lia|]. split; [exact B|]. destruct (ce_writes2 set ws c'). cbn [snd] in *. exact D.
Qed.
