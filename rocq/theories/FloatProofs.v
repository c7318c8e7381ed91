(** * Proofs about float patterns *)
From Coq Require Import ZArith Bool Lia.
From Verif Require Import PyBase FloatModel FloatSpec.
Open Scope Z_scope.

(** ** Patterns are ordered as the numbers they stand for *)
Section Mag.
Variable p : Z.
Hypothesis Hp : 0 <= p.
Let P2 : 0 < 2 ^ p. Proof. apply Z.pow_pos_nonneg; lia. Qed.

Definition step (w : Z) : Z := 2 ^ (Z.max (w / 2 ^ p) 1 - 1).
Lemma step_pos w : 0 < step w.
Proof. apply Z.pow_pos_nonneg; lia. Qed.
Lemma mag_alt w : 0 <= w -> magnitude p w = ((if w <? 2 ^ p then 0 else 2 ^ p) + w mod 2 ^ p) * step w.
Proof.
  intros W. unfold magnitude, step. destruct (Z.ltb_spec w (2 ^ p)).
  - rewrite Z.mod_small, Z.div_small by lia. change (2 ^ (Z.max 0 1 - 1)) with 1. lia.
  - replace (Z.max (w / 2 ^ p) 1) with (w / 2 ^ p); [reflexivity|].
    assert (1 <= w / 2 ^ p) by (apply Z.div_le_lower_bound; lia). lia.
Qed.
Lemma mag_norm e f : 1 <= e -> 0 <= f < 2 ^ p -> magnitude p (e * 2 ^ p + f) = (2 ^ p + f) * 2 ^ (e - 1).
Proof.
  intros He Hf. unfold magnitude. destruct (Z.ltb_spec (e * 2 ^ p + f) (2 ^ p)); [nia|].
  rewrite (Z.add_comm (e * 2 ^ p)), Z.mod_add, Z.div_add, Z.mod_small, Z.div_small by lia. reflexivity.
Qed.
Lemma mag_sub w : w < 2 ^ p -> magnitude p w = w.
Proof. intros H. unfold magnitude. destruct (Z.ltb_spec w (2 ^ p)); lia. Qed.
Lemma mag_succ w : 0 <= w -> magnitude p (w + 1) = magnitude p w + step w.
Proof.
  intros W. destruct (Z.lt_ge_cases w (2 ^ p)) as [L|L].
  - rewrite (mag_sub w) by lia. unfold step. rewrite Z.div_small by lia. change (2 ^ (Z.max 0 1 - 1)) with 1.
    destruct (Z.eq_dec (w + 1) (2 ^ p)) as [E|E].
    + rewrite E. replace (2 ^ p) with (1 * 2 ^ p + 0) at 1 by lia. rewrite mag_norm by lia. change (2 ^ (1 - 1)) with 1. lia.
    + now rewrite mag_sub by lia.
  - set (e := w / 2 ^ p). set (f := w mod 2 ^ p).
    assert (Ew : w = e * 2 ^ p + f) by (unfold e, f; pose proof (Z.div_mod w (2 ^ p)); lia).
    assert (Hf : 0 <= f < 2 ^ p) by (apply Z.mod_pos_bound; lia).
    assert (He : 1 <= e) by (apply Z.div_le_lower_bound; lia).
    unfold step. fold e. replace (Z.max e 1) with e by lia. rewrite Ew, mag_norm by lia.
    destruct (Z.eq_dec (f + 1) (2 ^ p)) as [E|E].
    + replace (e * 2 ^ p + f + 1) with ((e + 1) * 2 ^ p + 0) by lia. rewrite mag_norm by lia.
      replace (e + 1 - 1) with (Z.succ (e - 1)) by lia. rewrite Z.pow_succ_r by lia. lia.
    + replace (e * 2 ^ p + f + 1) with (e * 2 ^ p + (f + 1)) by lia. rewrite mag_norm by lia. lia.
Qed.
Lemma mag_mono w w' : 0 <= w -> w < w' -> magnitude p (w + 1) <= magnitude p w'.
Proof.
  intros W L. replace w' with (w + 1 + (w' - w - 1)) by lia.
  assert (H : 0 <= w' - w - 1) by lia. revert H. generalize (w' - w - 1). intros k Hk. pattern k. apply natlike_ind; [| |exact Hk].
  - now rewrite Z.add_0_r.
  - intros x Hx IH. replace (w + 1 + Z.succ x) with ((w + 1 + x) + 1) by lia. rewrite (mag_succ (w + 1 + x)) by lia.
    pose proof (step_pos (w + 1 + x)). lia.
Qed.
Lemma mag_lt w w' : 0 <= w -> w < w' -> magnitude p w < magnitude p w'.
Proof. intros W L. pose proof (mag_mono w w' W L). rewrite mag_succ in H by lia. pose proof (step_pos w). lia. Qed.
Lemma mag_le w w' : 0 <= w -> w <= w' -> magnitude p w <= magnitude p w'.
Proof. intros W L. destruct (Z.eq_dec w w') as [->|N]; [lia|]. pose proof (mag_lt w w'). lia. Qed.
Lemma mag_inj w w' : 0 <= w -> 0 <= w' -> magnitude p w = magnitude p w' -> w = w'.
Proof.
  intros W W' E. destruct (Z.lt_trichotomy w w') as [L|[L|L]]; [|exact L|].
  - pose proof (mag_lt w w' W L). lia.
  - pose proof (mag_lt w' w W' L). lia.
Qed.
Lemma mag_0 : magnitude p 0 = 0.
Proof. now rewrite mag_sub by lia. Qed.
Lemma mag_nonneg w : 0 <= w -> 0 <= magnitude p w.
Proof. intros W. rewrite <- mag_0. apply mag_le; lia. Qed.
End Mag.

(** ** The pieces of a pattern *)
Lemma pow_split a b : 0 <= a -> 0 <= b -> 2 ^ (a + b) = 2 ^ a * 2 ^ b.
Proof. intros. apply Z.pow_add_r; lia. Qed.

Lemma div_split x a b : 0 < a -> 0 < b -> (x / a) mod b = (x mod (a * b)) / a.
Proof.
  intros Ha Hb. rewrite Z.rem_mul_r by lia. rewrite (Z.mul_comm a), Z.div_add by lia.
  rewrite (Z.div_small (x mod a)) by (apply Z.mod_pos_bound; lia). lia.
Qed.

Lemma f64_exp_abs b : f64_exp b = abs64 b / 2 ^ 52.
Proof. unfold f64_exp, abs64. rewrite div_split by reflexivity. reflexivity. Qed.
Lemma f32_exp_abs c : f32_exp c = abs32 c / 2 ^ 23.
Proof. unfold f32_exp, abs32. rewrite div_split by reflexivity. reflexivity. Qed.
Lemma f64_man_abs b : f64_man b = abs64 b mod 2 ^ 52.
Proof.
  unfold f64_man, abs64. change (2 ^ 63) with (2 ^ 52 * 2 ^ 11). rewrite Z.rem_mul_r by lia.
  rewrite (Z.mul_comm (2 ^ 52) (_ mod _)), Z.mod_add by lia. now rewrite Z.mod_mod by lia.
Qed.
Lemma f32_man_abs c : f32_man c = abs32 c mod 2 ^ 23.
Proof.
  unfold f32_man, abs32. change (2 ^ 31) with (2 ^ 23 * 2 ^ 8). rewrite Z.rem_mul_r by lia.
  rewrite (Z.mul_comm (2 ^ 23) (_ mod _)), Z.mod_add by lia. now rewrite Z.mod_mod by lia.
Qed.
Definition bz (b : bool) : Z := if b then 1 else 0.
Lemma f64_neg_b b : f64_neg b = bz (neg64 b).
Proof. reflexivity. Qed.
Lemma f32_neg_b c : f32_neg c = bz (neg32 c).
Proof. reflexivity. Qed.
Lemma abs64_range b : 0 <= abs64 b < 2 ^ 63.
Proof. apply Z.mod_pos_bound. reflexivity. Qed.
Lemma abs32_range c : 0 <= abs32 c < 2 ^ 31.
Proof. apply Z.mod_pos_bound. reflexivity. Qed.
Lemma double_eq b : is_double b -> b = bz (neg64 b) * 2 ^ 63 + abs64 b.
Proof.
  intros [L H]. unfold neg64, abs64, bz. destruct (Z.leb_spec (2 ^ 63) b) as [G|G].
  - replace (b mod 2 ^ 63) with (b - 2 ^ 63); [lia|]. apply (Z.mod_unique b (2 ^ 63) 1); lia.
  - rewrite Z.mod_small; lia.
Qed.
Lemma single_eq c : is_single c -> c = bz (neg32 c) * 2 ^ 31 + abs32 c.
Proof.
  intros [L H]. unfold neg32, abs32, bz. destruct (Z.leb_spec (2 ^ 31) c) as [G|G].
  - replace (c mod 2 ^ 31) with (c - 2 ^ 31); [lia|]. apply (Z.mod_unique c (2 ^ 31) 1); lia.
  - rewrite Z.mod_small; lia.
Qed.
Lemma mk64 s w : 0 <= w < 2 ^ 63 -> is_double (bz s * 2 ^ 63 + w) /\ neg64 (bz s * 2 ^ 63 + w) = s /\ abs64 (bz s * 2 ^ 63 + w) = w.
Proof.
  intros H. unfold is_double, neg64, abs64. repeat split.
  - destruct s; cbn [bz]; lia.
  - destruct s; cbn [bz]; lia.
  - destruct s; cbn [bz]; [apply Z.leb_le|apply Z.leb_gt]; lia.
  - rewrite Z.add_comm, Z.mod_add by lia. now apply Z.mod_small.
Qed.
Lemma mk32 s w : 0 <= w < 2 ^ 31 -> is_single (bz s * 2 ^ 31 + w) /\ neg32 (bz s * 2 ^ 31 + w) = s /\ abs32 (bz s * 2 ^ 31 + w) = w.
Proof.
  intros H. unfold is_single, neg32, abs32. repeat split.
  - destruct s; cbn [bz]; lia.
  - destruct s; cbn [bz]; lia.
  - destruct s; cbn [bz]; [apply Z.leb_le|apply Z.leb_gt]; lia.
  - rewrite Z.add_comm, Z.mod_add by lia. now apply Z.mod_small.
Qed.
Lemma double_ext b b' : is_double b -> is_double b' -> neg64 b = neg64 b' -> abs64 b = abs64 b' -> b = b'.
Proof. intros D D' N A. rewrite (double_eq b D), (double_eq b' D'). now rewrite N, A. Qed.
Lemma single_ext c c' : is_single c -> is_single c' -> neg32 c = neg32 c' -> abs32 c = abs32 c' -> c = c'.
Proof. intros D D' N A. rewrite (single_eq c D), (single_eq c' D'). now rewrite N, A. Qed.
Lemma signed_inj s x y : signed s x = signed s y -> x = y.
Proof. destruct s; cbn; lia. Qed.
Lemma val64_inj b b' : is_double b -> is_double b' -> neg64 b = neg64 b' -> val64 b = val64 b' -> b = b'.
Proof.
  intros D D' N V. apply double_ext; auto. unfold val64 in V. rewrite N in V. apply signed_inj in V.
  pose proof (abs64_range b). pose proof (abs64_range b'). apply (mag_inj 52) in V; lia.
Qed.
Lemma val32_inj c c' : is_single c -> is_single c' -> neg32 c = neg32 c' -> val32 c = val32 c' -> c = c'.
Proof.
  intros D D' N V. apply single_ext; auto. unfold val32 in V. rewrite N in V. apply signed_inj in V.
  apply Z.mul_reg_r in V; [|apply Z.pow_nonzero; lia].
  pose proof (abs32_range c). pose proof (abs32_range c'). apply (mag_inj 23) in V; lia.
Qed.

(** ** Rounding *)
Lemma rne_cases m s : 0 <= s ->
  let t := m / 2 ^ s in let r := m mod 2 ^ s in
  (rne m s = t /\ 2 * r <= 2 ^ s /\ (2 * r = 2 ^ s -> Z.even t = true)) \/
  (rne m s = t + 1 /\ 2 ^ s <= 2 * r /\ (2 * r = 2 ^ s -> Z.even (t + 1) = true)).
Proof.
  intros Hs t r. unfold rne. fold t r. destruct (Z.ltb_spec (2 * r) (2 ^ s)); [left; lia|].
  destruct (Z.ltb_spec (2 ^ s) (2 * r)); [right; lia|]. rewrite Zmod_even.
  destruct (Z.even t) eqn:E; [left|right].
  - split; [lia|]. split; [lia|]. auto.
  - split; [lia|]. split; [lia|]. intros _. replace (t + 1) with (Z.succ t) by lia. rewrite Z.even_succ, <- Z.negb_even, E. reflexivity.
Qed.

(** what to_single computes for a finite double with absolute value pattern [a] *)
Definition round32 (a : Z) : Z :=
  let m := if a / 2 ^ 52 =? 0 then a mod 2 ^ 52 else 2 ^ 52 + a mod 2 ^ 52 in
  let x := Z.max (a / 2 ^ 52) 1 in
  if 897 <=? x then (x - 897) * 2 ^ 23 + rne m 29 else rne m (29 + (897 - x)).
Lemma to_single_finite b : finite64 b ->
  to_single b = if 255 * 2 ^ 23 <=? round32 (abs64 b) then Raise OverflowError else Ok (f64_neg b * 2 ^ 31 + round32 (abs64 b)).
Proof.
  intros F. unfold to_single, round32. rewrite f64_exp_abs, f64_man_abs.
  destruct (Z.eqb_spec (abs64 b / 2 ^ 52) 2047) as [E|E]; [|reflexivity].
  exfalso. unfold finite64, inf64 in F. pose proof (Z.div_mod (abs64 b) (2 ^ 52)).
  pose proof (Z.mod_pos_bound (abs64 b) (2 ^ 52)). lia.
Qed.

Notation U := (2 ^ 925).
Lemma U_pos : 0 < U. Proof. apply Z.pow_pos_nonneg; lia. Qed.
(** the single just below, the one just above, and which one is taken *)
Lemma round32_spec a : 0 <= a < inf64 -> exists q,
  0 <= q /\ magnitude 23 q * U <= magnitude 52 a < magnitude 23 (q + 1) * U /\
  let lo := magnitude 52 a - magnitude 23 q * U in
  let hi := magnitude 23 (q + 1) * U - magnitude 52 a in
  (round32 a = q /\ lo <= hi /\ (lo = hi -> Z.even q = true)) \/
  (round32 a = q + 1 /\ hi <= lo /\ (lo = hi -> Z.even (q + 1) = true)).
Proof.
  intros Ha. unfold round32. set (e := a / 2 ^ 52). set (f := a mod 2 ^ 52).
  set (m := if e =? 0 then f else 2 ^ 52 + f). set (x := Z.max e 1).
  assert (Hf : 0 <= f < 2 ^ 52) by (apply Z.mod_pos_bound; reflexivity).
  assert (Ea : a = e * 2 ^ 52 + f) by (unfold e, f; pose proof (Z.div_mod a (2 ^ 52)); lia).
  assert (He : 0 <= e) by (apply Z.div_pos; lia).
  assert (Em : magnitude 52 a = m * 2 ^ (x - 1)).
  { unfold m, x. destruct (Z.eqb_spec e 0) as [E0|E0].
    - rewrite E0 in *. rewrite mag_sub by lia. change (2 ^ (Z.max 0 1 - 1)) with 1. lia.
    - rewrite Ea, mag_norm by lia. replace (Z.max e 1) with e by lia. reflexivity. }
  assert (Hx : 1 <= x) by (unfold x; lia).
  (* generic part: shift s, quotient t, single q below *)
  assert (G : forall s q, 0 <= s -> 0 <= q ->
     magnitude 23 q * U = m / 2 ^ s * 2 ^ s * 2 ^ (x - 1) ->
     step 23 q * U = 2 ^ s * 2 ^ (x - 1) -> Z.even q = Z.even (m / 2 ^ s) ->
     0 <= q /\ magnitude 23 q * U <= magnitude 52 a < magnitude 23 (q + 1) * U /\
     let lo := magnitude 52 a - magnitude 23 q * U in
     let hi := magnitude 23 (q + 1) * U - magnitude 52 a in
     (q + (rne m s - m / 2 ^ s) = q /\ lo <= hi /\ (lo = hi -> Z.even q = true)) \/
     (q + (rne m s - m / 2 ^ s) = q + 1 /\ hi <= lo /\ (lo = hi -> Z.even (q + 1) = true))).
  { intros s q Hs Hq Mq Sq Ev. split; [exact Hq|]. rewrite mag_succ by lia. rewrite Z.mul_add_distr_r, Mq, Sq, Em.
    set (t := m / 2 ^ s) in *. set (r := m mod 2 ^ s).
    assert (P2 : 0 < 2 ^ s) by (apply Z.pow_pos_nonneg; lia).
    assert (Hr : 0 <= r < 2 ^ s) by (apply Z.mod_pos_bound; lia).
    assert (Emm : m = t * 2 ^ s + r) by (unfold t, r; pose proof (Z.div_mod m (2 ^ s)); lia).
    assert (Px : 0 < 2 ^ (x - 1)) by (apply Z.pow_pos_nonneg; lia).
    pose proof (rne_cases m s Hs) as RC. cbn zeta in RC. fold t r in RC. set (X := 2 ^ (x - 1)) in *. set (S := 2 ^ s) in *.
    assert (MX : m * X = t * S * X + r * X) by (rewrite Emm at 1; ring). rewrite MX.
    split; [nia|]. cbn zeta. destruct RC as [(R & L & T)|(R & L & T)]; [left|right]; rewrite R.
    - split; [lia|]. split; [nia|]. intros T2. rewrite Ev. apply T. nia.
    - split; [lia|]. split; [nia|]. intros T2. rewrite Z.add_1_r, Z.even_succ, <- Z.negb_even, Ev, Z.negb_even, <- Z.even_succ, <- Z.add_1_r. apply T. nia. }
  destruct (Z.leb_spec 897 x) as [C|C].
  - assert (Ex : x = e) by (unfold x in *; lia).
    assert (Mr : 2 ^ 52 <= m < 2 ^ 53) by (unfold m; destruct (Z.eqb_spec e 0); lia).
    set (t := m / 2 ^ 29) in *.
    assert (Ht : 2 ^ 23 <= t < 2 ^ 24).
    { unfold t. split; [apply Z.div_le_lower_bound; lia|apply Z.div_lt_upper_bound; lia]. }
    assert (Eq : (x - 897) * 2 ^ 23 + t = (x - 896) * 2 ^ 23 + (t - 2 ^ 23)) by lia.
    exists ((x - 897) * 2 ^ 23 + t).
    assert (Ep : 2 ^ (x - 896 - 1) * U = 2 ^ 29 * 2 ^ (x - 1)).
    { rewrite <- !Z.pow_add_r by lia. f_equal. lia. }
    specialize (G 29 ((x - 897) * 2 ^ 23 + t)). fold t in G.
    replace ((x - 897) * 2 ^ 23 + rne m 29) with ((x - 897) * 2 ^ 23 + t + (rne m 29 - t)) by lia. apply G; try lia.
    + rewrite Eq, mag_norm by lia. rewrite <- Z.mul_assoc, Ep. lia.
    + unfold step. rewrite Eq, Z.add_comm, Z.div_add, Z.div_small by lia. rewrite <- Ep. replace (Z.max (0 + (x - 896)) 1 - 1) with (x - 896 - 1) by lia. reflexivity.
    + rewrite Z.even_add, Z.even_mul. replace (Z.even (2 ^ 23)) with true by reflexivity. rewrite orb_true_r. now destruct (Z.even t).
  - set (s := 29 + (897 - x)) in *. set (t := m / 2 ^ s) in *.
    assert (P2 : 0 < 2 ^ s) by (apply Z.pow_pos_nonneg; lia).
    assert (Mr : 0 <= m < 2 ^ 53) by (unfold m; destruct (Z.eqb_spec e 0); lia).
    assert (Ht : 0 <= t < 2 ^ 23).
    { unfold t. split; [apply Z.div_pos; lia|]. apply Z.div_lt_upper_bound; [lia|].
      rewrite <- Z.pow_add_r by lia. assert (2 ^ 53 <= 2 ^ (s + 23)) by (apply Z.pow_le_mono_r; lia). lia. }
    assert (Ep : U = 2 ^ s * 2 ^ (x - 1)).
    { rewrite <- Z.pow_add_r by lia. f_equal. lia. }
    exists t. specialize (G s t). fold t in G. replace (rne m s) with (t + (rne m s - t)) by lia. apply G; try lia.
    + rewrite mag_sub by lia. rewrite <- Z.mul_assoc, <- Ep. reflexivity.
    + unfold step. rewrite Z.div_small by lia. change (2 ^ (Z.max 0 1 - 1)) with 1. rewrite <- Ep. lia.
    + reflexivity.
Qed.

(** ** to_single *)
Lemma finite_range b : finite64 b -> 0 <= abs64 b < inf64.
Proof. intros F. pose proof (abs64_range b). unfold finite64 in F. lia. Qed.
Lemma round32_nonneg a : 0 <= a < inf64 -> 0 <= round32 a.
Proof. intros Ha. destruct (round32_spec a Ha) as (q & Q & _ & [(-> & _)|(-> & _)]); lia. Qed.
(** no single of the same sign is nearer *)
Lemma round32_near a w : 0 <= a < inf64 -> 0 <= w ->
  Z.abs (magnitude 52 a - magnitude 23 (round32 a) * U) <= Z.abs (magnitude 52 a - magnitude 23 w * U) /\
  (Z.abs (magnitude 52 a - magnitude 23 (round32 a) * U) = Z.abs (magnitude 52 a - magnitude 23 w * U) ->
   w <> round32 a -> Z.even (round32 a) = true).
Proof.
  intros Ha Hw. destruct (round32_spec a Ha) as (q & Q & (L & H) & C). cbn zeta in C. pose proof U_pos as UP.
  set (A := magnitude 52 a) in *. revert L H C UP. generalize U. intros u L H C UP.
  destruct (Z.le_gt_cases w q) as [Wq|Wq].
  - assert (Mw : magnitude 23 w * u <= magnitude 23 q * u).
    { apply Z.mul_le_mono_nonneg_r; [lia|]. apply mag_le; lia. }
    assert (Ms : w < q -> magnitude 23 w * u < magnitude 23 q * u).
    { intros. apply Z.mul_lt_mono_pos_r; [lia|]. apply mag_lt; lia. }
    destruct C as [(-> & C1 & C2)|(-> & C1 & C2)]; (split; [lia|intros E N]).
    + exfalso. specialize (Ms ltac:(lia)). lia.
    + destruct (Z.eq_dec w q) as [->|Nq]; [apply C2; lia|]. specialize (Ms ltac:(lia)). lia.
  - assert (Mw : magnitude 23 (q + 1) * u <= magnitude 23 w * u).
    { apply Z.mul_le_mono_nonneg_r; [lia|]. apply mag_le; lia. }
    assert (Ms : q + 1 < w -> magnitude 23 (q + 1) * u < magnitude 23 w * u).
    { intros. apply Z.mul_lt_mono_pos_r; [lia|]. apply mag_lt; lia. }
    destruct C as [(-> & C1 & C2)|(-> & C1 & C2)]; (split; [lia|intros E N]).
    + destruct (Z.eq_dec w (q + 1)) as [->|Nq]; [apply C2; lia|]. specialize (Ms ltac:(lia)). lia.
    + exfalso. specialize (Ms ltac:(lia)). lia.
Qed.
Lemma to_single_nearest b c : is_double b -> finite64 b -> to_single b = Ok c -> nearest_single b c.
Proof.
  intros D F. rewrite to_single_finite by exact F. pose proof (finite_range b F) as R. pose proof (round32_nonneg _ R) as N.
  destruct (Z.leb_spec (255 * 2 ^ 23) (round32 (abs64 b))) as [|H]; [discriminate|]. intros E.
  apply (f_equal (fun r => match r with Ok x => x | Raise _ => 0 end)) in E. cbv beta iota in E. subst c.
  rewrite f64_neg_b. destruct (mk32 (neg64 b) (round32 (abs64 b)) ltac:(lia)) as (S & Sn & Sa).
  set (c := bz (neg64 b) * 2 ^ 31 + round32 (abs64 b)) in *. split; [exact S|]. split; [unfold finite32, inf32; rewrite Sa; exact H|].
  split; [exact Sn|]. intros c' S' F'. unfold val64, val32. rewrite Sn, Sa.
  destruct (round32_near (abs64 b) (abs32 c') R ltac:(apply abs32_range)) as (B1 & B2).
  destruct (round32_near (abs64 b) 0 R ltac:(lia)) as (B0 & B3). rewrite mag_0 in B0, B3 by lia.
  pose proof (mag_nonneg 52 ltac:(lia) (abs64 b) ltac:(apply abs64_range)) as NA.
  pose proof (mag_nonneg 23 ltac:(lia) (abs32 c') ltac:(apply abs32_range)) as NC.
  assert (EC : Z.even c = Z.even (round32 (abs64 b))).
  { unfold c. rewrite Z.even_add, Z.even_mul. replace (Z.even (2 ^ 31)) with true by reflexivity. rewrite orb_true_r.
    now destruct (Z.even (round32 (abs64 b))). }
  rewrite EC. pose proof U_pos as UP.
  set (A := magnitude 52 (abs64 b)) in *. set (w := abs32 c') in *. set (r := round32 (abs64 b)) in *.
  assert (EQ : w = r -> magnitude 23 w = magnitude 23 r) by congruence.
  assert (EZ : 0 = r -> magnitude 23 r = 0) by (intros <-; apply mag_0; lia). clearbody A w r.
  revert B1 B2 B0 B3 UP. generalize U. intros u B1 B2 B0 B3 UP.
  destruct (Bool.bool_dec (neg32 c') (neg64 b)) as [E|E].
  - rewrite E. destruct (neg64 b); cbn [signed].
    + split; [lia|]. intros T V. apply B2; [lia|]. intros W. apply EQ in W. rewrite W in V. lia.
    + split; [lia|]. intros T V. apply B2; [lia|]. intros W. apply EQ in W. rewrite W in V. lia.
  - assert (NU : 0 <= magnitude 23 w * u) by nia.
    destruct (neg32 c'), (neg64 b); try congruence; cbn [signed].
    + split; [lia|]. intros T V. apply B3; [lia|]. intros Z0. apply EZ in Z0. rewrite Z0 in *. lia.
    + split; [lia|]. intros T V. apply B3; [lia|]. intros Z0. apply EZ in Z0. rewrite Z0 in *. lia.
Qed.

(** the largest single *)
Notation Q := (255 * 2 ^ 23 - 1).
Lemma mag_Q : magnitude 23 Q * U = (2 ^ 24 - 1) * 2 ^ 1178.
Proof. vm_compute. reflexivity. Qed.
Lemma mag_Q1 : magnitude 23 (Q + 1) * U = 2 ^ 24 * 2 ^ 1178.
Proof. vm_compute. reflexivity. Qed.
Lemma overflow32_eq : 2 * overflow32 = magnitude 23 Q * U + magnitude 23 (Q + 1) * U.
Proof. vm_compute. reflexivity. Qed.
Lemma round32_overflow a : 0 <= a < inf64 -> (255 * 2 ^ 23 <= round32 a <-> overflow32 <= magnitude 52 a).
Proof.
  intros Ha. destruct (round32_spec a Ha) as (q & Hq & (L & H) & C). cbn zeta in C.
  pose proof overflow32_eq as OV. pose proof U_pos as UP.
  assert (QL : magnitude 23 Q * U < magnitude 23 (Q + 1) * U).
  { apply Z.mul_lt_mono_pos_r; [exact UP|]. apply mag_lt; lia. }
  set (A := magnitude 52 a) in *. set (o := overflow32) in *. clearbody o.
  destruct (Z.lt_trichotomy q Q) as [G|[G|G]].
  - assert (M : magnitude 23 (q + 1) * U <= magnitude 23 Q * U).
    { apply Z.mul_le_mono_nonneg_r; [lia|]. apply mag_le; lia. }
    split; intros X; exfalso; [destruct C as [(C & _)|(C & _)]; lia|].
    revert M L H QL OV X. generalize U. intros u. lia.
  - rewrite G in *. clear UP. revert C L H QL OV. generalize U. intros u C L H QL OV.
    destruct C as [(-> & C1 & C2)|(-> & C1 & C2)].
    + split; [lia|]. intros X. exfalso. assert (E : Z.even Q = true) by (apply C2; lia). discriminate E.
    + split; [lia|]. intros _. lia.
  - assert (M : magnitude 23 (Q + 1) * U <= magnitude 23 q * U).
    { apply Z.mul_le_mono_nonneg_r; [lia|]. apply mag_le; lia. }
    split; intros _.
    + revert M L H QL OV. generalize U. intros u. lia.
    + destruct C as [(-> & _)|(-> & _)]; lia.
Qed.
Lemma abs_val64 b : Z.abs (val64 b) = magnitude 52 (abs64 b).
Proof.
  unfold val64. pose proof (mag_nonneg 52 ltac:(lia) (abs64 b) ltac:(apply abs64_range)). destruct (neg64 b); cbn [signed]; lia.
Qed.
Lemma to_single_overflow b : finite64 b ->
  (to_single b = Raise OverflowError <-> overflow32 <= Z.abs (val64 b)) /\
  (forall e, to_single b = Raise e -> e = OverflowError).
Proof.
  intros F. rewrite abs_val64, to_single_finite by exact F. pose proof (round32_overflow _ (finite_range b F)) as R.
  destruct (Z.leb_spec (255 * 2 ^ 23) (round32 (abs64 b))) as [H|H]; (split; [split|]).
  - intros _. now apply R.
  - reflexivity.
  - intros e [= <-]. reflexivity.
  - discriminate.
  - intros X. apply R in X. lia.
  - discriminate.
Qed.

(** ** to_double *)
Lemma norm64 e f : 1 <= e < 2047 -> 0 <= f < 2 ^ 52 ->
  0 <= e * 2 ^ 52 + f < inf64 /\ magnitude 52 (e * 2 ^ 52 + f) = (2 ^ 52 + f) * 2 ^ (e - 1).
Proof. intros He Hf. split; [unfold inf64; lia|]. apply mag_norm; lia. Qed.
Lemma to_double_finite c : finite32 c -> exists a, to_double c = f32_neg c * 2 ^ 63 + a /\ 0 <= a < inf64 /\
  magnitude 52 a = magnitude 23 (abs32 c) * U.
Proof.
  intros F. unfold to_double. rewrite f32_exp_abs, f32_man_abs. pose proof (abs32_range c) as R. unfold finite32, inf32 in F.
  set (w := abs32 c) in *. set (e := w / 2 ^ 23). set (f := w mod 2 ^ 23).
  assert (Hf : 0 <= f < 2 ^ 23) by (apply Z.mod_pos_bound; reflexivity).
  assert (Ew : w = e * 2 ^ 23 + f) by (unfold e, f; pose proof (Z.div_mod w (2 ^ 23)); lia).
  assert (He : 0 <= e) by (apply Z.div_pos; lia).
  destruct (Z.eqb_spec e 255) as [E|_]; [exfalso; lia|].
  destruct (Z.eqb_spec e 0) as [E0|E0].
  - rewrite E0 in Ew. replace (magnitude 23 w) with f by (rewrite mag_sub; lia).
    destruct (Z.eqb_spec f 0) as [F0|F0].
    + exists 0. split; [lia|]. split; [unfold inf64; lia|]. rewrite mag_0 by lia. lia.
    + set (k := Z.log2 f). pose proof (Z.log2_spec f ltac:(lia)) as LS. fold k in LS. pose proof (Z.log2_nonneg f) as LN. fold k in LN.
      assert (K : k < 23). { apply (Z.pow_lt_mono_r_iff 2); lia. }
      assert (E1 : 2 ^ 52 = 2 ^ k * 2 ^ (52 - k)) by (rewrite <- Z.pow_add_r by lia; f_equal; lia).
      assert (E2 : 2 * 2 ^ 52 = 2 ^ Z.succ k * 2 ^ (52 - k)).
      { rewrite <- Z.pow_add_r by lia. rewrite <- (Z.pow_succ_r 2 52) by lia. f_equal. lia. }
      assert (P : 0 < 2 ^ (52 - k)) by (apply Z.pow_pos_nonneg; lia).
      assert (Hg : 0 <= f * 2 ^ (52 - k) - 2 ^ 52 < 2 ^ 52) by nia.
      exists ((k + 874) * 2 ^ 52 + (f * 2 ^ (52 - k) - 2 ^ 52)). split; [lia|].
      destruct (norm64 (k + 874) (f * 2 ^ (52 - k) - 2 ^ 52) ltac:(lia) Hg) as (A1 & A2). split; [exact A1|]. rewrite A2.
      replace (2 ^ 52 + (f * 2 ^ (52 - k) - 2 ^ 52)) with (f * 2 ^ (52 - k)) by lia. rewrite <- Z.mul_assoc, <- Z.pow_add_r by lia.
      do 2 f_equal. lia.
  - exists ((e + 896) * 2 ^ 52 + f * 2 ^ 29). split; [lia|].
    destruct (norm64 (e + 896) (f * 2 ^ 29) ltac:(lia) ltac:(lia)) as (A1 & A2). split; [exact A1|]. rewrite A2, Ew, mag_norm by lia.
    assert (Ep : 2 ^ (e + 896 - 1) * 2 ^ 29 = 2 ^ (e - 1) * U) by (rewrite <- !Z.pow_add_r by lia; f_equal; lia).
    rewrite <- Z.mul_assoc, <- Ep. ring.
Qed.
Lemma lor_range n k x : 0 <= k < n -> 0 <= x < 2 ^ n -> 0 < Z.lor (2 ^ k) x < 2 ^ n.
Proof.
  intros K X. assert (Pk : 0 < 2 ^ k) by (apply Z.pow_pos_nonneg; lia).
  assert (N : 0 <= Z.lor (2 ^ k) x) by (apply Z.lor_nonneg; lia).
  assert (NZ : Z.lor (2 ^ k) x <> 0) by (intros E; apply Z.lor_eq_0_iff in E; lia).
  split; [lia|]. apply Z.log2_lt_cancel. rewrite Z.log2_pow2 by lia. rewrite Z.log2_lor by lia. rewrite Z.log2_pow2 by lia.
  destruct (Z.eq_dec x 0) as [->|X0]; [cbn; lia|]. assert (Z.log2 x < n) by (apply Z.log2_lt_pow2; lia). lia.
Qed.
Lemma to_double_same c : is_single c -> same_float (to_double c) c.
Proof.
  intros S. pose proof (abs32_range c) as R. destruct (Z.lt_trichotomy (abs32 c) inf32) as [L|[L|L]].
  - destruct (to_double_finite c L) as (a & -> & A1 & A2). rewrite f32_neg_b.
    destruct (mk64 (neg32 c) a ltac:(unfold inf64 in A1; lia)) as (D & Dn & Da). split; [exact D|]. split; [exact S|].
    split; [exact Dn|]. left. unfold finite64, val64, val32. rewrite Dn, Da, A2. split; [lia|]. split; [exact L|reflexivity].
  - unfold to_double. rewrite f32_exp_abs, f32_man_abs, L. change (inf32 / 2 ^ 23 =? 255) with true.
    change (inf32 mod 2 ^ 23 =? 0) with true. cbv iota. rewrite Z.add_0_r, f32_neg_b.
    destruct (mk64 (neg32 c) (2047 * 2 ^ 52) ltac:(lia)) as (D & Dn & Da). split; [exact D|]. split; [exact S|].
    split; [exact Dn|]. right. left. now split.
  - set (f := abs32 c - inf32). assert (Ew : abs32 c = inf32 + f) by (unfold f; lia).
    assert (Hf : 0 < f < 2 ^ 23) by (unfold inf32 in *; lia).
    unfold to_double. rewrite f32_exp_abs, f32_man_abs, Ew. unfold inf32.
    rewrite (Z.add_comm (255 * 2 ^ 23)), Z.div_add, Z.mod_add, Z.mod_small, Z.div_small by lia.
    change (0 + 255 =? 255) with true. cbv iota. destruct (Z.eqb_spec f 0) as [|_]; [lia|].
    pose proof (lor_range 52 51 (f * 2 ^ 29) ltac:(lia) ltac:(lia)) as LR. rewrite f32_neg_b. rewrite <- Z.add_assoc.
    destruct (mk64 (neg32 c) (2047 * 2 ^ 52 + Z.lor (2 ^ 51) (f * 2 ^ 29)) ltac:(lia)) as (D & Dn & Da). split; [exact D|]. split; [exact S|].
    split; [exact Dn|]. right. right. split; [exact L|]. rewrite Da. reflexivity.
Qed.

(** ** there and back *)
Lemma val32_bound c : finite32 c -> Z.abs (val32 c) < overflow32.
Proof.
  intros F. unfold val32, finite32, inf32 in *. pose proof (abs32_range c) as R. pose proof U_pos as UP.
  assert (M : magnitude 23 (abs32 c) * U <= magnitude 23 Q * U).
  { apply Z.mul_le_mono_nonneg_r; [lia|]. apply mag_le; lia. }
  assert (N : 0 <= magnitude 23 (abs32 c) * U).
  { apply Z.mul_nonneg_nonneg; [apply mag_nonneg; lia|lia]. }
  assert (X : magnitude 23 Q * U < overflow32) by (vm_compute; reflexivity).
  revert M N X. generalize U. intros u. destruct (neg32 c); cbn [signed]; lia.
Qed.
Lemma same_back b c : same_float b c -> (nan32 c -> inf32 + 2 ^ 22 <= abs32 c) -> to_single b = Ok c.
Proof.
  intros (D & S & N & [(F & F' & V)|[(I & I')|(Na & Bn)]]) Qu.
  - destruct (to_single b) as [c'|e] eqn:E.
    + pose proof (to_single_nearest b c' D F E) as (S' & Fc & N' & Near). destruct (Near c S F') as (Ne & _).
      f_equal. apply val32_inj; [exact S'|exact S|congruence|]. rewrite V, Z.sub_diag in Ne. cbn in Ne. lia.
    + exfalso. destruct (to_single_overflow b F) as (O1 & O2). specialize (O2 e E). subst e. apply O1 in E.
      pose proof (val32_bound c F'). rewrite V in E. lia.
  - unfold to_single. rewrite f64_exp_abs, f64_man_abs, I. change (inf64 / 2 ^ 52 =? 2047) with true.
    change (inf64 mod 2 ^ 52 =? 0) with true. cbv iota. rewrite f64_neg_b, N. rewrite Z.add_0_r. f_equal.
    rewrite (single_eq c S) at 2. now rewrite I'.
  - specialize (Qu Na). unfold nan32 in Na. pose proof (abs32_range c) as R.
    set (f := abs32 c - inf32) in *. assert (Hf : 2 ^ 22 <= f < 2 ^ 23) by (unfold f, inf32 in *; lia).
    set (g := Z.lor (2 ^ 51) (f * 2 ^ 29)) in *.
    assert (Hg : 0 < g < 2 ^ 52) by (apply lor_range; lia).
    unfold to_single. rewrite f64_exp_abs, f64_man_abs, Bn. unfold inf64.
    rewrite (Z.add_comm (2047 * 2 ^ 52)), Z.div_add, Z.mod_add, Z.mod_small, Z.div_small by lia.
    change (0 + 2047 =? 2047) with true. cbv iota. destruct (Z.eqb_spec g 0) as [|_]; [lia|].
    rewrite f64_neg_b, N. f_equal. rewrite (single_eq c S) at 2.
    assert (X : Z.lor (2 ^ 22) (g / 2 ^ 29) = f).
    { rewrite <- (Z.shiftr_div_pow2 g 29) by lia. unfold g. rewrite Z.shiftr_lor.
      rewrite <- (Z.shiftl_mul_pow2 f 29) by lia. rewrite Z.shiftr_shiftl_l by lia. change (29 - 29) with 0. rewrite Z.shiftl_0_r.
      change (Z.shiftr (2 ^ 51) 29) with (2 ^ 22). rewrite Z.lor_assoc, Z.lor_diag.
      apply Z.bits_inj'. intros n Hn. rewrite Z.lor_spec, Z.pow2_bits_eqb by lia. destruct (Z.eqb_spec 22 n) as [<-|]; [|reflexivity].
      cbn [orb]. symmetry. rewrite Z.testbit_true by lia. change (2 ^ 22) with 4194304 in *. change (2 ^ 23) with 8388608 in *.
      replace (f / 4194304) with 1; [reflexivity|]. apply (Z.div_unique f 4194304 1 (f - 4194304)); lia. }
    rewrite X. unfold f, inf32. lia.
Qed.
Lemma to_single_to_double c : is_single c -> (nan32 c -> inf32 + 2 ^ 22 <= abs32 c) -> to_single (to_double c) = Ok c.
Proof. intros S. apply same_back. now apply to_double_same. Qed.
Lemma same_unique b b' c : same_float b c -> same_float b' c -> b = b'.
Proof.
  intros (D & S & N & X) (D' & _ & N' & X').
  assert (NN : neg64 b = neg64 b') by congruence.
  unfold finite32, nan32 in *.
  destruct X as [(F & F' & V)|[(I & I')|(Na & Bn)]], X' as [(G & G' & W)|[(J & J')|(Mb & Cn)]]; try lia.
  - apply val64_inj; auto. congruence.
  - apply double_ext; auto. congruence.
  - apply double_ext; auto. congruence.
Qed.
Lemma exact_round b : exact_single b -> exists c, to_single b = Ok c /\ is_single c /\ to_double c = b.
Proof.
  intros (c & SF & Qu). exists c. split; [now apply same_back|]. pose proof SF as (_ & S & _). split; [exact S|].
  eapply same_unique; [|exact SF]. now apply to_double_same.
Qed.
(** what a decoder reads is always exact *)
Lemma to_double_exact c : is_single c -> exact_single (to_double c).
Proof.
  intros S. pose proof (to_double_same c S) as SF. destruct (Z.le_gt_cases (abs32 c) inf32) as [L|L].
  - exists c. split; [exact SF|]. unfold nan32. lia.
  - destruct (Z.le_gt_cases (inf32 + 2 ^ 22) (abs32 c)) as [G|G]; [exists c; split; [exact SF|auto]|].
    pose proof (abs32_range c) as R. set (f := abs32 c - inf32) in *.
    assert (Hf : 0 < f < 2 ^ 22) by (unfold f; lia).
    destruct (mk32 (neg32 c) (inf32 + (2 ^ 22 + f)) ltac:(unfold inf32; lia)) as (S' & Sn & Sa).
    exists (bz (neg32 c) * 2 ^ 31 + (inf32 + (2 ^ 22 + f))). split; [|intros _; rewrite Sa; lia].
    destruct SF as (D & _ & N & X). split; [exact D|]. split; [exact S'|]. split; [congruence|]. right. right.
    unfold nan32. rewrite Sa. split; [lia|].
    destruct X as [(_ & X & _)|[(_ & X)|(_ & ->)]]; [unfold finite32 in X; lia|lia|]. f_equal. fold f.
    replace (inf32 + (2 ^ 22 + f) - inf32) with (2 ^ 22 + f) by lia.
    assert (E : 2 ^ 22 + f = Z.lor (2 ^ 22) f).
    { assert (LA : Z.land (2 ^ 22) f = 0).
      2:{ rewrite Z.add_nocarry_lxor by exact LA. now apply Z.lxor_lor. }
      apply Z.bits_inj'. intros n Hn. rewrite Z.land_spec, Z.pow2_bits_eqb, Z.bits_0 by lia.
      destruct (Z.eqb_spec 22 n) as [<-|]; [|reflexivity]. cbn [andb]. rewrite Z.testbit_false by lia.
      now rewrite Z.div_small by lia. }
    rewrite E, <- !Z.shiftl_mul_pow2 by lia. rewrite Z.shiftl_lor. change (Z.shiftl (2 ^ 22) 29) with (2 ^ 51).
    now rewrite Z.lor_assoc, Z.lor_diag.
Qed.

(** ** comparisons with integers *)
Lemma f64_scaled_val b : finite64 b -> f64_scaled b = val64 b.
Proof.
  intros F. unfold f64_scaled, val64. rewrite f64_exp_abs, f64_man_abs, f64_neg_b. pose proof (abs64_range b) as R.
  set (w := abs64 b) in *. set (e := w / 2 ^ 52). set (f := w mod 2 ^ 52).
  assert (Hf : 0 <= f < 2 ^ 52) by (apply Z.mod_pos_bound; reflexivity).
  assert (Ew : w = e * 2 ^ 52 + f) by (unfold e, f; pose proof (Z.div_mod w (2 ^ 52)); lia).
  assert (He : 0 <= e) by (apply Z.div_pos; lia).
  assert (E : (if e =? 0 then f else (2 ^ 52 + f) * 2 ^ (e - 1)) = magnitude 52 w).
  { destruct (Z.eqb_spec e 0) as [E0|E0]; [rewrite mag_sub; lia|]. rewrite Ew, mag_norm by lia. reflexivity. }
  rewrite E. destruct (neg64 b); reflexivity.
Qed.
Lemma exp2047 b : f64_exp b = 2047 <-> ~ finite64 b.
Proof.
  rewrite f64_exp_abs. pose proof (abs64_range b) as R. unfold finite64, inf64. split; intros H.
  - pose proof (Z.div_mod (abs64 b) (2 ^ 52)). pose proof (Z.mod_pos_bound (abs64 b) (2 ^ 52)). lia.
  - symmetry. apply (Z.div_unique _ _ _ (abs64 b - 2047 * 2 ^ 52)); lia.
Qed.
Lemma man0 b : ~ finite64 b -> (f64_man b = 0 <-> abs64 b = inf64).
Proof.
  intros NF. rewrite f64_man_abs. pose proof (abs64_range b) as R. unfold finite64 in NF. set (f := abs64 b - inf64).
  replace (abs64 b) with (f + 2047 * 2 ^ 52) by (unfold f, inf64; lia). rewrite Z.mod_add by lia.
  rewrite Z.mod_small by (unfold f, inf64 in *; lia). unfold inf64. lia.
Qed.
Lemma bz_eq0 s : (bz s =? 0) = negb s. Proof. now destruct s. Qed.
Lemma f64_le_int_iff b n : f64_le_int b n = true <-> at_most b n.
Proof.
  unfold f64_le_int, at_most. pose proof (exp2047 b) as X. destruct (Z.eqb_spec (f64_exp b) 2047) as [E|E].
  - apply X in E. rewrite andb_true_iff, Z.eqb_eq, f64_neg_b, bz_eq0, negb_involutive, (man0 b E). tauto.
  - assert (F : finite64 b) by (unfold finite64 in *; lia). rewrite Z.leb_le, f64_scaled_val by assumption.
    unfold finite64 in F. intuition lia.
Qed.
Lemma int_le_f64_iff b n : int_le_f64 n b = true <-> at_least b n.
Proof.
  unfold int_le_f64, at_least. pose proof (exp2047 b) as X. destruct (Z.eqb_spec (f64_exp b) 2047) as [E|E].
  - apply X in E. rewrite andb_true_iff, Z.eqb_eq, f64_neg_b, bz_eq0, negb_true_iff, (man0 b E). tauto.
  - assert (F : finite64 b) by (unfold finite64 in *; lia). rewrite Z.leb_le, f64_scaled_val by assumption.
    unfold finite64 in F. intuition lia.
Qed.

(** ** equality, truth, int() *)
Lemma bz_inj s t : (bz s =? bz t) = Bool.eqb s t. Proof. now destruct s, t. Qed.
Lemma f64_eq_iff a b : f64_eq a b = true <-> equal_floats a b.
Proof.
  unfold f64_eq, equal_floats. pose proof (exp2047 a) as Xa. pose proof (exp2047 b) as Xb.
  assert (Ia : abs64 a = inf64 -> ~ finite64 a) by (unfold finite64; lia).
  assert (Ib : abs64 b = inf64 -> ~ finite64 b) by (unfold finite64; lia).
  destruct (Z.eqb_spec (f64_exp a) 2047) as [E|E].
  - apply Xa in E. rewrite !andb_true_iff, !Z.eqb_eq, !f64_neg_b, (man0 a E), Xb. split.
    + intros (A & B & C & D). right. apply (man0 b B) in C. split; [exact A|]. split; [exact C|].
      apply Bool.eqb_prop. now rewrite <- bz_inj, D, Z.eqb_refl.
    + intros [(F & _)|(A & B & N)]; [tauto|]. split; [exact A|]. split; [auto|]. split; [apply man0; auto|now rewrite N].
  - assert (F : finite64 a) by (unfold finite64 in *; lia).
    rewrite andb_true_iff, negb_true_iff, Z.eqb_neq, Z.eqb_eq, (f64_scaled_val a F). split.
    + intros (N & V). assert (G : finite64 b) by (unfold finite64 in *; lia). rewrite (f64_scaled_val b G) in V. auto.
    + intros [(_ & G & V)|(A & _)]; [|tauto]. split; [tauto|]. now rewrite (f64_scaled_val b G).
Qed.
Lemma f64_eq_int_iff b n : f64_eq_int b n = true <-> finite64 b /\ val64 b = n * 2 ^ 1074.
Proof.
  unfold f64_eq_int. rewrite andb_true_iff, f64_le_int_iff, int_le_f64_iff. unfold at_most, at_least, finite64. split.
  - intros ([(F & L)|(I & N)] & [(G & H)|(J & M)]); try lia; try congruence.
  - intros (F & ->). split; left; lia.
Qed.
Lemma f64_true_iff b : f64_true b = false <-> abs64 b = 0.
Proof.
  unfold f64_true. rewrite negb_false_iff, andb_true_iff, !Z.eqb_eq, f64_exp_abs, f64_man_abs.
  pose proof (abs64_range b). pose proof (Z.div_mod (abs64 b) (2 ^ 52)). split; [lia|]. intros ->. split; reflexivity.
Qed.
Lemma f64_trunc_iff b n : f64_trunc b = Ok n <-> truncates b n.
Proof.
  unfold f64_trunc, truncates. pose proof (exp2047 b) as X. destruct (Z.eqb_spec (f64_exp b) 2047) as [E|E].
  - split; [discriminate|]. tauto.
  - assert (F : finite64 b) by (unfold finite64 in *; lia). rewrite (f64_scaled_val b F).
    assert (P : 0 < 2 ^ 1074) by (apply Z.pow_pos_nonneg; lia). set (u := 2 ^ 1074) in *. set (v := val64 b).
    assert (A : Z.abs (Z.quot v u) = Z.abs v / u).
    { rewrite <- Z.quot_abs by lia. rewrite (Z.abs_eq u) by lia.
      apply Z.quot_div_nonneg; lia. }
    assert (B : Z.abs v / u * u <= Z.abs v < (Z.abs v / u + 1) * u).
    { pose proof (Z.div_mod (Z.abs v) u ltac:(lia)). pose proof (Z.mod_pos_bound (Z.abs v) u ltac:(lia)). nia. }
    assert (S : 0 <= Z.quot v u * v).
    { destruct (Z.le_gt_cases 0 v) as [L|L].
      - apply Z.mul_nonneg_nonneg; [apply Z.quot_pos; lia|lia].
      - replace v with (- (- v)) by lia. rewrite Z.quot_opp_l by lia.
        assert (0 <= Z.quot (- v) u) by (apply Z.quot_pos; lia). nia. }
    split.
    + intros Q. assert (Qn : Z.quot v u = n) by congruence. rewrite <- Qn, A. tauto.
    + intros (_ & (L & H) & Sn). f_equal. rewrite <- A in B. set (q := Z.quot v u) in *. clearbody q u v.
      assert (AE : Z.abs q = Z.abs n) by nia. nia.
Qed.

(** ** float(n) *)
Section Near.
Variables (p u A q r : Z).
Hypotheses (Hp : 0 <= p) (Hu : 0 < u) (Hq : 0 <= q) (Lo : magnitude p q * u <= A < magnitude p (q + 1) * u).
Hypothesis Pick :
  let lo := A - magnitude p q * u in let hi := magnitude p (q + 1) * u - A in
  (r = q /\ lo <= hi /\ (lo = hi -> Z.even q = true)) \/
  (r = q + 1 /\ hi <= lo /\ (lo = hi -> Z.even (q + 1) = true)).
Lemma near_abs w : 0 <= w ->
  Z.abs (A - magnitude p r * u) <= Z.abs (A - magnitude p w * u) /\
  (Z.abs (A - magnitude p r * u) = Z.abs (A - magnitude p w * u) -> w <> r -> Z.even r = true).
Proof.
  intros Hw. cbn zeta in Pick. destruct Lo as [L H].
  destruct (Z.le_gt_cases w q) as [Wq|Wq].
  - assert (Mw : magnitude p w * u <= magnitude p q * u).
    { apply Z.mul_le_mono_nonneg_r; [lia|]. apply mag_le; lia. }
    assert (Ms : w < q -> magnitude p w * u < magnitude p q * u).
    { intros. apply Z.mul_lt_mono_pos_r; [lia|]. apply mag_lt; lia. }
    destruct Pick as [(-> & C1 & C2)|(-> & C1 & C2)]; (split; [lia|intros E N]).
    + exfalso. specialize (Ms ltac:(lia)). lia.
    + destruct (Z.eq_dec w q) as [->|Nq]; [apply C2; lia|]. specialize (Ms ltac:(lia)). lia.
  - assert (Mw : magnitude p (q + 1) * u <= magnitude p w * u).
    { apply Z.mul_le_mono_nonneg_r; [lia|]. apply mag_le; lia. }
    assert (Ms : q + 1 < w -> magnitude p (q + 1) * u < magnitude p w * u).
    { intros. apply Z.mul_lt_mono_pos_r; [lia|]. apply mag_lt; lia. }
    destruct Pick as [(-> & C1 & C2)|(-> & C1 & C2)]; (split; [lia|intros E N]).
    + destruct (Z.eq_dec w (q + 1)) as [->|Nq]; [apply C2; lia|]. specialize (Ms ltac:(lia)). lia.
    + exfalso. specialize (Ms ltac:(lia)). lia.
Qed.
Lemma near_signed (s t : bool) w : 0 <= w -> 0 <= A ->
  Z.abs (signed s A - signed s (magnitude p r * u)) <= Z.abs (signed s A - signed t (magnitude p w * u)) /\
  (Z.abs (signed s A - signed s (magnitude p r * u)) = Z.abs (signed s A - signed t (magnitude p w * u)) ->
   signed t (magnitude p w * u) <> signed s (magnitude p r * u) -> Z.even r = true).
Proof.
  intros Hw HA. destruct (near_abs w Hw) as (B1 & B2). destruct (near_abs 0 ltac:(lia)) as (B0 & B3). rewrite mag_0 in B0, B3 by lia.
  assert (EQ : w = r -> magnitude p w = magnitude p r) by congruence.
  assert (EZ : 0 = r -> magnitude p r = 0) by (intros E0; rewrite <- E0; apply mag_0; lia).
  assert (NC : 0 <= magnitude p w * u) by (apply Z.mul_nonneg_nonneg; [apply mag_nonneg; lia|lia]).
  destruct s, t; cbn [signed].
  - split; [lia|]. intros T V. apply B2; [lia|]. intros W. apply EQ in W. rewrite W in V. lia.
  - split; [lia|]. intros T V. apply B3; [lia|]. intros Z0. apply EZ in Z0. rewrite Z0 in *. lia.
  - split; [lia|]. intros T V. apply B3; [lia|]. intros Z0. apply EZ in Z0. rewrite Z0 in *. lia.
  - split; [lia|]. intros T V. apply B2; [lia|]. intros W. apply EQ in W. rewrite W in V. lia.
Qed.
End Near.

Notation V := (2 ^ 1074).
Lemma V_pos : 0 < V. Proof. apply Z.pow_pos_nonneg; lia. Qed.
Definition round64 (m : Z) : Z :=
  if m =? 0 then 0
  else (Z.log2 m + 1022) * 2 ^ 52 + (if Z.log2 m <=? 52 then m * 2 ^ (52 - Z.log2 m) else rne m (Z.log2 m - 52)).
Lemma round64_spec m : 0 <= m -> exists q,
  0 <= q /\ magnitude 52 q * 1 <= m * V < magnitude 52 (q + 1) * 1 /\
  let lo := m * V - magnitude 52 q * 1 in
  let hi := magnitude 52 (q + 1) * 1 - m * V in
  (round64 m = q /\ lo <= hi /\ (lo = hi -> Z.even q = true)) \/
  (round64 m = q + 1 /\ hi <= lo /\ (lo = hi -> Z.even (q + 1) = true)).
Proof.
  intros Hm. unfold round64. destruct (Z.eqb_spec m 0) as [->|Nm].
  { exists 0. change (magnitude 52 (0 + 1)) with 1. change (magnitude 52 0) with 0. cbn zeta. split; [lia|]. split; [lia|]. left. lia. }
  set (k := Z.log2 m). pose proof (Z.log2_spec m ltac:(lia)) as LS. fold k in LS. pose proof (Z.log2_nonneg m) as LN. fold k in LN.
  pose proof V_pos as VP.
  (* t is the 53-bit significand below *)
  assert (G : forall t s r, 2 ^ 52 <= t < 2 ^ 53 -> 0 <= r < 2 ^ s -> 0 <= s ->
     m * V * 2 ^ s = (t * 2 ^ s + r) * 2 ^ (k + 1022) ->
     let q := (k + 1022) * 2 ^ 52 + t in
     0 <= q /\ magnitude 52 q = t * 2 ^ (k + 1022) /\ magnitude 52 (q + 1) = (t + 1) * 2 ^ (k + 1022) /\ Z.even q = Z.even t).
  { intros t s r Ht Hr Hs Em q. assert (Eq : q = (k + 1023) * 2 ^ 52 + (t - 2 ^ 52)) by (unfold q; lia).
    assert (Mq : magnitude 52 q = t * 2 ^ (k + 1022)).
    { rewrite Eq, mag_norm by lia. replace (k + 1023 - 1) with (k + 1022) by lia. f_equal. lia. }
    split; [unfold q; lia|]. split; [exact Mq|]. split.
    - rewrite mag_succ by (unfold q; lia). rewrite Mq. unfold step. rewrite Eq, Z.add_comm with (n := (k + 1023) * 2 ^ 52), Z.div_add, Z.div_small by lia.
      replace (Z.max (0 + (k + 1023)) 1 - 1) with (k + 1022) by lia. lia.
    - unfold q. rewrite Z.even_add, Z.even_mul. replace (Z.even (2 ^ 52)) with true by reflexivity. rewrite orb_true_r. now destruct (Z.even t). }
  destruct (Z.leb_spec k 52) as [K|K].
  - assert (Ek : m * V = m * 2 ^ (52 - k) * 2 ^ (k + 1022)).
    { rewrite <- Z.mul_assoc, <- Z.pow_add_r by lia. do 2 f_equal. lia. }
    assert (T : 2 ^ 52 <= m * 2 ^ (52 - k) < 2 ^ 53).
    { assert (E1 : 2 ^ 52 = 2 ^ k * 2 ^ (52 - k)) by (rewrite <- Z.pow_add_r by lia; f_equal; lia).
      assert (E2 : 2 ^ 53 = 2 ^ Z.succ k * 2 ^ (52 - k)) by (rewrite <- Z.pow_add_r by lia; f_equal; lia).
      assert (P : 0 < 2 ^ (52 - k)) by (apply Z.pow_pos_nonneg; lia). rewrite E1, E2. nia. }
    destruct (G (m * 2 ^ (52 - k)) 0 0 T ltac:(cbn; lia) ltac:(lia) ltac:(change (2 ^ 0) with 1; lia)) as (Q0 & Q1 & Q2 & Q3).
    set (q := (k + 1022) * 2 ^ 52 + m * 2 ^ (52 - k)) in *. exists q. cbn zeta. rewrite Q1, Q2, Ek.
    assert (P : 0 < 2 ^ (k + 1022)) by (apply Z.pow_pos_nonneg; lia).
    revert P. generalize (2 ^ (k + 1022)) (m * 2 ^ (52 - k)). intros x t P. split; [lia|]. split; [nia|]. left. split; [lia|]. split; [nia|]. nia.
  - set (s := k - 52). set (t := m / 2 ^ s). set (r := m mod 2 ^ s).
    assert (P2 : 0 < 2 ^ s) by (apply Z.pow_pos_nonneg; lia).
    assert (Hr : 0 <= r < 2 ^ s) by (apply Z.mod_pos_bound; lia).
    assert (Em : m = t * 2 ^ s + r) by (unfold t, r; pose proof (Z.div_mod m (2 ^ s)); lia).
    assert (Ek : 2 ^ (k + 1022) = 2 ^ s * V) by (rewrite <- Z.pow_add_r by lia; f_equal; lia).
    assert (T : 2 ^ 52 <= t < 2 ^ 53).
    { assert (E1 : 2 ^ k = 2 ^ 52 * 2 ^ s) by (rewrite <- Z.pow_add_r by lia; f_equal; lia).
      assert (E2 : 2 ^ Z.succ k = 2 ^ 53 * 2 ^ s) by (rewrite <- Z.pow_add_r by lia; f_equal; lia).
      unfold t. split; [apply Z.div_le_lower_bound; lia|apply Z.div_lt_upper_bound; lia]. }
    destruct (G t s r T Hr ltac:(lia)) as (Q0 & Q1 & Q2 & Q3).
    { rewrite Ek, <- Em. ring. }
    pose proof (rne_cases m s ltac:(lia)) as RC. cbn zeta in RC. fold t r in RC.
    set (q := (k + 1022) * 2 ^ 52 + t) in *. exists q. cbn zeta. rewrite Q1, Q2, Ek.
    replace ((k + 1022) * 2 ^ 52 + rne m s) with (q + (rne m s - t)) by (unfold q; lia).
    assert (MV : m * V = t * (2 ^ s * V) + r * V) by (rewrite Em at 1; ring). rewrite MV.
    assert (SV : 2 * r = 2 ^ s <-> 2 * (r * V) = 2 ^ s * V) by nia.
    assert (SV1 : 2 * r <= 2 ^ s <-> 2 * (r * V) <= 2 ^ s * V) by nia.
    assert (SV2 : 2 ^ s <= 2 * r <-> 2 ^ s * V <= 2 * (r * V)) by nia.
    assert (SV3 : 0 <= r * V < 2 ^ s * V) by nia.
    revert SV SV1 SV2 SV3. generalize (r * V) (2 ^ s * V). intros rv sv SV SV1 SV2 SV3.
    split; [exact Q0|]. split; [lia|]. destruct RC as [(R & L & T')|(R & L & T')]; [left|right]; rewrite R.
    + split; [lia|]. split; [lia|]. intros E. rewrite Q3. apply T'. lia.
    + split; [lia|]. split; [lia|]. intros E. rewrite Z.add_1_r, Z.even_succ, <- Z.negb_even, Q3, Z.negb_even, <- Z.even_succ, <- Z.add_1_r. apply T'. lia.
Qed.
Lemma int_to_double_eq n : int_to_double n =
  if inf64 <=? round64 (Z.abs n) then Raise OverflowError else Ok (bz (n <? 0) * 2 ^ 63 + round64 (Z.abs n)).
Proof. unfold int_to_double, round64. change (2047 * 2 ^ 52) with inf64. destruct (_ <=? _); [reflexivity|]. now destruct (n <? 0). Qed.
Lemma int_to_double_nearest n b : int_to_double n = Ok b -> nearest_double n b.
Proof.
  rewrite int_to_double_eq. destruct (Z.leb_spec inf64 (round64 (Z.abs n))) as [|H]; [discriminate|].
  intros E. apply (f_equal (fun r => match r with Ok x => x | Raise _ => 0 end)) in E. cbv beta iota in E. subst b.
  destruct (round64_spec (Z.abs n) ltac:(lia)) as (q & Q0 & Lo & Pick).
  assert (R : 0 <= round64 (Z.abs n)) by (destruct Pick as [(-> & _)|(-> & _)]; lia).
  destruct (mk64 (n <? 0) (round64 (Z.abs n)) ltac:(unfold inf64 in H; lia)) as (D & Dn & Da).
  set (b := bz (n <? 0) * 2 ^ 63 + round64 (Z.abs n)) in *.
  assert (EB : Z.even b = Z.even (round64 (Z.abs n))).
  { unfold b. rewrite Z.even_add, Z.even_mul. replace (Z.even (2 ^ 63)) with true by reflexivity. rewrite orb_true_r.
    now destruct (Z.even (round64 (Z.abs n))). }
  split; [exact D|]. split; [unfold finite64; lia|]. split; [rewrite Dn; apply Z.ltb_lt|].
  intros b' D' F'. rewrite EB.
  pose proof (near_signed 52 1 (Z.abs n * V) q (round64 (Z.abs n)) ltac:(lia) ltac:(lia) Q0 Lo Pick (n <? 0) (neg64 b') (abs64 b') ltac:(apply abs64_range) ltac:(pose proof V_pos; nia)) as N.
  unfold val64. rewrite Dn, Da. rewrite !Z.mul_1_r in N.
  replace (signed (n <? 0) (Z.abs n * V)) with (n * V) in N; [exact N|].
  destruct (Z.ltb_spec n 0); cbn [signed]; [rewrite Z.abs_neq by lia; ring|rewrite Z.abs_eq by lia; ring].
Qed.
Notation QD := (inf64 - 1).
Lemma overflow64_eq : 2 * (overflow64 * V) = magnitude 52 QD * 1 + magnitude 52 (QD + 1) * 1.
Proof. vm_compute. reflexivity. Qed.
Lemma int_to_double_overflow n :
  (int_to_double n = Raise OverflowError <-> overflow64 <= Z.abs n) /\ (forall e, int_to_double n = Raise e -> e = OverflowError).
Proof.
  rewrite int_to_double_eq. destruct (round64_spec (Z.abs n) ltac:(lia)) as (q & Hq & (L & H) & C). cbn zeta in C.
  pose proof overflow64_eq as OV. pose proof V_pos as VP.
  assert (X : overflow64 <= Z.abs n <-> overflow64 * V <= Z.abs n * V).
  { split; intros; [apply Z.mul_le_mono_nonneg_r; lia|]. now apply Z.mul_le_mono_pos_r in H0. }
  rewrite X.
  assert (QL : magnitude 52 QD * 1 < magnitude 52 (QD + 1) * 1).
  { rewrite !Z.mul_1_r. apply mag_lt; unfold inf64; lia. }
  assert (Y : inf64 <= round64 (Z.abs n) <-> overflow64 * V <= Z.abs n * V).
  { set (A := Z.abs n * V) in *. clearbody A. set (o := overflow64 * V) in *. clearbody o. clear X.
    destruct (Z.lt_trichotomy q QD) as [G|[G|G]].
    - assert (M : magnitude 52 (q + 1) * 1 <= magnitude 52 QD * 1) by (rewrite !Z.mul_1_r; apply mag_le; lia).
      split; intros X; exfalso; [destruct C as [(C & _)|(C & _)]; lia|]. lia.
    - rewrite G in *. destruct C as [(-> & C1 & C2)|(-> & C1 & C2)].
      + split; [lia|]. intros X. exfalso. assert (E : Z.even QD = true) by (apply C2; lia). discriminate E.
      + split; [lia|]. intros _. lia.
    - assert (M : magnitude 52 (QD + 1) * 1 <= magnitude 52 q * 1) by (rewrite !Z.mul_1_r; apply mag_le; unfold inf64 in *; lia).
      split; intros _; [lia|]. destruct C as [(-> & _)|(-> & _)]; lia. }
  destruct (Z.leb_spec inf64 (round64 (Z.abs n))) as [I|I]; (split; [split|]).
  - intros _. now apply Y.
  - reflexivity.
  - intros e [= <-]. reflexivity.
  - discriminate.
  - intros Z0. apply Y in Z0. lia.
  - discriminate.
Qed.
Lemma near_other p u A q r w : 0 <= p -> 0 < u -> 0 <= q -> magnitude p q * u <= A < magnitude p (q + 1) * u ->
  (let lo := A - magnitude p q * u in let hi := magnitude p (q + 1) * u - A in
  (r = q /\ lo <= hi /\ (lo = hi -> Z.even q = true)) \/
  (r = q + 1 /\ hi <= lo /\ (lo = hi -> Z.even (q + 1) = true))) -> 0 <= w ->
  Z.abs (A - magnitude p r * u) = Z.abs (A - magnitude p w * u) -> w <> r -> r + w = q + (q + 1).
Proof.
  intros Hp Hu Hq [L H] Pick Hw E N. cbn zeta in Pick.
  destruct (Z.le_gt_cases w q) as [Wq|Wq].
  - assert (Mw : magnitude p w * u <= magnitude p q * u).
    { apply Z.mul_le_mono_nonneg_r; [lia|]. apply mag_le; lia. }
    assert (Ms : w < q -> magnitude p w * u < magnitude p q * u).
    { intros. apply Z.mul_lt_mono_pos_r; [lia|]. apply mag_lt; lia. }
    destruct Pick as [(-> & C1 & C2)|(-> & C1 & C2)].
    + exfalso. specialize (Ms ltac:(lia)). lia.
    + destruct (Z.eq_dec w q) as [->|Nq]; [lia|]. specialize (Ms ltac:(lia)). lia.
  - assert (Mw : magnitude p (q + 1) * u <= magnitude p w * u).
    { apply Z.mul_le_mono_nonneg_r; [lia|]. apply mag_le; lia. }
    assert (Ms : q + 1 < w -> magnitude p (q + 1) * u < magnitude p w * u).
    { intros. apply Z.mul_lt_mono_pos_r; [lia|]. apply mag_lt; lia. }
    destruct Pick as [(-> & C1 & C2)|(-> & C1 & C2)].
    + destruct (Z.eq_dec w (q + 1)) as [->|Nq]; [lia|]. specialize (Ms ltac:(lia)). lia.
    + exfalso. specialize (Ms ltac:(lia)). lia.
Qed.
Lemma even_abs64 b : is_double b -> Z.even b = Z.even (abs64 b).
Proof.
  intros D. rewrite (double_eq b D) at 1. rewrite Z.even_add, Z.even_mul. replace (Z.even (2 ^ 63)) with true by reflexivity.
  rewrite orb_true_r. now destruct (Z.even (abs64 b)).
Qed.
(** the nearest double is unique *)
Lemma nearest_double_unique n b : Z.abs n < overflow64 -> nearest_double n b -> int_to_double n = Ok b.
Proof.
  intros Ov (D & F & Sn & Near). destruct (int_to_double n) as [b0|e] eqn:E.
  2:{ exfalso. destruct (int_to_double_overflow n) as (O1 & O2). rewrite E in O1, O2. specialize (O2 e eq_refl). subst e.
      assert (overflow64 <= Z.abs n) by now apply O1. lia. }
  f_equal. pose proof (int_to_double_nearest n b0 E) as (D0 & F0 & Sn0 & Near0).
  assert (SS : neg64 b0 = neg64 b) by (destruct (neg64 b0), (neg64 b); intuition congruence).
  destruct (Z.eq_dec (val64 b) (val64 b0)) as [Ev|Nv]; [apply val64_inj; congruence|]. exfalso.
  destruct (Near b0 D0 F0) as (A1 & A2). destruct (Near0 b D F) as (B1 & B2).
  assert (DE : Z.abs (n * V - val64 b0) = Z.abs (n * V - val64 b)) by lia.
  specialize (B2 DE Nv). specialize (A2 (eq_sym DE) (not_eq_sym Nv)).
  rewrite even_abs64 in A2, B2 by assumption. revert E. rewrite int_to_double_eq.
  destruct (Z.leb_spec inf64 (round64 (Z.abs n))) as [|H]; [discriminate|].
  intros E. apply (f_equal (fun r => match r with Ok x => x | Raise _ => 0 end)) in E. cbv beta iota in E.
  destruct (round64_spec (Z.abs n) ltac:(lia)) as (q & Q0 & Lo & Pick).
  assert (R : 0 <= round64 (Z.abs n)) by (destruct Pick as [(-> & _)|(-> & _)]; lia).
  destruct (mk64 (n <? 0) (round64 (Z.abs n)) ltac:(unfold inf64 in H; lia)) as (_ & Dn & Da). rewrite E in Dn, Da.
  pose proof (abs64_range b) as Rb.
  assert (W : abs64 b <> round64 (Z.abs n)).
  { intros W. apply Nv. unfold val64. now rewrite SS, Da, W. }
  assert (X : Z.abs (Z.abs n * V - magnitude 52 (round64 (Z.abs n)) * 1) = Z.abs (Z.abs n * V - magnitude 52 (abs64 b) * 1)).
  { rewrite !Z.mul_1_r. unfold val64 in DE. rewrite <- SS, Da, Dn in DE.
    destruct (Z.ltb_spec n 0) as [Ln|Ln]; cbn [signed] in DE.
    - rewrite (Z.abs_neq n) in * by lia. rewrite Z.mul_opp_l. lia.
    - rewrite (Z.abs_eq n) in * by lia. exact DE. }
  pose proof (near_other 52 1 (Z.abs n * V) q (round64 (Z.abs n)) (abs64 b) ltac:(lia) ltac:(lia) Q0 Lo Pick ltac:(lia) X W) as S.
  rewrite Da in B2. assert (T : Z.even (q + (q + 1)) = true) by (rewrite <- S, Z.even_add, A2, B2; reflexivity).
  replace (q + (q + 1)) with (2 * q + 1) in T by lia. rewrite Z.even_add, Z.even_mul in T. discriminate T.
Qed.
