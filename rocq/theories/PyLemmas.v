(** * Lemmas about PyBase (no model content) *)
From Coq Require Import List ZArith NArith Bool Decimal DecimalN DecimalFacts Lia Permutation.
From Verif Require Import PyBase.
Import ListNotations.
Open Scope Z_scope.

Section DictLemmas.
  Context {K V : Type} `{EqDec K}.
  Implicit Types d : dict K V.

  Lemma dget_dset d k v k' :
    dget (dset d k v) k' = if eq_dec k' k then Some v else dget d k'.
  Proof.
    induction d as [|[a b] r IH]; simpl.
    - destruct (eq_dec k' k); reflexivity.
    - destruct (eq_dec k a); simpl.
      + subst. destruct (eq_dec k' a); reflexivity.
      + destruct (eq_dec k' a).
        * subst. destruct (eq_dec a k); congruence.
        * apply IH.
  Qed.

  Lemma dget_dset_same d k v : dget (dset d k v) k = Some v.
  Proof. rewrite dget_dset. destruct (eq_dec k k); congruence. Qed.

  Lemma dget_dset_other d k v k' : k' <> k -> dget (dset d k v) k' = dget d k'.
  Proof. intros. rewrite dget_dset. destruct (eq_dec k' k); congruence. Qed.

  Lemma dget_none d k : dget d k = None <-> ~ In k (dkeys d).
  Proof.
    unfold dkeys. induction d as [|[a b] r IH]; simpl.
    - tauto.
    - destruct (eq_dec k a).
      + subst. split; [discriminate|]. intros C; exfalso; apply C; auto.
      + rewrite IH. split; intros A.
        * intros [->|B]; congruence || contradiction.
        * tauto.
  Qed.

  Lemma dget_in d k v : dget d k = Some v -> In (k, v) d.
  Proof.
    induction d as [|[a b] r IH]; simpl; [discriminate|].
    destruct (eq_dec k a).
    - intros [= ->]. subst. auto.
    - auto.
  Qed.

  Lemma in_dget d k v : NoDup (dkeys d) -> In (k, v) d -> dget d k = Some v.
  Proof.
    unfold dkeys. induction d as [|[a b] r IH]; simpl; [tauto|].
    intros ND [E|E].
    - inversion E; subst. destruct (eq_dec k k); congruence.
    - inversion ND; subst. destruct (eq_dec k a).
      + subst. exfalso. apply H2. change a with (fst (a, v)). now apply in_map.
      + auto.
  Qed.

  Lemma dget_some_in_keys d k v : dget d k = Some v -> In k (dkeys d).
  Proof. intros E. apply dget_in in E. unfold dkeys. change k with (fst (k, v)). now apply in_map. Qed.

  Lemma dhas_true d k : dhas d k = true <-> exists v, dget d k = Some v.
  Proof. unfold dhas. destruct (dget d k); split; intros; eauto; try discriminate.
    destruct H0; discriminate. Qed.
  Lemma dhas_false d k : dhas d k = false <-> dget d k = None.
  Proof. unfold dhas. destruct (dget d k); split; intros; congruence. Qed.
  Lemma dhas_in d k : dhas d k = true <-> In k (dkeys d).
  Proof.
    destruct (dhas d k) eqn:E.
    - apply dhas_true in E as [v E]. apply dget_some_in_keys in E. tauto.
    - apply dhas_false in E. apply dget_none in E. split; [discriminate|contradiction].
  Qed.

  Lemma dkeys_dset_has d k v : In k (dkeys d) -> dkeys (dset d k v) = dkeys d.
  Proof.
    unfold dkeys. induction d as [|[a b] r IH]; simpl; [tauto|].
    destruct (eq_dec k a); simpl; [congruence|].
    intros [E|E]; [congruence|]. f_equal; auto.
  Qed.
  Lemma dkeys_dset_new d k v : ~ In k (dkeys d) -> dkeys (dset d k v) = dkeys d ++ [k].
  Proof.
    unfold dkeys. induction d as [|[a b] r IH]; simpl; [reflexivity|].
    destruct (eq_dec k a); simpl; [intros C; exfalso; apply C; auto|].
    intros C. f_equal; auto.
  Qed.

  Lemma NoDup_snoc {A} (l : list A) x : NoDup l -> ~ In x l -> NoDup (l ++ [x]).
  Proof.
    intros. apply (Permutation_NoDup (l := x :: l)).
    - apply Permutation_cons_append.
    - constructor; auto.
  Qed.

  Lemma nodup_dset d k v : NoDup (dkeys d) -> NoDup (dkeys (dset d k v)).
  Proof.
    intros ND. destruct (in_dec eq_dec k (dkeys d)).
    - now rewrite dkeys_dset_has.
    - rewrite dkeys_dset_new by auto. now apply NoDup_snoc.
  Qed.

  Lemma in_dkeys_dset d k v x : In x (dkeys (dset d k v)) <-> x = k \/ In x (dkeys d).
  Proof.
    destruct (in_dec eq_dec k (dkeys d)).
    - rewrite dkeys_dset_has by auto. split; [auto|]. intros [->|]; auto.
    - rewrite dkeys_dset_new by auto. rewrite in_app_iff. simpl. firstorder.
  Qed.

  Lemma in_ddel d k x : NoDup (dkeys d) -> (In x (ddel d k) <-> In x d /\ fst x <> k).
  Proof.
    unfold dkeys. induction d as [|[a b] r IH]; simpl; [tauto|].
    intros ND; inversion ND; subst. destruct (eq_dec k a).
    - subst. split.
      + intros I. split; auto. intros E. apply H2. rewrite <- E. now apply in_map.
      + intros [[E|E] N]; auto. subst; simpl in N; congruence.
    - simpl. rewrite IH by auto. split.
      + intros [E|[E N]]; subst; simpl; auto.
      + tauto.
  Qed.

  Lemma nodup_ddel d k : NoDup (dkeys d) -> NoDup (dkeys (ddel d k)).
  Proof.
    unfold dkeys. induction d as [|[a b] r IH]; simpl; [auto|].
    intros ND; inversion ND; subst. destruct (eq_dec k a); auto.
    simpl. constructor; auto. intros C. apply in_map_iff in C as [y [E I]].
    apply in_ddel in I; auto. destruct I as [I _]. apply H2. rewrite <- E. now apply in_map.
  Qed.

  Lemma dget_ddel d k k' : NoDup (dkeys d) ->
    dget (ddel d k) k' = if eq_dec k' k then None else dget d k'.
  Proof.
    unfold dkeys. induction d as [|[a b] r IH]; simpl; intros ND.
    - destruct (eq_dec k' k); reflexivity.
    - inversion ND; subst. destruct (eq_dec k a); simpl.
      + subst. destruct (eq_dec k' a).
        * subst. now apply dget_none.
        * reflexivity.
      + destruct (eq_dec k' a).
        * subst. destruct (eq_dec a k); congruence.
        * auto.
  Qed.

  Lemma dget_ddel_other d k k' : k' <> k -> dget (ddel d k) k' = dget d k'.
  Proof.
    intros N. induction d as [|[a b] r IH]; simpl; [reflexivity|].
    destruct (eq_dec k a); simpl.
    - subst. destruct (eq_dec k' a); congruence.
    - destruct (eq_dec k' a); auto.
  Qed.

  Lemma ddel_absent d k : ~ In k (dkeys d) -> ddel d k = d.
  Proof.
    unfold dkeys. induction d as [|[a b] r IH]; simpl; [auto|].
    intros C. destruct (eq_dec k a); [subst; exfalso; auto|]. f_equal. auto.
  Qed.

  Lemma length_ddel d k : In k (dkeys d) -> S (length (ddel d k)) = length d.
  Proof.
    unfold dkeys. induction d as [|[a b] r IH]; simpl; [tauto|].
    intros I. destruct (eq_dec k a); [reflexivity|]. simpl. f_equal. apply IH.
    destruct I; congruence.
  Qed.
End DictLemmas.

Section SetLemmas.
  Context {A : Type} `{EqDec A}.
  Implicit Types s t : list A.
  Lemma in_sadd s x y : In y (sadd s x) <-> y = x \/ In y s.
  Proof. unfold sadd. destruct (in_dec eq_dec x s).
    - split; auto. intros [->|]; auto.
    - rewrite in_app_iff; simpl. firstorder. Qed.
  Lemma nodup_sadd s x : NoDup s -> NoDup (sadd s x).
  Proof. unfold sadd. destruct (in_dec eq_dec x s); auto. intros; now apply NoDup_snoc. Qed.
  Lemma in_sunion s t y : In y (sunion s t) <-> In y s \/ In y t.
  Proof. unfold sunion. revert s. induction t as [|a t IH]; simpl; intros s.
    - tauto.
    - rewrite IH, in_sadd. firstorder. Qed.
  Lemma nodup_sunion s t : NoDup s -> NoDup (sunion s t).
  Proof. unfold sunion. revert s. induction t as [|a t IH]; simpl; intros s; auto.
    intros; apply IH. now apply nodup_sadd. Qed.
  Lemma in_sremove s x y : NoDup s -> (In y (sremove s x) <-> In y s /\ y <> x).
  Proof. induction s as [|a s IH]; simpl; [tauto|]. intros ND; inversion ND; subst.
    destruct (eq_dec x a).
    - subst. split; [intros; split; auto; intros ->; contradiction|]. intros [[|] ?]; congruence.
    - simpl. rewrite IH by auto. split; [intros [->|[]]; auto|tauto]. Qed.
  Lemma nodup_sremove s x : NoDup s -> NoDup (sremove s x).
  Proof. induction s as [|a s IH]; simpl; auto. intros ND; inversion ND; subst.
    destruct (eq_dec x a); auto. constructor; auto. intros C. apply in_sremove in C; tauto. Qed.
  Lemma smem_true s x : smem s x = true <-> In x s.
  Proof. unfold smem. destruct (in_dec eq_dec x s); split; congruence || tauto. Qed.
End SetLemmas.

(** ** split / join *)
Lemma split_on_nonempty c s : split_on c s <> [].
Proof. destruct s; simpl; [discriminate|]. destruct (Z.eq_dec z c); [discriminate|].
  destruct (split_on c s); discriminate. Qed.

Lemma join_split c s : join_on c (split_on c s) = s.
Proof.
  induction s as [|x r IH]; simpl; [reflexivity|].
  destruct (Z.eq_dec x c).
  - subst. destruct (split_on c r) eqn:E.
    + now apply split_on_nonempty in E.
    + simpl in *. now rewrite <- IH.
  - destruct (split_on c r) as [|p ps] eqn:E.
    + now apply split_on_nonempty in E.
    + simpl in *. destruct ps; simpl in *; congruence.
Qed.

Lemma split_on_clean c p : ~ In c p -> split_on c p = [p].
Proof.
  induction p as [|x r IH]; simpl; [reflexivity|]. intros N.
  destruct (Z.eq_dec x c); [subst; exfalso; auto|]. rewrite IH by auto. reflexivity.
Qed.
Lemma split_on_app c p r : ~ In c p -> split_on c (p ++ c :: r) = p :: split_on c r.
Proof.
  induction p as [|x q IH]; simpl.
  - destruct (Z.eq_dec c c); congruence.
  - intros N. destruct (Z.eq_dec x c); [subst; exfalso; auto|]. rewrite IH by auto. reflexivity.
Qed.
Lemma split_join c ps : ps <> [] -> Forall (fun p => ~ In c p) ps -> split_on c (join_on c ps) = ps.
Proof.
  intros N F. induction F as [|p ps Hp F IH]; [congruence|].
  destruct ps as [|q qs].
  - now apply split_on_clean.
  - change (join_on c (p :: q :: qs)) with (p ++ c :: join_on c (q :: qs)).
    rewrite split_on_app by auto. f_equal. apply IH. discriminate.
Qed.
Lemma split_parts_clean c s : Forall (fun p => ~ In c p) (split_on c s).
Proof.
  induction s as [|x r IH]; simpl.
  - repeat constructor. auto.
  - destruct (Z.eq_dec x c); [constructor; auto|].
    destruct (split_on c r).
    + repeat constructor. simpl. intuition.
    + inversion IH; subst. constructor; auto. simpl. intuition.
Qed.
Lemma join_inj c ps qs : ps <> [] -> qs <> [] ->
  Forall (fun p => ~ In c p) ps -> Forall (fun p => ~ In c p) qs ->
  join_on c ps = join_on c qs -> ps = qs.
Proof. intros. rewrite <- (split_join c ps), <- (split_join c qs) by auto. now f_equal. Qed.
Lemma split_inj c s t : split_on c s = split_on c t -> s = t.
Proof. intros E. rewrite <- (join_split c s), <- (join_split c t). now f_equal. Qed.

(** ** int printing and parsing *)
Lemma digits_print u b : (u <> Decimal.Nil \/ b = true) -> digits b (print_uint u) = Some u.
Proof.
  revert b. induction u; intros b Hb; simpl;
    [destruct Hb; [congruence|subst; reflexivity]|..];
    rewrite IHu by auto; reflexivity.
Qed.
Lemma print_uint_chars u : Forall (fun c => 48 <= c <= 57) (print_uint u).
Proof. induction u; simpl; constructor; auto; lia. Qed.

Lemma lstrip_id s : (match s with c :: _ => is_space c = false | [] => True end) -> lstrip s = s.
Proof. destruct s; simpl; auto. intros ->. reflexivity. Qed.
Lemma strip_id s : Forall (fun c => is_space c = false) s -> strip s = s.
Proof.
  intros F. unfold strip. rewrite (lstrip_id s) by (destruct F; auto).
  rewrite lstrip_id. 2:{ apply Forall_rev in F. destruct F; auto. }
  apply rev_involutive.
Qed.
Lemma digit_not_space c : 48 <= c <= 57 -> is_space c = false.
Proof. intros. unfold is_space.
  repeat rewrite orb_false_iff. repeat rewrite andb_false_iff.
  repeat rewrite Z.leb_gt. repeat rewrite Z.eqb_neq. lia. Qed.

Lemma to_uint_nonnil n : N.to_uint n <> Decimal.Nil.
Proof. intros E. destruct n.
  - discriminate.
  - simpl in E. now apply DecimalPos.Unsigned.to_uint_nonnil in E. Qed.

Lemma print_int_chars z : Forall (fun c => 48 <= c <= 57 \/ c = ch_minus) (print_int z).
Proof. unfold print_int. pose proof print_uint_chars as P.
  destruct (z <? 0); [constructor; [auto|]|];
  (eapply Forall_impl; [|apply P]; simpl; auto). Qed.

Lemma parse_print z : parse_int (print_int z) = Ok z.
Proof.
  unfold parse_int. rewrite strip_id.
  2:{ eapply Forall_impl; [|apply print_int_chars]. intros a [?| ->]; [now apply digit_not_space|reflexivity]. }
  unfold print_int. destruct (z <? 0) eqn:E.
  - simpl. rewrite digits_print by (left; apply to_uint_nonnil).
    rewrite DecimalN.Unsigned.of_to. apply Z.ltb_lt in E. f_equal. lia.
  - apply Z.ltb_ge in E.
    set (u := N.to_uint (Z.to_N z)).
    assert (D : digits false (print_uint u) = Some u) by (apply digits_print; left; apply to_uint_nonnil).
    assert (C := print_uint_chars u).
    destruct (print_uint u) as [|c r] eqn:P; [discriminate|].
    inversion C; subst.
    replace (c =? ch_minus) with false by (symmetry; apply Z.eqb_neq; unfold ch_minus; lia).
    replace (c =? ch_plus) with false by (symmetry; apply Z.eqb_neq; unfold ch_plus; lia).
    rewrite D. unfold u. rewrite DecimalN.Unsigned.of_to. f_equal. lia.
Qed.
Lemma print_int_inj a b : print_int a = print_int b -> a = b.
Proof. intros E. assert (parse_int (print_int a) = parse_int (print_int b)) by congruence.
  rewrite !parse_print in *. congruence. Qed.
Lemma print_int_no c z : c <> ch_minus -> ~ (48 <= c <= 57) -> ~ In c (print_int z).
Proof. intros N1 N2 I. assert (P := print_int_chars z). rewrite Forall_forall in P.
  apply P in I. tauto. Qed.
Lemma print_int_nodot z : ~ In ch_dot (print_int z).
Proof. apply print_int_no; unfold ch_dot, ch_minus; lia. Qed.

(** ** big-endian *)
Lemma be_enc_length n v : length (be_enc n v) = n.
Proof. revert v. induction n; simpl; intros; [reflexivity|]. rewrite app_length, IHn. simpl. lia. Qed.
Lemma be_enc_ok n v : bytes_ok (be_enc n v).
Proof. unfold bytes_ok. revert v. induction n; simpl; intros; [constructor|].
  apply Forall_app. split; auto. constructor; [|constructor].
  unfold byte_ok. apply Z.mod_pos_bound. lia. Qed.
Lemma be_dec_snoc bs b : be_dec (bs ++ [b]) = be_dec bs * 256 + b.
Proof. unfold be_dec. rewrite fold_left_app. reflexivity. Qed.
Lemma be_dec_enc n v : 0 <= v < 256 ^ Z.of_nat n -> be_dec (be_enc n v) = v.
Proof.
  revert v. induction n; intros v Hv.
  - simpl in *. change (256 ^ 0) with 1 in Hv. cbv. lia.
  - cbn [be_enc]. rewrite be_dec_snoc, IHn.
    + rewrite (Z.div_mod v 256) at 3 by lia. lia.
    + rewrite Nat2Z.inj_succ, Z.pow_succ_r in Hv by lia. split.
      * apply Z.div_pos; lia.
      * apply Z.div_lt_upper_bound; lia.
Qed.
Lemma be_dec_range bs : bytes_ok bs -> 0 <= be_dec bs < 256 ^ zlen bs.
Proof.
  unfold zlen. induction bs as [|b bs IH] using rev_ind; intros F.
  - cbv. split; congruence.
  - apply Forall_app in F as [F Fb]. inversion Fb; subst. unfold byte_ok in *.
    specialize (IH F). rewrite be_dec_snoc, app_length. simpl length.
    rewrite Nat2Z.inj_add, Z.pow_add_r by lia. change (256 ^ Z.of_nat 1) with 256.
    lia.
Qed.
Lemma be_enc_dec bs : bytes_ok bs -> be_enc (length bs) (be_dec bs) = bs.
Proof.
  induction bs as [|b bs IH] using rev_ind; intros F; [reflexivity|].
  apply Forall_app in F as [F Fb]. inversion Fb; subst. unfold byte_ok in *.
  rewrite app_length, Nat.add_comm. cbn [length Nat.add be_enc]. rewrite be_dec_snoc.
  rewrite Z.div_add_l by lia. rewrite Z.div_small by lia. rewrite Z.add_0_r, IH by auto.
  rewrite Z.add_comm, Z.mod_add by lia. rewrite Z.mod_small by lia. reflexivity.
Qed.
Lemma be_enc_inj n v w : 0 <= v < 256 ^ Z.of_nat n -> 0 <= w < 256 ^ Z.of_nat n ->
  be_enc n v = be_enc n w -> v = w.
Proof. intros. rewrite <- (be_dec_enc n v), <- (be_dec_enc n w) by auto. now f_equal. Qed.

Lemma pack_u_ok n v bs : pack_u n v = Ok bs -> length bs = n /\ be_dec bs = v /\ bytes_ok bs /\ 0 <= v < 256 ^ Z.of_nat n.
Proof.
  unfold pack_u. destruct ((0 <=? v) && (v <? 256 ^ Z.of_nat n)) eqn:E; [|discriminate].
  intros [= <-]. apply andb_true_iff in E as [E1 E2]. apply Z.leb_le in E1. apply Z.ltb_lt in E2.
  repeat split; auto using be_enc_length, be_enc_ok, be_dec_enc.
Qed.
Lemma pow256_even n : (0 < n)%nat -> 256 ^ Z.of_nat n = 2 * (256 ^ Z.of_nat n / 2) /\ 0 < 256 ^ Z.of_nat n / 2.
Proof.
  intros. destruct n; [lia|]. rewrite Nat2Z.inj_succ, Z.pow_succ_r by lia.
  replace (256 * 256 ^ Z.of_nat n) with ((128 * 256 ^ Z.of_nat n) * 2) by lia.
  rewrite Z.div_mul by lia. assert (0 < 256 ^ Z.of_nat n) by (apply Z.pow_pos_nonneg; lia). lia.
Qed.
Lemma pack_s_ok n v bs : (0 < n)%nat -> pack_s n v = Ok bs ->
  length bs = n /\ unpack_s n bs = v /\ bytes_ok bs.
Proof.
  intros Hn. unfold pack_s, unpack_s. set (m := 256 ^ Z.of_nat n).
  destruct (pow256_even n Hn) as [Ev Hp]. fold m in Ev, Hp.
  destruct ((- (m / 2) <=? v) && (v <? m / 2)) eqn:E; [|discriminate].
  intros [= <-]. apply andb_true_iff in E as [E1 E2]. apply Z.leb_le in E1. apply Z.ltb_lt in E2.
  assert (M : 0 <= v mod m < m) by (apply Z.mod_pos_bound; lia).
  repeat split; auto using be_enc_length, be_enc_ok.
  rewrite be_dec_enc by exact M.
  destruct (Z_lt_le_dec v 0).
  - assert (v mod m = v + m) by (symmetry; apply (Z.mod_unique v m (-1)); lia).
    rewrite H. destruct (Z.ltb_spec (v + m) (m / 2)); lia.
  - rewrite Z.mod_small by lia. destruct (Z.ltb_spec v (m / 2)); lia.
Qed.

(** ** list slicing *)
Lemma skipn_skipn {A} (n m : nat) (l : list A) : skipn n (skipn m l) = skipn (n + m) l.
Proof.
  revert l. induction m; intros l; simpl.
  - now rewrite Nat.add_0_r.
  - rewrite Nat.add_succ_r. destruct l; simpl; [apply skipn_nil|apply IHm].
Qed.

Lemma Ok_inj {A} (a b : A) : Ok a = Ok b -> a = b.
Proof. now intros [=]. Qed.
Lemma NoDup_app_l {A} (l r : list A) : NoDup (l ++ r) -> NoDup l.
Proof.
  induction l as [|x l IH]; cbn; [constructor|]. inversion 1; subst. constructor; auto.
  intro I. apply H2. apply in_or_app. auto.
Qed.

Lemma Forall_skipn {A} (P : A -> Prop) n l : Forall P l -> Forall P (skipn n l).
Proof. intro H. rewrite <- (firstn_skipn n l) in H. now apply Forall_app in H. Qed.
Lemma Forall_firstn {A} (P : A -> Prop) n l : Forall P l -> Forall P (firstn n l).
Proof. intro H. rewrite <- (firstn_skipn n l) in H. now apply Forall_app in H. Qed.
Lemma Forall2_len {A B} (R : A -> B -> Prop) l r : Forall2 R l r -> length l = length r.
Proof. induction 1; cbn; congruence. Qed.
