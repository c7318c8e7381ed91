From Coq Require Import List ZArith Bool Lia.
From Verif Require Import PyBase PyLemmas AddrModel SwitchModel AddrSpec.
Import ListNotations.
Open Scope Z_scope.

(** ** Version *)
Lemma version_roundtrip v : version_from_string (version_str v) = Ok v.
Proof.
  unfold version_from_string, version_str.
  rewrite split_on_app, split_on_clean by apply print_int_nodot.
  rewrite !parse_print. now destruct v.
Qed.
Lemma version_str_inj v w : version_str v = version_str w -> v = w.
Proof. intros E. assert (version_from_string (version_str v) = version_from_string (version_str w)) by congruence.
  rewrite !version_roundtrip in *. congruence. Qed.
Lemma version_eq_true v w : version_eq v w = true <-> v = w.
Proof. destruct v, w. unfold version_eq; simpl. rewrite andb_true_iff, !Z.eqb_eq. split; [intros []; congruence|]. intros [= -> ->]; auto. Qed.
Lemma version_from_shape s v : version_from_string s = Ok v ->
  exists a b, s = a ++ ch_dot :: b /\ ~ In ch_dot a /\ ~ In ch_dot b /\ parse_int a = Ok (v_major v) /\ parse_int b = Ok (v_minor v).
Proof.
  unfold version_from_string. pose proof (split_parts_clean ch_dot s) as F. pose proof (join_split ch_dot s) as J.
  destruct (split_on ch_dot s) as [|a [|b [|c r]]]; try discriminate.
  destruct (parse_int a) eqn:A; [|discriminate]. destruct (parse_int b) eqn:B; [|discriminate].
  intros [= <-]. inversion F as [|? ? Fa F']; subst. inversion F'; subst.
  exists a, b. simpl in *. auto 6.
Qed.
Lemma version_from_err s e : version_from_string s = Raise e -> e = AttributeError.
Proof. unfold version_from_string. destruct (split_on ch_dot s) as [|a [|b [|c r]]]; try congruence.
  destruct (parse_int a), (parse_int b); congruence. Qed.
Lemma version_from_complete a b x y : ~ In ch_dot a -> ~ In ch_dot b -> parse_int a = Ok x -> parse_int b = Ok y ->
  version_from_string (a ++ ch_dot :: b) = Ok (Version x y).
Proof. intros. unfold version_from_string. rewrite split_on_app, split_on_clean by auto. now rewrite H1, H2. Qed.

(** ** Addresses *)
Lemma part_str_clean p : ~ In ch_dot (part_str p).
Proof. destruct p; simpl; [|apply print_int_nodot]. unfold ch_star, ch_dot. lia. Qed.
Lemma addr_str_split a : split_on ch_dot (addr_str a) = map part_str (a_parts a).
Proof. unfold addr_str. apply split_join; [discriminate|]. apply Forall_map, Forall_forall. intros; apply part_str_clean. Qed.
Lemma print_not_star z : print_int z <> [ch_star].
Proof. intros E. assert (I : In ch_star (print_int z)) by (rewrite E; simpl; auto). revert I.
  apply print_int_no; unfold ch_star, ch_minus; lia. Qed.
Lemma convert_part_str c p : (c = ClsAddress -> p <> Star) -> convert_part c (part_str p) = Ok p.
Proof.
  destruct c, p as [|z]; intros H; simpl part_str; unfold convert_part.
  - congruence || (exfalso; now apply H).
  - now rewrite parse_print.
  - reflexivity.
  - unfold eqb. destruct (eq_dec (print_int z) [ch_star]) as [E|E]; [now apply print_not_star in E|].
    now rewrite parse_print.
Qed.
Lemma part_str_inj p q : part_str p = part_str q -> p = q.
Proof. intros E. assert (@Ok apart p = Ok q); [|congruence].
  rewrite <- (convert_part_str ClsBlock p), <- (convert_part_str ClsBlock q) by discriminate. now rewrite E. Qed.

Lemma part_eqb_true p q : part_eqb p q = true <-> p = q.
Proof. destruct p, q; simpl; try (split; congruence). rewrite Z.eqb_eq. split; congruence. Qed.
Lemma addr_eq_true a b : addr_eq a b = true <-> a = b.
Proof. destruct a, b. unfold addr_eq; simpl. rewrite !andb_true_iff, !part_eqb_true.
  split; [intros [[[]]]; congruence|]. intros [=]; auto. Qed.
Lemma addr_str_inj a b : addr_str a = addr_str b -> a = b.
Proof.
  intros E. assert (M : map part_str (a_parts a) = map part_str (a_parts b)) by (rewrite <- !addr_str_split; congruence).
  destruct a, b. simpl in M. inversion M as [[E1 E2 E3 E4]].
  apply part_str_inj in E1, E2, E3, E4. congruence.
Qed.
Lemma addr_eq_iff_str a b : addr_eq a b = true <-> addr_str a = addr_str b.
Proof. rewrite addr_eq_true. split; [congruence|apply addr_str_inj]. Qed.
Lemma addr_eq_str_true a s : addr_eq_str a s = true <-> addr_str a = s.
Proof. unfold addr_eq_str, eqb. destruct (eq_dec (addr_str a) s); split; congruence. Qed.

Lemma part_valid_ok c p : part_valid c p = true <-> match c with ClsAddress => is_num p | ClsBlock => part_ok p end.
Proof. destruct c, p; simpl; rewrite ?Z.leb_le; intuition discriminate. Qed.
Lemma construct_ok c a b : construct c a = Ok b <-> b = a /\ cls_ok c a.
Proof.
  unfold construct. destruct a as [z n d i]. cbn [a_parts a_zone a_network a_device a_index forallb].
  destruct (part_valid c z && (part_valid c n && (part_valid c d && (part_valid c i && true)))) eqn:E.
  - rewrite !andb_true_iff, !part_valid_ok in E. split; [intros [= <-]|intros [-> _]; auto].
    split; auto. destruct c; unfold cls_ok, address_ok, block_ok; simpl; tauto.
  - split; [discriminate|]. intros [_ O]. exfalso.
    assert (part_valid c z && (part_valid c n && (part_valid c d && (part_valid c i && true))) = true); [|congruence].
    rewrite !andb_true_iff, !part_valid_ok. destruct c; unfold cls_ok, address_ok, block_ok in O; simpl in O; tauto.
Qed.
Lemma construct_err c a e : construct c a = Raise e -> e = InvalidPlaygroundAddress /\ ~ cls_ok c a.
Proof. intros E. split.
  - unfold construct in E. destruct (forallb _ _); congruence.
  - intros O. assert (construct c a = Ok a) by (apply construct_ok; auto). congruence. Qed.

Lemma valid_parts_str c a : (c = ClsAddress -> address_ok a) -> valid_parts c (addr_str a) = Some a.
Proof.
  intros O. unfold valid_parts. rewrite addr_str_split. destruct a as [z n d i]. cbn [a_parts map a_zone a_network a_device a_index].
  rewrite !convert_part_str; auto; intros ->; specialize (O eq_refl); unfold address_ok in O; simpl in O;
    intros ->; simpl in O; tauto.
Qed.
Lemma from_string_str c a : cls_ok c a -> from_string c (addr_str a) = Ok a.
Proof. intros O. unfold from_string. rewrite valid_parts_str.
  - now apply construct_ok.
  - intros ->. exact O. Qed.
Lemma from_string_ok c s a : from_string c s = Ok a -> cls_ok c a.
Proof. unfold from_string. destruct (valid_parts c s); [|discriminate]. intros E. apply construct_ok in E as [-> O]. exact O. Qed.
Lemma from_string_err c s e : from_string c s = Raise e -> e = InvalidPlaygroundAddress.
Proof. unfold from_string. destruct (valid_parts c s); [|congruence]. intros E. now apply construct_err in E. Qed.
Lemma from_string_valid c s a : from_string c s = Ok a -> is_valid_string c s = true.
Proof. unfold from_string, is_valid_string. destruct (valid_parts c s); [auto|discriminate]. Qed.

(** covering *)
Lemma is_parent_covers b a : is_parent_block b a = true <-> covers b a.
Proof.
  destruct a as [z n d i], b as [z' n' d' i']. unfold is_parent_block, covers, covers_part. simpl.
  rewrite !andb_true_iff.
  assert (P : forall b a, (match b with Star => true | Num _ => part_eqb b a end) = true <-> b = Star \/ b = a).
  { intros [|x] [|y]; simpl; rewrite ?Z.eqb_eq; intuition congruence. }
  rewrite !P. tauto.
Qed.
Lemma covers_refl a : covers a a.
Proof. unfold covers, covers_part. auto. Qed.
Lemma covers_trans a b c : covers a b -> covers b c -> covers a c.
Proof. unfold covers, covers_part. intros. intuition congruence. Qed.

(** parent chain *)
Definition lead (a : addr) : nat := first_star (a_parts a).
Lemma lead0 a : lead a = 0%nat <-> a_zone a = Star.
Proof. destruct a as [[|] ? ? ?]; cbv; split; congruence. Qed.
Lemma lead_le a : (lead a <= 4)%nat.
Proof. destruct a as [[] [] [] []]; cbv; lia. Qed.
Lemma parent_none a : get_parent_block a = Ok None <-> a_zone a = Star.
Proof. destruct a as [[|z] n d i]; unfold get_parent_block; simpl; [tauto|]. split; [|discriminate].
  destruct n as [|n]; [|destruct d as [|d]; [|destruct i as [|i]]]; simpl;
  match goal with |- context[construct ?c ?x] => destruct (construct c x) end; discriminate. Qed.
Lemma parent_some a : block_ok a -> a_zone a <> Star ->
  exists b, get_parent_block a = Ok (Some b) /\ block_ok b /\ lead b = pred (lead a) /\ covers b a /\
    a_parts b = set_nth (pred (lead a)) Star (a_parts a).
Proof.
  intros O N. destruct a as [[|z] n d i]; simpl in N; [congruence|]. unfold block_ok in O; simpl in O.
  unfold get_parent_block, lead. 
  destruct n as [|n]; [|destruct d as [|d]; [|destruct i as [|i]]]; simpl first_star; cbn [set_nth a_parts a_zone a_network a_device a_index];
  (eexists; split; [match goal with |- bind ?x _ = _ => replace x with (@Ok addr ltac:(match x with construct _ ?y => exact y end)) end;
     [reflexivity|symmetry; apply construct_ok; split; [reflexivity|unfold cls_ok, block_ok; simpl; tauto]]|]);
  unfold block_ok, covers, covers_part; simpl; tauto.
Qed.

(** n-fold parent *)
Fixpoint nth_parent (n : nat) (a : addr) : res (option addr) :=
  match n with
  | O => Ok (Some a)
  | S m => match nth_parent m a with
           | Ok (Some b) => get_parent_block b
           | r => r
           end
  end.
Lemma nth_parent_lead n a : block_ok a -> (n <= lead a)%nat ->
  exists b, nth_parent n a = Ok (Some b) /\ block_ok b /\ lead b = (lead a - n)%nat /\ covers b a.
Proof.
  intros O. induction n; intros L.
  - exists a. simpl. repeat split; try apply O; try lia; apply covers_refl.
  - destruct IHn as (b & E & Ob & Lb & C); [lia|]. simpl. rewrite E.
    destruct (parent_some b Ob) as (c & E' & Oc & Lc & C' & _).
    + rewrite <- lead0. lia.
    + exists c. repeat split; auto; try apply Oc; try lia; eapply covers_trans; eauto; try apply C.
Qed.
Lemma parent_chain_ends a : block_ok a -> nth_parent (S (lead a)) a = Ok None /\
   exists r, nth_parent (lead a) a = Ok (Some r) /\ a_zone r = Star.
Proof.
  intros O. destruct (nth_parent_lead (lead a) a O) as (b & E & Ob & Lb & C); [lia|].
  rewrite Nat.sub_diag in Lb. apply lead0 in Lb. split; [|eauto].
  simpl. rewrite E. now apply parent_none.
Qed.

(** spawn *)
Lemma spawn_ok a draws : block_ok a ->
  (length (filter (fun p => match p with Star => true | _ => false end) (a_parts a)) <= length draws)%nat ->
  Forall (fun x => 0 <= x) draws ->
  exists b, spawn_address a draws = Ok b /\ address_ok b /\ covers a b.
Proof.
  intros O L F. destruct a as [z n d i]. unfold block_ok in O. simpl in O. unfold spawn_address.
  assert (Q : exists x0 x1 x2 x3, fill_stars [z; n; d; i] draws = [x0; x1; x2; x3] /\
     address_ok (Addr x0 x1 x2 x3) /\ covers (Addr z n d i) (Addr x0 x1 x2 x3)).
  { unfold address_ok, covers, covers_part; simpl a_zone; simpl a_network; simpl a_device; simpl a_index.
    destruct O as (O1 & O2 & O3 & O4).
    destruct z as [|z], n as [|n], d as [|d], i as [|i]; simpl in L;
      repeat (let x := fresh "x" in destruct draws as [|x draws]; [simpl in L; lia|]; inversion F; subst; clear F;
              match goal with F' : Forall _ draws |- _ => rename F' into F end; simpl in L; apply le_S_n in L);
      simpl; do 4 eexists; (split; [reflexivity|]); simpl in *; tauto. }
  destruct Q as (x0 & x1 & x2 & x3 & E & A & C). change (a_parts (Addr z n d i)) with [z; n; d; i]. rewrite E.
  eexists. split; [apply construct_ok; split; [reflexivity|exact A]|]. auto.
Qed.

(** ** PortKey *)
Lemma eqb_true {A} `{EqDec A} (x y : A) : eqb x y = true <-> x = y.
Proof. unfold eqb. destruct (eq_dec x y); split; congruence. Qed.
Lemma pk_eq_true a b : pk_eq a b = true <-> a = b.
Proof. destruct a, b. unfold pk_eq; simpl. rewrite !andb_true_iff, !eqb_true. split; [intros [[[]]]; congruence|]. intros [=]; auto. Qed.
Lemma pk_inverse_inv k : pk_inverse (pk_inverse k) = k.
Proof. now destruct k. Qed.

Lemma convert_reads c w p : ((convert_part c w = Ok p) /\ part_valid c p = true) <-> reads_part c w p.
Proof.
  unfold convert_part, reads_part, eqb. destruct c.
  - destruct (parse_int w) as [z|e]; cbn [bind].
    + split.
      * intros [[= <-] V]. cbn in V. rewrite Z.leb_le in V. auto.
      * destruct p as [|y]; [intros [X _]; discriminate|]. intros [[= ->] V]. cbn. rewrite Z.leb_le. auto.
    + split; [intros [X _]; discriminate|]. destruct p; intros [X _]; discriminate.
  - destruct (eq_dec w [ch_star]) as [->|N].
    + split; [intros [[= <-] _]; auto|]. destruct p as [|z]; [auto|]. vm_compute parse_int. intros [X _]; discriminate.
    + destruct (parse_int w) as [z|e]; cbn [bind].
      * split.
        -- intros [[= <-] V]. cbn in V. rewrite Z.leb_le in V. auto.
        -- destruct p as [|y]; [intros [_ X]; contradiction|]. intros [[= ->] V]. cbn. rewrite Z.leb_le. auto.
      * split; [intros [X _]; discriminate|]. destruct p; [intros [_ X]; contradiction|intros [X _]; discriminate].
Qed.
Lemma construct_parts c z n d i b : construct c (Addr z n d i) = Ok b <->
  b = Addr z n d i /\ part_valid c z = true /\ part_valid c n = true /\ part_valid c d = true /\ part_valid c i = true.
Proof.
  unfold construct. cbn [a_parts a_zone a_network a_device a_index forallb].
  destruct (part_valid c z), (part_valid c n), (part_valid c d), (part_valid c i); cbn; intuition congruence.
Qed.
Lemma from_string_shape c s a : from_string c s = Ok a <->
  exists w0 w1 w2 w3, s = w0 ++ ch_dot :: w1 ++ ch_dot :: w2 ++ ch_dot :: w3 /\
    ~ In ch_dot w0 /\ ~ In ch_dot w1 /\ ~ In ch_dot w2 /\ ~ In ch_dot w3 /\
    reads_part c w0 (a_zone a) /\ reads_part c w1 (a_network a) /\
    reads_part c w2 (a_device a) /\ reads_part c w3 (a_index a).
Proof.
  unfold from_string, valid_parts. split.
  - pose proof (split_parts_clean ch_dot s) as F. pose proof (join_split ch_dot s) as J.
    destruct (split_on ch_dot s) as [|w0 [|w1 [|w2 [|w3 [|]]]]]; try discriminate.
    destruct (convert_part c w0) as [p0|] eqn:E0; [|discriminate]. destruct (convert_part c w1) as [p1|] eqn:E1; [|discriminate].
    destruct (convert_part c w2) as [p2|] eqn:E2; [|discriminate]. destruct (convert_part c w3) as [p3|] eqn:E3; [|discriminate].
    intros C. apply construct_parts in C as (-> & V0 & V1 & V2 & V3).
    inversion F as [|? ? F0 F']; subst. inversion F' as [|? ? F1 F'']; subst. inversion F'' as [|? ? F2 F3]; subst. inversion F3; subst.
    exists w0, w1, w2, w3. cbn [a_zone a_network a_device a_index]. rewrite <- !convert_reads. cbn [join_on]. auto 20.
  - intros (w0 & w1 & w2 & w3 & -> & F0 & F1 & F2 & F3 & R0 & R1 & R2 & R3).
    rewrite !split_on_app, split_on_clean by assumption.
    apply convert_reads in R0 as [-> V0], R1 as [-> V1], R2 as [-> V2], R3 as [-> V3].
    apply construct_parts. destruct a; cbn in *; auto.
Qed.
