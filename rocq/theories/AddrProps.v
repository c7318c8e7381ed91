(** * C06-C09, C12: Version.py, PlaygroundAddress.py, PortKey.py *)
From Coq Require Import String.
From Coq Require Import List ZArith Bool.
From Verif Require Import PyBase AddrModel SwitchModel AddrSpec AddrProofs SwitchProofs.
Import ListNotations.
Open Scope Z_scope.

(** C06. Version strings round-trip, for every pair of integers. *)
Theorem C06_version_roundtrip : forall v : version, version_from_string (version_str v) = Ok v.
Proof. exact version_roundtrip. Qed.
Print Assumptions C06_version_roundtrip.

(** C06. Printing is injective and == is equality of both numbers. *)
Theorem C06_version_equality :
  forall v w : version, (version_str v = version_str w <-> v = w) /\ (version_eq v w = true <-> v = w).
Proof. intros v w. split; [split; [exact (version_str_inj v w)|intros ->; reflexivity]|exact (version_eq_true v w)]. Qed.
Print Assumptions C06_version_equality.

(** C06. A string is accepted exactly if it is two dot-free integer literals
    around one dot; everything else raises AttributeError. *)
Theorem C06_version_accepts :
  forall (s : pystr) (v : version),
  (version_from_string s = Ok v <->
     exists a b, s = a ++ ch_dot :: b /\ ~ In ch_dot a /\ ~ In ch_dot b /\
                 parse_int a = Ok (v_major v) /\ parse_int b = Ok (v_minor v)) /\
  (forall e, version_from_string s = Raise e -> e = AttributeError).
Proof.
  intros s v. split; [split|].
  - exact (version_from_shape s v).
  - intros (a & b & -> & Ha & Hb & Pa & Pb). rewrite (version_from_complete a b _ _ Ha Hb Pa Pb). now destruct v.
  - exact (version_from_err s).
Qed.
Print Assumptions C06_version_accepts.

Example version_examples :
  version_from_string (lit "1.0") = Ok (Version 1 0) /\ version_str (Version (-3) 12) = lit "-3.12" /\
  version_from_string (lit "1.2.3") = Raise AttributeError /\ version_from_string (lit "1.x") = Raise AttributeError.
Proof. vm_compute. repeat split. Qed.

(** C07. FromString(toString(a)) = a for every valid address and block. *)
Theorem C07_address_roundtrip :
  forall (c : acls) (a : addr), cls_ok c a -> from_string c (addr_str a) = Ok a.
Proof. exact from_string_str. Qed.
Print Assumptions C07_address_roundtrip.

(** C07. Equality of addresses (by parts) coincides with equality of their
    strings, hence with the key that __hash__ uses and with == against a str. *)
Theorem C07_address_equality :
  forall a b : addr,
  (addr_eq a b = true <-> a = b) /\ (addr_eq a b = true <-> addr_str a = addr_str b) /\
  (addr_eq_str a (addr_str b) = true <-> a = b).
Proof.
  intros a b. split; [exact (addr_eq_true a b)|split; [exact (addr_eq_iff_str a b)|]].
  rewrite addr_eq_str_true. split; [exact (addr_str_inj a b)|intros ->; reflexivity].
Qed.
Print Assumptions C07_address_equality.

(** C07. Whatever the input string, FromString yields only well-formed
    addresses (no negative part, no wildcard in a PlaygroundAddress), and its
    only exception is InvalidPlaygroundAddress. *)
Theorem C07_address_only_valid :
  forall (c : acls) (s : pystr),
  match from_string c s with
  | Ok a => cls_ok c a
  | Raise e => e = InvalidPlaygroundAddress
  end.
Proof.
  intros c s. destruct (from_string c s) eqn:E; [exact (from_string_ok c s a E)|exact (from_string_err c s e E)].
Qed.
Print Assumptions C07_address_only_valid.

(** C07. Exactly which strings are accepted, and as what: four dot-free parts
    with three dots between them, each read on its own. *)
Theorem C07_address_accepts :
  forall (c : acls) (s : pystr) (a : addr),
  from_string c s = Ok a <->
  exists w0 w1 w2 w3, s = w0 ++ ch_dot :: w1 ++ ch_dot :: w2 ++ ch_dot :: w3 /\
    ~ In ch_dot w0 /\ ~ In ch_dot w1 /\ ~ In ch_dot w2 /\ ~ In ch_dot w3 /\
    reads_part c w0 (a_zone a) /\ reads_part c w1 (a_network a) /\
    reads_part c w2 (a_device a) /\ reads_part c w3 (a_index a).
Proof. exact from_string_shape. Qed.
Print Assumptions C07_address_accepts.
Example address_accepts_witness :
  from_string ClsBlock (lit "1.2.*.4") = Ok (Addr (Num 1) (Num 2) Star (Num 4)) /\
  from_string ClsBlock (lit "1.2.3.4.5") = Raise InvalidPlaygroundAddress /\
  from_string ClsBlock (lit "1.2.3") = Raise InvalidPlaygroundAddress.
Proof. vm_compute. repeat split. Qed.

(** C07, refuted variant: IsValidAddressString does not imply that FromString
    succeeds (negative parts), and FromString does not preserve the spelling. *)
Theorem C07_valid_string_accepted_refuted :
  exists s : pystr, is_valid_string ClsAddress s = true /\ is_valid_string ClsBlock s = true /\
    from_string ClsAddress s = Raise InvalidPlaygroundAddress /\
    from_string ClsBlock s = Raise InvalidPlaygroundAddress.
Proof. exists (lit "-1.0.0.0"). vm_compute. repeat split. Qed.
Print Assumptions C07_valid_string_accepted_refuted.

Theorem C07_spelling_preserved_refuted :
  exists (s : pystr) (a : addr), from_string ClsAddress s = Ok a /\ addr_str a <> s /\ addr_eq_str a s = false.
Proof. exists (lit "01. 2.+3.1_0"), (Addr (Num 1) (Num 2) (Num 3) (Num 10)). vm_compute. repeat split. discriminate. Qed.
Print Assumptions C07_spelling_preserved_refuted.

Example address_examples :
  from_string ClsAddress (lit "20174.1.1337.2") = Ok (Addr (Num 20174) (Num 1) (Num 1337) (Num 2)) /\
  from_string ClsBlock (lit "1.2.*.*") = Ok (Addr (Num 1) (Num 2) Star Star) /\
  from_string ClsAddress (lit "1.2.*.*") = Raise InvalidPlaygroundAddress /\
  cls_ok ClsAddress (Addr (Num 1) (Num 2) (Num 3) (Num 4)).
Proof. vm_compute. repeat split; discriminate. Qed.

(** C08. The parent chain of any block: the k-th parent exists exactly for k up
    to the number n <= 4 of parts before the first wildcard, covers the block,
    starts with exactly n-k non-wildcard parts; the n-th starts with "*" and
    has no parent. *)
Theorem C08_parent_chain :
  forall a : addr, block_ok a ->
  let n := first_star (a_parts a) in
  (n <= 4)%nat /\
  (forall k, (k <= n)%nat -> exists b, nth_parent k a = Ok (Some b) /\ block_ok b /\
       first_star (a_parts b) = (n - k)%nat /\ is_parent_block b a = true) /\
  (exists r, nth_parent n a = Ok (Some r) /\ a_zone r = Star) /\
  nth_parent (S n) a = Ok None.
Proof.
  intros a O n. split; [exact (lead_le a)|]. split; [|split].
  - intros k Hk. destruct (nth_parent_lead k a O Hk) as (b & E & Ob & Lb & C).
    exists b. repeat split; auto; try apply Ob. now apply is_parent_covers.
  - exact (proj2 (parent_chain_ends a O)).
  - exact (proj1 (parent_chain_ends a O)).
Qed.
Print Assumptions C08_parent_chain.

(** C08. One step changes exactly one part: the last before the first wildcard. *)
Theorem C08_parent_one_step :
  forall a : addr, block_ok a ->
  match get_parent_block a with
  | Ok None => a_zone a = Star
  | Ok (Some b) => a_zone a <> Star /\ block_ok b /\
      forall i, nth_error (a_parts b) i =
                if Nat.eqb (S i) (first_star (a_parts a)) then Some Star else nth_error (a_parts a) i
  | Raise _ => False
  end.
Proof.
  intros a O. destruct (a_zone a) as [|z] eqn:Z.
  - rewrite (proj2 (parent_none a) Z). reflexivity.
  - destruct (parent_some a O) as (b & E & Ob & Lb & C & S); [congruence|]. rewrite E.
    split; [congruence|]. split; auto. rewrite S. unfold lead. destruct a as [[|] [|] [|] [|]]; simpl in Z; try discriminate;
    intros [|[|[|[|[|i]]]]]; reflexivity.
Qed.
Print Assumptions C08_parent_one_step.

(** For prefix-shaped blocks (wildcards only at the end), the top of the chain is *.*.*.* *)
Theorem C08_prefix_chain_reaches_root :
  forall a : addr, block_ok a -> prefix_shaped a ->
  exists k, (k <= 4)%nat /\ nth_parent k a = Ok (Some (Addr Star Star Star Star)).
Proof.
  intros a O P. exists (first_star (a_parts a)). split; [exact (lead_le a)|].
  destruct (parent_chain_ends a O) as [_ (r & E & Z)]. unfold lead in E. rewrite E. repeat f_equal.
  destruct (prefix_parent a O P _ _ E) as (_ & (P1 & P2 & P3) & _).
  destruct r as [rz rn rd ri]; simpl in *. rewrite Z, P3, P2, P1; auto.
Qed.
Print Assumptions C08_prefix_chain_reaches_root.

(** ... but a wildcard in the middle is kept, so not every chain reaches the root *)
Theorem C08_any_chain_reaches_root_refuted :
  exists a : addr, block_ok a /\ forall k, nth_parent k a <> Ok (Some (Addr Star Star Star Star)).
Proof.
  exists (Addr (Num 1) Star (Num 3) (Num 4)). split; [unfold block_ok; simpl; repeat split; discriminate|].
  assert (E : forall k, nth_parent (S (S k)) (Addr (Num 1) Star (Num 3) (Num 4)) = Ok None).
  { induction k; [reflexivity|]. cbn [nth_parent] in *. now rewrite IHk. }
  intros [|[|k]]; [discriminate|discriminate|]. rewrite E. discriminate.
Qed.
Print Assumptions C08_any_chain_reaches_root_refuted.

Example parent_examples :
  nth_parent 1 (Addr (Num 1) (Num 2) (Num 3) (Num 4)) = Ok (Some (Addr (Num 1) (Num 2) (Num 3) Star)) /\
  nth_parent 4 (Addr (Num 1) (Num 2) (Num 3) (Num 4)) = Ok (Some (Addr Star Star Star Star)) /\
  nth_parent 5 (Addr (Num 1) (Num 2) (Num 3) (Num 4)) = Ok None.
Proof. vm_compute. repeat split. Qed.

(** C09. isParentBlock is part-wise containment, reflexive and transitive. *)
Theorem C09_is_parent_block :
  forall b a : addr, is_parent_block b a = true <-> covers b a.
Proof. exact is_parent_covers. Qed.
Print Assumptions C09_is_parent_block.
Theorem C09_is_parent_block_order :
  forall a b c : addr, is_parent_block a a = true /\
  (is_parent_block a b = true -> is_parent_block b c = true -> is_parent_block a c = true).
Proof.
  intros a b c. rewrite !is_parent_covers. split; [exact (covers_refl a)|exact (covers_trans a b c)].
Qed.
Print Assumptions C09_is_parent_block_order.
(** C09. Whatever the random draws, spawnAddress yields a valid address inside the block. *)
Theorem C09_spawn_address :
  forall (a : addr) (maxInt : Z) (draws : list Z), block_ok a ->
  length draws = 4%nat -> Forall (fun x => 0 <= x <= maxInt) draws ->
  exists b, spawn_address a draws = Ok b /\ address_ok b /\ is_parent_block a b = true.
Proof.
  intros a m draws O L F. destruct (spawn_ok a draws O) as (b & E & A & C).
  - rewrite L. destruct a as [[|] [|] [|] [|]]; simpl; repeat constructor.
  - eapply Forall_impl; [|exact F]. simpl. intros x [X _]; exact X.
  - exists b. rewrite is_parent_covers. auto.
Qed.
Print Assumptions C09_spawn_address.
(** C09. The numbers put in for the wildcards are the draws, one draw per
    wildcard, in order; every other part is the block's own (previous theorem). *)
Theorem C09_spawn_uses_draws :
  forall (a b : addr) (draws : list Z), length draws = 4%nat -> spawn_address a draws = Ok b ->
  filled a b = map Num (firstn (length (filled a b)) draws).
Proof.
  intros a b [|x0 [|x1 [|x2 [|x3 [|]]]]] L E; try discriminate L.
  destruct a as [[|z] [|n] [|d] [|i]]; unfold spawn_address in E;
    cbn [a_parts a_zone a_network a_device a_index fill_stars] in E;
    apply construct_ok in E as [-> _]; reflexivity.
Qed.
Print Assumptions C09_spawn_uses_draws.
(** C09. prefixString is the dotted string of the parts before the first
    wildcard: if the first n parts are numbers and part n is a wildcard (or
    n = 4), it is those n parts. *)
Theorem C09_prefix_string :
  forall (a : addr) (n : nat),
  (forall i, (i < n)%nat -> exists z, nth_error (a_parts a) i = Some (Num z)) ->
  (n = 4%nat \/ nth_error (a_parts a) n = Some Star) ->
  prefix_string a = join_on ch_dot (map part_str (firstn n (a_parts a))).
Proof.
  intros a n H N. unfold prefix_string. do 2 f_equal.
  assert (G : forall l m, (forall i, (i < m)%nat -> exists z, nth_error l i = Some (Num z)) ->
    (m = length l \/ nth_error l m = Some Star) -> take_nums l = firstn m l).
  { induction l as [|p l IH]; intros m Hm Em.
    - destruct m; [reflexivity|]. destruct (Hm O) as [z E]; [apply Nat.lt_0_succ|discriminate].
    - destruct m as [|m].
      + destruct Em as [Em|Em]; [discriminate|]. cbn in Em. injection Em as ->. reflexivity.
      + destruct (Hm O) as [z E]; [apply Nat.lt_0_succ|]. cbn in E. injection E as ->. cbn. f_equal. apply IH.
        * intros i Hi. apply (Hm (S i)). now apply -> Nat.succ_lt_mono.
        * destruct Em as [Em|Em]; [left; cbn in Em; congruence|right; exact Em]. }
  apply G; [exact H|destruct N as [->|N]; [left; reflexivity|right; exact N]].
Qed.
Print Assumptions C09_prefix_string.
Example prefix_string_example :
  prefix_string (Addr (Num 1) (Num 20) Star Star) = lit "1.20" /\ prefix_string (Addr (Num 1) Star (Num 3) (Num 4)) = lit "1" /\
  prefix_string (Addr Star Star Star Star) = [].
Proof. vm_compute. repeat split. Qed.
Example spawn_example : spawn_address (Addr (Num 7) Star (Num 3) Star) [65535; 0; 1; 2] = Ok (Addr (Num 7) (Num 65535) (Num 3) (Num 0)).
Proof. reflexivity. Qed.

(** C12. PortKey *)
Theorem C12_portkey_inverse :
  forall a b : portkey,
  pk_inverse (pk_inverse a) = a /\
  pk_eq (pk_inverse a) (pk_inverse b) = pk_eq a b /\
  (pk_eq a b = true <-> pk_tuple a = pk_tuple b) /\
  (pk_eq a (pk_inverse a) = true <-> pk_src a = pk_dst a /\ pk_sport a = pk_dport a).
Proof.
  intros a b. split; [exact (pk_inverse_inv a)|]. split; [|split].
  - destruct (pk_eq a b) eqn:E.
    + apply pk_eq_true in E as ->. now apply pk_eq_true.
    + destruct (pk_eq (pk_inverse a) (pk_inverse b)) eqn:E2; auto. apply pk_eq_true in E2.
      assert (a = b) by (rewrite <- (pk_inverse_inv a), <- (pk_inverse_inv b); congruence).
      apply pk_eq_true in H. congruence.
  - rewrite pk_eq_true. destruct a, b; unfold pk_tuple; simpl. split; intros [=]; congruence.
  - rewrite pk_eq_true. destruct a; unfold pk_inverse; simpl. split; [intros [=]; auto|intros [-> ->]; auto].
Qed.
Print Assumptions C12_portkey_inverse.
(** C12. The one-sided keys of a key and of its inverse mirror each other, and
    they never equal a full key. *)
Theorem C12_portkey_sided :
  forall k : portkey, pk_inverse (pk_source_only k) = pk_dest_only (pk_inverse k) /\
  (pk_dst k <> None -> pk_eq (pk_source_only k) k = false).
Proof.
  intros k. split; [reflexivity|]. intros N. destruct (pk_eq (pk_source_only k) k) eqn:E; auto.
  apply pk_eq_true in E. rewrite <- E in N. simpl in N. congruence.
Qed.
Print Assumptions C12_portkey_sided.
Example portkey_example :
  let k := PortKey (Some (lit "1.1.1.1")) (Some 80) (Some (lit "2.2.2.2")) (Some 2000) in
  pk_eq k (pk_inverse k) = false /\ pk_eq (pk_inverse (pk_inverse k)) k = true.
Proof. vm_compute. split; reflexivity. Qed.
