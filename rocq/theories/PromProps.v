(** * The promiscuous level determines the announced block: C35 *)
From Coq Require Import List ZArith Bool Lia.
From Verif Require Import PyBase PyLemmas AddrModel SwitchModel AddrSpec AddrProofs VnicModel VnicProofs PromModel.
Import ListNotations.
Open Scope Z_scope.

(** ** Specification *)
(** level 0: the address itself; 1: x.y.z.*; 2: x.y.*.*; 3: x.*.*.*; 4: *.*.*.* *)
Definition block_at (n : Z) (a : addr) : addr :=
  Addr (if 4 <=? n then Star else a_zone a) (if 3 <=? n then Star else a_network a)
       (if 2 <=? n then Star else a_device a) (if 1 <=? n then Star else a_index a).
Definition clamp (level : option Z) : Z := match level with None => 0 | Some z => Z.max 0 (Z.min 4 z) end.
Definition p_reachable (str : pystr) (s : prom) (log : list peffect) : Prop := exists s0 es, prom_new str = Ok s0 /\ p_run es s0 = (s, log).
(** what was announced last on link [n] *)
Definition last_announced (n : nat) (log : list peffect) : option pystr :=
  fold_left (fun acc e => match e with EAnnounce m a => if Nat.eqb m n then Some a else acc | _ => acc end) log None.

(** ** Proofs *)
Lemma climb_block a n : address_ok a -> 0 <= n <= 4 -> climb (Z.to_nat n) a = Some (block_at n a).
Proof.
  intros (Z1 & Z2 & Z3 & Z4) H. destruct a as [z nw d i]. cbn [a_zone a_network a_device a_index] in *.
  destruct z as [|z]; [destruct Z1|]. destruct nw as [|nw]; [destruct Z2|]. destruct d as [|d]; [destruct Z3|]. destruct i as [|i]; [destruct Z4|]. cbn [is_num] in *.
  assert (V1 : (0 <=? z) = true) by lia. assert (V2 : (0 <=? nw) = true) by lia. assert (V3 : (0 <=? d) = true) by lia. assert (V4 : (0 <=? i) = true) by lia.
  assert (E : n = 0 \/ n = 1 \/ n = 2 \/ n = 3 \/ n = 4) by lia.
  assert (N1 : Z.to_nat 1 = 1%nat) by reflexivity. assert (N2 : Z.to_nat 2 = 2%nat) by reflexivity. assert (N3 : Z.to_nat 3 = 3%nat) by reflexivity. assert (N4 : Z.to_nat 4 = 4%nat) by reflexivity.
  destruct E as [E|[E|[E|[E|E]]]]; subst n; rewrite ?N1, ?N2, ?N3, ?N4; [reflexivity|..];
  repeat (cbn [climb]; unfold get_parent_block, construct; cbn [a_parts a_zone a_network a_device a_index first_star set_nth forallb part_valid]; rewrite ?V1, ?V2, ?V3, ?V4; cbn [andb bind]); reflexivity.
Qed.
Lemma last_app n l1 l2 : last_announced n (l1 ++ l2) =
  fold_left (fun acc e => match e with EAnnounce m a => if Nat.eqb m n then Some a else acc | _ => acc end) l2 (last_announced n l1).
Proof. apply fold_left_app. Qed.
Lemma last_snoc n l a : last_announced n (l ++ [EAnnounce n a]) = Some a.
Proof. rewrite last_app. cbn. rewrite Nat.eqb_refl. reflexivity. Qed.

Record pinv (a : addr) (s : prom) (log : list peffect) : Prop := {
  pi_addr : p_addr s = a;
  pi_ok : address_ok a;
  pi_level : match p_level s with None => True | Some z => 0 <= z <= 4 end;
  pi_cur : forall n, p_cur s = Some n -> (n < length (p_links s))%nat;
  pi_up : forall n k, p_cur s = Some n -> nth_error (p_links s) n = Some k -> lk_up k = true ->
     p_conn s = true /\ last_announced n log = Some (lk_addr k) /\ lk_addr k = addr_str (block_at (prom_level s) a);
  pi_down : forall n k, p_cur s = Some n -> nth_error (p_links s) n = Some k -> lk_up k = false ->
     lk_addr k = addr_str a \/ (p_conn s = true /\ lk_addr k = addr_str (block_at (prom_level s) a)) }.
Lemma block_at_0 a : block_at 0 a = a.
Proof. destruct a. reflexivity. Qed.
Lemma address_block a : address_ok a -> construct ClsBlock a = Ok a.
Proof.
  intros (A1 & A2 & A3 & A4). apply construct_ok. split; [reflexivity|]. cbn. unfold block_ok. destruct a as [[|z] [|n] [|d] [|i]]; cbn in *; tauto.
Qed.
(** bring the announcement up to date *)
Lemma update_ok a s log : p_addr s = a -> address_ok a -> (exists z, p_level s = Some z /\ 0 <= z <= 4) -> (forall n, p_cur s = Some n -> (n < length (p_links s))%nat) ->
  (p_conn s = false -> forall n k, p_cur s = Some n -> nth_error (p_links s) n = Some k -> lk_up k = false) ->
  (p_conn s = false -> forall n k, p_cur s = Some n -> nth_error (p_links s) n = Some k -> lk_up k = false -> lk_addr k = addr_str a) ->
  forall s' l, update_address s = (s', l) -> pinv a s' (log ++ l) /\ p_level s' = p_level s /\ p_conn s' = p_conn s /\ p_cur s' = p_cur s.
Proof.
  intros Ea Ok (z & Ez & Hz) Hc Hn Hd s' l E. unfold update_address in E. destruct (p_conn s) eqn:Cn; cbn [negb] in E.
  - rewrite Ez, Ea, (address_block a Ok), (climb_block a z Ok Hz) in E. destruct (p_cur s) as [n|] eqn:Cu.
    + unfold change_address in E. destruct (nth_error (p_links s) n) as [k|] eqn:En.
      * injection E as <- <-. split; [|cbn; auto].
        assert (Nn : nth_error (upd n (fun k0 => Link (lk_up k0) (addr_str (block_at z a))) (p_links s)) n = Some (Link (lk_up k) (addr_str (block_at z a)))) by (apply (nth_upd_same n (fun k0 => Link (lk_up k0) (addr_str (block_at z a))) (p_links s) k En)).
        constructor; unfold set_link; cbn [p_addr p_level p_conn p_cur p_links]; auto.
        -- rewrite Ez. exact Hz.
        -- intros m Hm. rewrite length_upd. apply Hc. congruence.
        -- intros m k' Hm Em Up. rewrite Cu in Hm. injection Hm as <-. rewrite Nn in Em. injection Em as <-. cbn [lk_up lk_addr] in *. rewrite Up. split; [exact Cn|]. split; [apply last_snoc|]. unfold prom_level. cbn [p_level]. rewrite Ez. reflexivity.
        -- intros m k' Hm Em Up. rewrite Cu in Hm. injection Hm as <-. rewrite Nn in Em. injection Em as <-. right. split; [exact Cn|]. unfold prom_level. cbn [p_level lk_addr]. rewrite Ez. reflexivity.
      * exfalso. apply nth_error_None in En. specialize (Hc n eq_refl). lia.
    + injection E as <- <-. split; [|auto]. constructor; auto; try (intros; congruence). rewrite Ez. exact Hz.
  - injection E as <- <-. rewrite app_nil_r. split; [|auto]. constructor; auto.
    + rewrite Ez. exact Hz.
    + intros n k Cu En Up. rewrite (Hn eq_refl n k Cu En) in Up. discriminate.
    + intros n k Cu En Up. left. eauto.
Qed.
Lemma pinv_step a e s log s' l : pinv a s log -> p_step e s = (s', l) -> pinv a s' (log ++ l).
Proof.
  intros I E. destruct e as [level| |n|n]; cbn [p_step] in E.
  - unfold set_level in E. set (l2 := if _ >? 4 then 4 else _) in E.
    assert (H2 : 0 <= l2 <= 4) by (unfold l2; destruct level as [z|]; [destruct (z <? 0) eqn:Hz|]; match goal with |- context [?x >? 4] => destruct (x >? 4) eqn:H4 end; lia).
    destruct (eqb (p_level s) (Some l2)) eqn:El; [injection E as <- <-; rewrite app_nil_r; exact I|].
    eapply (update_ok a) with (log := log) in E; [exact (proj1 E)|..]; cbn [p_addr p_level p_conn p_cur p_links].
    + apply (pi_addr _ _ _ I).
    + apply (pi_ok _ _ _ I).
    + exists l2. auto.
    + apply (pi_cur _ _ _ I).
    + intros Cn n k Cu En. destruct (lk_up k) eqn:Up; [|reflexivity]. destruct (pi_up _ _ _ I n k Cu En Up). congruence.
    + intros Cn n k Cu En Up. destruct (pi_down _ _ _ I n k Cu En Up) as [H|[H _]]; [exact H|congruence].
  - injection E as <- <-. assert (Nn : nth_error (p_links s ++ [Link false (addr_str (p_addr s))]) (length (p_links s)) = Some (Link false (addr_str (p_addr s)))) by (rewrite nth_error_app2, Nat.sub_diag by lia; reflexivity).
    constructor; cbn [p_addr p_level p_conn p_cur p_links]; try apply I.
    + intros n Hn. injection Hn as <-. rewrite app_length. cbn. lia.
    + intros n k Hn En Up. injection Hn as <-. rewrite Nn in En. injection En as <-. discriminate.
    + intros n k Hn En Up. injection Hn as <-. rewrite Nn in En. injection En as <-. left. cbn [lk_addr]. rewrite (pi_addr _ _ _ I). reflexivity.
  - unfold link_made in E. destruct (nth_error (p_links s) n) as [k|] eqn:En; [|injection E as <- <-; rewrite app_nil_r; exact I].
    set (s2 := Prom _ _ true _ _) in E. unfold set_link in s2. cbn [p_addr p_level p_conn p_cur p_links] in s2.
    assert (Nn : nth_error (p_links s2) n = Some (Link true (lk_addr k))) by (unfold s2; cbn; apply (nth_upd_same n (fun k => Link true (lk_addr k)) (p_links s) k En)).
    assert (No : forall m, m <> n -> nth_error (p_links s2) m = nth_error (p_links s) m) by (intros m Hm; unfold s2; cbn; apply nth_upd_other; congruence).
    destruct (prom_level s2 =? 0) eqn:L0.
    + injection E as <- <-. assert (L0' : prom_level s = 0) by (apply Z.eqb_eq in L0; exact L0). constructor; try apply I.
      * intros m Hm. unfold s2. cbn. rewrite length_upd. apply (pi_cur _ _ _ I). exact Hm.
      * intros m k' Hm Em Up. change (p_cur s2) with (p_cur s) in Hm. split; [reflexivity|]. change (prom_level s2) with (prom_level s). rewrite L0', block_at_0. destruct (Nat.eq_dec m n) as [->|N].
        -- rewrite Nn in Em. injection Em as <-. cbn [lk_addr]. split; [apply last_snoc|]. destruct (lk_up k) eqn:Uk.
           ++ destruct (pi_up _ _ _ I n k Hm En Uk) as (_ & _ & X). rewrite L0', block_at_0 in X. exact X.
           ++ destruct (pi_down _ _ _ I n k Hm En Uk) as [X|[_ X]]; [exact X|]. rewrite L0', block_at_0 in X. exact X.
        -- rewrite No in Em by exact N. destruct (pi_up _ _ _ I m k' Hm Em Up) as (_ & La & X). rewrite L0', block_at_0 in X. split; [|exact X].
           rewrite last_app. cbn. destruct (Nat.eqb_spec n m); [congruence|exact La].
      * intros m k' Hm Em Up. change (p_cur s2) with (p_cur s) in Hm. change (prom_level s2) with (prom_level s). destruct (Nat.eq_dec m n) as [->|N]; [rewrite Nn in Em; injection Em as <-; discriminate|].
        rewrite No in Em by exact N. destruct (pi_down _ _ _ I m k' Hm Em Up) as [X|[_ X]]; [left; exact X|right; split; [reflexivity|exact X]].
    + destruct (update_address s2) as [s3 l3] eqn:Eu. injection E as <- <-.
      assert (Lv : exists z, p_level s2 = Some z /\ 0 <= z <= 4).
      { unfold prom_level in L0. pose proof (pi_level _ _ _ I) as H. change (p_level s) with (p_level s2) in H. destruct (p_level s2) as [z|]; [eauto|discriminate]. }
      change (log ++ EAnnounce n (lk_addr k) :: l3) with (log ++ [EAnnounce n (lk_addr k)] ++ l3). rewrite app_assoc.
      eapply (update_ok a s2 (log ++ [EAnnounce n (lk_addr k)])) in Eu; [exact (proj1 Eu)|..]; auto; try discriminate.
      * apply (pi_addr _ _ _ I).
      * apply (pi_ok _ _ _ I).
      * intros m Hm. unfold s2. cbn. rewrite length_upd. apply (pi_cur _ _ _ I). exact Hm.
  - injection E as <- <-. rewrite app_nil_r. constructor; cbn [p_addr p_level p_conn p_cur p_links]; try apply I; discriminate.
Qed.
Lemma p_run_pinv a es : forall s log s' l, pinv a s log -> p_run es s = (s', l) -> pinv a s' (log ++ l).
Proof.
  induction es as [|e es IH]; intros s log s' l I E; cbn [p_run] in E; [injection E as <- <-; rewrite app_nil_r; exact I|].
  destruct (p_step e s) as [s1 l1] eqn:E1. destruct (p_run es s1) as [s2 l2] eqn:E2. injection E as <- <-. rewrite app_assoc. eapply IH; [|exact E2]. eapply pinv_step; eauto.
Qed.
Lemma reachable_pinv str s log : p_reachable str s log -> exists a, from_string ClsAddress str = Ok a /\ pinv a s log.
Proof.
  intros (s0 & es & E0 & E). unfold prom_new in E0. destruct (from_string ClsAddress str) as [a|] eqn:Ea; [|discriminate]. injection E0 as <-. exists a. split; [reflexivity|].
  apply (p_run_pinv a es (Prom a None false None []) [] s log); [|exact E]. pose proof (from_string_ok _ _ _ Ea). constructor; cbn; auto; try discriminate.
Qed.

(** ** C35 *)
(** setting the level: clamped to 0..4 *)
Theorem C35_clamped str s log level s' l : p_reachable str s log -> p_step (PSet level) s = (s', l) -> prom_level s' = clamp level.
Proof.
  intros R E. apply reachable_pinv in R. destruct R as (a & _ & I). cbn [p_step] in E. unfold set_level in E. set (l2 := if _ >? 4 then 4 else _) in E.
  assert (H2 : l2 = clamp level) by (unfold l2, clamp; destruct level as [z|]; [destruct (z <? 0) eqn:Hz|]; match goal with |- context [?x >? 4] => destruct (x >? 4) eqn:H4 end; lia).
  destruct (eqb (p_level s) (Some l2)) eqn:El.
  - injection E as <- <-. unfold eqb in El. destruct (eq_dec (p_level s) (Some l2)) as [H|]; [|discriminate]. unfold prom_level. rewrite H. exact H2.
  - rewrite <- H2. unfold update_address in E. destruct (negb _); [injection E as <- _; reflexivity|]. cbn [p_level p_addr p_cur] in E.
    destruct (construct ClsBlock (p_addr s)) as [x|]; [|injection E as <- _; reflexivity]. destruct (climb (Z.to_nat l2) x); [|injection E as <- _; reflexivity].
    destruct (p_cur s); [|injection E as <- _; reflexivity]. unfold change_address in E. cbn [p_links] in E. destruct (nth_error (p_links s) n); injection E as <- _; reflexivity.
Qed.
(** in every state, while the current link to the switch is up, what was last
    announced on it is the block of the current level *)
Theorem C35_announced str s log n k : p_reachable str s log -> p_cur s = Some n -> nth_error (p_links s) n = Some k -> lk_up k = true ->
  exists a, from_string ClsAddress str = Ok a /\ last_announced n log = Some (addr_str (block_at (prom_level s) a)).
Proof.
  intros R Cu En Up. apply reachable_pinv in R. destruct R as (a & Ea & I). exists a. split; [exact Ea|]. destruct (pi_up _ _ _ I n k Cu En Up) as (_ & L & X). congruence.
Qed.
(** ... and the switch reads that announcement as a block that covers exactly
    the addresses agreeing with the VNIC's in all but the last parts *)
Theorem C35_block a n b : address_ok a -> 0 <= n <= 4 ->
  from_string ClsBlock (addr_str (block_at n a)) = Ok (block_at n a) /\ is_parent_block (block_at n a) a = true /\
  (is_parent_block (block_at n a) b = true <-> firstn (4 - Z.to_nat n) (a_parts b) = firstn (4 - Z.to_nat n) (a_parts a)).
Proof.
  intros Ok H. destruct Ok as (Z1 & Z2 & Z3 & Z4). destruct a as [z nw d i]. cbn [a_zone a_network a_device a_index] in *.
  destruct z as [|z]; [destruct Z1|]. destruct nw as [|nw]; [destruct Z2|]. destruct d as [|d]; [destruct Z3|]. destruct i as [|i]; [destruct Z4|]. cbn [is_num] in *.
  split; [|split].
  - apply from_string_str. cbn. unfold block_ok, block_at. cbn. destruct (4 <=? n), (3 <=? n), (2 <=? n), (1 <=? n); cbn; auto.
  - apply is_parent_covers. unfold covers, covers_part, block_at. cbn. destruct (4 <=? n), (3 <=? n), (2 <=? n), (1 <=? n); auto.
  - rewrite is_parent_covers. unfold covers, covers_part, block_at. destruct b as [bz bn bd bi]. cbn [a_zone a_network a_device a_index a_parts].
    assert (E : n = 0 \/ n = 1 \/ n = 2 \/ n = 3 \/ n = 4) by lia.
    destruct E as [E|[E|[E|[E|E]]]]; subst n; cbn; (split; [intros (H1 & H2 & H3 & H4)|intros X; try injection X as X]); repeat match goal with H : _ \/ _ |- _ => destruct H; [discriminate|] end; subst; auto.
Qed.

(** ** Concrete runs *)
Definition addr1 : pystr := [49;46;50;46;51;46;52].   (* 1.2.3.4 *)
Example run_prom : exists s0 s log, prom_new addr1 = Ok s0 /\ p_run [PNew; PSet (Some 9); PMade 0; PSet (Some 1); PSet (Some (-3))] s0 = (s, log) /\
  log = [EAnnounce 0 addr1; EAnnounce 0 [42;46;42;46;42;46;42]; EAnnounce 0 [49;46;50;46;51;46;42]; EAnnounce 0 addr1] /\ prom_level s = 0 /\ p_cur s = Some 0%nat.
Proof. do 3 eexists. split; [reflexivity|]. split; [vm_compute; reflexivity|]. auto. Qed.
(** Refuted: "a VNIC whose link to the switch is up can send" -- when it
    reconnects, the loss of the old link disconnects it from the new one *)
Example C35_reconnect_refuted : exists s0 s log, prom_new addr1 = Ok s0 /\ p_run [PNew; PMade 0; PNew; PMade 1; PLost 0] s0 = (s, log) /\
  nth_error (p_links s) 1 = Some (Link true addr1) /\ p_conn s = false /\ p_write s = None.
Proof. do 3 eexists. split; [reflexivity|]. split; [vm_compute; reflexivity|]. auto. Qed.
(** Refuted: "setPromiscuousLevel never raises" -- it does while reconnecting *)
Example C35_raises_refuted : exists s0 s log, prom_new addr1 = Ok s0 /\ p_run [PNew; PMade 0; PNew; PSet (Some 1)] s0 = (s, log) /\ In ERaise log.
Proof. do 3 eexists. split; [reflexivity|]. split; [vm_compute; reflexivity|]. cbn. tauto. Qed.

Print Assumptions C35_clamped.
Print Assumptions C35_announced.
Print Assumptions C35_block.
