(** * Lemmas about UTF-8 *)
From Coq Require Import List ZArith Bool Lia.
From Verif Require Import PyBase PyLemmas Utf8Model StreamModel StreamProofs.
Import ListNotations.
Open Scope Z_scope.
Ltac Zify.zify_post_hook ::= Z.div_mod_to_equations.

Ltac bsimp := repeat match goal with
  | H : _ && _ = true |- _ => apply andb_prop in H; destruct H
  | H : negb _ = true |- _ => apply negb_true_iff in H
  | H : negb _ = false |- _ => apply negb_false_iff in H
  | H : (_ <=? _) = true |- _ => apply Z.leb_le in H
  | H : (_ <=? _) = false |- _ => apply Z.leb_gt in H
  | H : (_ <? _) = true |- _ => apply Z.ltb_lt in H
  | H : (_ <? _) = false |- _ => apply Z.ltb_ge in H
  | H : _ && _ = false |- _ => apply andb_false_iff in H
  | H : (_ =? _) = true |- _ => apply Z.eqb_eq in H
  | H : (_ =? _) = false |- _ => apply Z.eqb_neq in H
  end.

Definition ascii (s : list Z) : Prop := Forall (fun c => 0 <= c < 128) s.

Lemma in_rng_t lo hi c : lo <= c < hi -> in_rng lo hi c = true.
Proof. unfold in_rng. intros. apply andb_true_intro; split; [apply Z.leb_le|apply Z.ltb_lt]; lia. Qed.
Lemma in_rng_f lo hi c : c < lo \/ hi <= c -> in_rng lo hi c = false.
Proof. unfold in_rng. intros. apply andb_false_iff. rewrite Z.leb_gt, Z.ltb_ge. lia. Qed.
Lemma in_rng_iff lo hi c : in_rng lo hi c = true <-> lo <= c < hi.
Proof. unfold in_rng. rewrite andb_true_iff, Z.leb_le, Z.ltb_lt. lia. Qed.
Lemma is_cont_t c : 128 <= c < 192 -> is_cont c = true.
Proof. exact (in_rng_t 128 192 c). Qed.
Lemma is_cont_iff c : is_cont c = true <-> 128 <= c < 192.
Proof. exact (in_rng_iff 128 192 c). Qed.

(** decoding the encoding of one character *)
Lemma utf8_dec_enc1 c b r : utf8_enc1 c = Ok b -> utf8_dec (b ++ r) = cons_ok c (utf8_dec r).
Proof.
  unfold utf8_enc1. destruct (scalar_cp c) eqn:Sc; cbn [negb]; [|discriminate].
  assert (Hc : 0 <= c < 1114112) by (unfold scalar_cp in Sc; bsimp; lia).
  destruct (c <? 128) eqn:C1.
  { intro HH; apply Ok_inj in HH; subst b. bsimp. cbn [app utf8_dec]. rewrite in_rng_t by lia. reflexivity. }
  destruct (c <? 2048) eqn:C2.
  { intro HH; apply Ok_inj in HH; subst b. bsimp. cbn [app utf8_dec].
    rewrite (in_rng_f 0 128), (in_rng_t 192 224) by lia. rewrite is_cont_t by lia.
    replace ((192 + c / 64 - 192) * 64 + (128 + c mod 64 - 128)) with c by lia.
    rewrite in_rng_t by lia. reflexivity. }
  destruct (c <? 65536) eqn:C3.
  { intro HH; apply Ok_inj in HH; subst b. bsimp. cbn [app utf8_dec].
    rewrite (in_rng_f 0 128), (in_rng_f 192 224), (in_rng_t 224 240) by lia. rewrite !is_cont_t by lia.
    replace ((224 + c / 4096 - 224) * 4096 + (128 + (c / 64) mod 64 - 128) * 64 + (128 + c mod 64 - 128)) with c by lia.
    rewrite in_rng_t by lia. rewrite Sc. reflexivity. }
  intro HH; apply Ok_inj in HH; subst b. bsimp. cbn [app utf8_dec].
  rewrite (in_rng_f 0 128), (in_rng_f 192 224), (in_rng_f 224 240), (in_rng_t 240 248) by lia. rewrite !is_cont_t by lia.
  replace ((240 + c / 262144 - 240) * 262144 + (128 + (c / 4096) mod 64 - 128) * 4096 + (128 + (c / 64) mod 64 - 128) * 64 + (128 + c mod 64 - 128)) with c by lia.
  rewrite in_rng_t by lia. reflexivity.
Qed.

Lemma utf8_dec_enc s : forall b, utf8_enc s = Ok b -> utf8_dec b = Ok s.
Proof.
  induction s as [|c s IH]; cbn; intros b H; [injection H as <-; reflexivity|].
  destruct (utf8_enc1 c) as [b1|] eqn:E1; cbn in H; [|discriminate].
  destruct (utf8_enc s) as [b2|] eqn:E2; cbn in H; [|discriminate]. injection H as <-.
  rewrite (utf8_dec_enc1 _ _ _ E1), (IH _ eq_refl). reflexivity.
Qed.

Lemma utf8_enc1_ok c b : utf8_enc1 c = Ok b -> bytes_ok b /\ (1 <= length b)%nat /\ (length b = 1%nat <-> 0 <= c < 128).
Proof.
  unfold utf8_enc1. destruct (scalar_cp c) eqn:Sc; cbn [negb]; [|discriminate].
  assert (Hc : 0 <= c < 1114112) by (unfold scalar_cp in Sc; bsimp; lia).
  destruct (c <? 128) eqn:C1; [|destruct (c <? 2048) eqn:C2; [|destruct (c <? 65536) eqn:C3]];
    intro HH; apply Ok_inj in HH; subst b; bsimp; (split; [repeat constructor; lia|split; [cbn; lia|cbn; lia]]).
Qed.
Lemma utf8_enc_ok s : forall b, utf8_enc s = Ok b ->
  bytes_ok b /\ (length s <= length b)%nat /\ (length b = length s <-> ascii s).
Proof.
  induction s as [|c s IH]; cbn; intros b H.
  { injection H as <-. split; [constructor|split; [lia|split; [constructor|reflexivity]]]. }
  destruct (utf8_enc1 c) as [b1|] eqn:E1; cbn in H; [|discriminate].
  destruct (utf8_enc s) as [b2|] eqn:E2; cbn in H; [|discriminate]. injection H as <-.
  destruct (utf8_enc1_ok _ _ E1) as (O1 & L1 & A1). destruct (IH _ eq_refl) as (O2 & L2 & A2).
  rewrite app_length. split; [apply Forall_app; auto|split; [lia|]]. split.
  - intro L. constructor; [apply A1; lia|apply A2; lia].
  - intro A. inversion A as [|? ? Hc Hs]; subst. apply A1 in Hc. apply A2 in Hs. lia.
Qed.
Lemma utf8_enc_ascii s : ascii s -> utf8_enc s = Ok s.
Proof.
  induction 1 as [|c s Hc Hs IH]; [reflexivity|]. cbn. rewrite IH. unfold utf8_enc1, scalar_cp.
  replace (0 <=? c) with true by (symmetry; apply Z.leb_le; lia).
  replace (c <? 1114112) with true by (symmetry; apply Z.ltb_lt; lia).
  replace (55296 <=? c) with false by (symmetry; apply Z.leb_gt; lia).
  replace (c <? 128) with true by (symmetry; apply Z.ltb_lt; lia). reflexivity.
Qed.
Lemma utf8_dec_ascii s : ascii s -> utf8_dec s = Ok s.
Proof. intro H. apply utf8_dec_enc, utf8_enc_ascii, H. Qed.

(** re-encoding a decoded string gives the same bytes *)
Lemma cons_ok_inv c r s : cons_ok c r = Ok s -> exists s', r = Ok s' /\ s = c :: s'.
Proof. destruct r; cbn; [intros [= <-]; eauto|discriminate]. Qed.
Lemma enc_cons c b s bs : utf8_enc1 c = Ok b -> utf8_enc s = Ok bs -> utf8_enc (c :: s) = Ok (b ++ bs).
Proof. intros E1 E2. cbn. now rewrite E1, E2. Qed.
Lemma dm a b k : 0 < k -> 0 <= b < k -> (a * k + b) / k = a /\ (a * k + b) mod k = b.
Proof.
  intros Hk Hb. split.
  - rewrite Z.add_comm, Z.div_add, Z.div_small by lia. reflexivity.
  - rewrite Z.add_comm, Z.mod_add, Z.mod_small by lia. reflexivity.
Qed.
Lemma scalar_t c : 0 <= c < 55296 \/ 57344 <= c < 1114112 -> scalar_cp c = true.
Proof.
  unfold scalar_cp. intro H. rewrite !andb_true_iff, Z.leb_le, Z.ltb_lt, negb_true_iff, andb_false_iff, Z.leb_gt, Z.ltb_ge. lia.
Qed.
Ltac Zify.zify_post_hook ::= idtac.
Lemma utf8_enc_dec n : forall bs s, (length bs <= n)%nat -> utf8_dec bs = Ok s -> utf8_enc s = Ok bs.
Proof.
  induction n as [|n IH]; intros bs s Ln H.
  { destruct bs; [|cbn in Ln; lia]. injection H as <-. reflexivity. }
  destruct bs as [|b0 r0]; [injection H as <-; reflexivity|]. cbn [utf8_dec] in H. cbn [length] in Ln.
  destruct (in_rng 0 128 b0) eqn:R1.
  { apply in_rng_iff in R1. destruct (cons_ok_inv _ _ _ H) as (s' & D & ->).
    change (b0 :: r0) with ([b0] ++ r0). apply enc_cons; [|apply IH; [lia|exact D]].
    unfold utf8_enc1. rewrite scalar_t by lia. cbn. destruct (Z.ltb_spec b0 128); [reflexivity|lia]. }
  destruct (in_rng 192 224 b0) eqn:R2.
  { apply in_rng_iff in R2. destruct r0 as [|b1 r1]; [discriminate|].
    set (c := (b0 - 192) * 64 + (b1 - 128)) in *.
    destruct (is_cont b1 && in_rng 128 2048 c) eqn:G; [|discriminate]. bsimp.
    repeat match goal with X : is_cont _ = true |- _ => apply is_cont_iff in X | X : in_rng _ _ _ = true |- _ => apply in_rng_iff in X end.
    destruct (cons_ok_inv _ _ _ H) as (s' & D & ->).
    change (b0 :: b1 :: r1) with ([b0; b1] ++ r1). apply enc_cons; [|apply IH; [cbn in Ln; lia|exact D]].
    unfold utf8_enc1. rewrite scalar_t by lia. cbn [negb].
    destruct (Z.ltb_spec c 128); [lia|]. destruct (Z.ltb_spec c 2048); [|lia]. 
    destruct (dm (b0 - 192) (b1 - 128) 64 ltac:(lia) ltac:(lia)) as [D1 D2]. fold c in D1, D2. rewrite D1, D2.
    f_equal. f_equal; [clear; lia|f_equal; clear; lia]. }
  destruct (in_rng 224 240 b0) eqn:R3.
  { apply in_rng_iff in R3. destruct r0 as [|b1 [|b2 r2]]; try discriminate.
    set (c := (b0 - 224) * 4096 + (b1 - 128) * 64 + (b2 - 128)) in *.
    destruct (is_cont b1 && is_cont b2 && in_rng 2048 65536 c && scalar_cp c) eqn:G; [|discriminate].
    apply andb_prop in G as [G Sc]. bsimp.
    repeat match goal with X : is_cont _ = true |- _ => apply is_cont_iff in X | X : in_rng _ _ _ = true |- _ => apply in_rng_iff in X end.
    destruct (cons_ok_inv _ _ _ H) as (s' & D & ->).
    change (b0 :: b1 :: b2 :: r2) with ([b0; b1; b2] ++ r2). apply enc_cons; [|apply IH; [cbn in Ln; lia|exact D]].
    unfold utf8_enc1. rewrite Sc. cbn [negb].
    destruct (Z.ltb_spec c 128); [lia|]. destruct (Z.ltb_spec c 2048); [lia|]. destruct (Z.ltb_spec c 65536); [|lia].
    destruct (dm ((b0 - 224) * 64 + (b1 - 128)) (b2 - 128) 64 ltac:(lia) ltac:(lia)) as [D1 D2].
    destruct (dm (b0 - 224) (b1 - 128) 64 ltac:(lia) ltac:(lia)) as [D3 D4].
    replace (((b0 - 224) * 64 + (b1 - 128)) * 64 + (b2 - 128)) with c in D1, D2 by (subst c; clear; lia).
    replace (c / 4096) with (c / 64 / 64) by (rewrite Z.div_div by lia; reflexivity).
    rewrite D1, D2, D3, D4. f_equal. f_equal; [clear; lia|f_equal; [clear; lia|f_equal; clear; lia]]. }
  destruct (in_rng 240 248 b0) eqn:R4; [|discriminate].
  apply in_rng_iff in R4. destruct r0 as [|b1 [|b2 [|b3 r3]]]; try discriminate.
  set (c := (b0 - 240) * 262144 + (b1 - 128) * 4096 + (b2 - 128) * 64 + (b3 - 128)) in *.
  destruct (is_cont b1 && is_cont b2 && is_cont b3 && in_rng 65536 1114112 c) eqn:G; [|discriminate]. bsimp.
  repeat match goal with X : is_cont _ = true |- _ => apply is_cont_iff in X | X : in_rng _ _ _ = true |- _ => apply in_rng_iff in X end.
  destruct (cons_ok_inv _ _ _ H) as (s' & D & ->).
  change (b0 :: b1 :: b2 :: b3 :: r3) with ([b0; b1; b2; b3] ++ r3). apply enc_cons; [|apply IH; [cbn in Ln; lia|exact D]].
  unfold utf8_enc1. rewrite scalar_t by lia. cbn [negb].
  destruct (Z.ltb_spec c 128); [lia|]. destruct (Z.ltb_spec c 2048); [lia|]. destruct (Z.ltb_spec c 65536); [lia|].
  destruct (dm (((b0 - 240) * 64 + (b1 - 128)) * 64 + (b2 - 128)) (b3 - 128) 64 ltac:(lia) ltac:(lia)) as [D1 D2].
  destruct (dm ((b0 - 240) * 64 + (b1 - 128)) (b2 - 128) 64 ltac:(lia) ltac:(lia)) as [D3 D4].
  destruct (dm (b0 - 240) (b1 - 128) 64 ltac:(lia) ltac:(lia)) as [D5 D6].
  replace ((((b0 - 240) * 64 + (b1 - 128)) * 64 + (b2 - 128)) * 64 + (b3 - 128)) with c in D1, D2 by (subst c; clear; lia).
  replace (c / 262144) with (c / 64 / 64 / 64) by (rewrite !Z.div_div by lia; reflexivity).
  replace (c / 4096) with (c / 64 / 64) by (rewrite Z.div_div by lia; reflexivity).
  rewrite D1, D2, D3, D4, D5, D6. f_equal. f_equal; [clear; lia|f_equal; [clear; lia|f_equal; [clear; lia|f_equal; clear; lia]]].
Qed.
