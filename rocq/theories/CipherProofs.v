From Coq Require Import List ZArith Bool Lia.
From Verif Require Import PyBase PyLemmas CipherModel CipherSpec.
Import ListNotations.
Open Scope nat_scope.

(** ** xor *)
Lemma xor_length a b : length a = length b -> length (xor a b) = length b.
Proof. intros E. unfold xor. rewrite map_length, combine_length. lia. Qed.
Lemma xor_xor : forall a b, length a = length b -> xor a (xor a b) = b.
Proof.
  induction a as [|x a IH]; intros [|y b] E; cbn in *; try discriminate; [reflexivity|].
  f_equal; [|apply IH; lia]. rewrite <- Z.lxor_assoc, Z.lxor_nilpotent. now rewrite Z.lxor_0_l.
Qed.
Lemma lxor_byte x y : byte_ok x -> byte_ok y -> byte_ok (Z.lxor x y).
Proof.
  unfold byte_ok. intros Hx Hy.
  assert (N : (0 <= Z.lxor x y)%Z) by (apply Z.lxor_nonneg; lia). split; [exact N|].
  destruct (Z.eq_dec (Z.lxor x y) 0) as [->|Nz]; [lia|].
  apply (Z.log2_lt_pow2 _ 8); [lia|].
  eapply Z.le_lt_trans; [apply Z.log2_lxor; lia|].
  destruct (Z.eq_dec x 0) as [->|Nx]; destruct (Z.eq_dec y 0) as [->|Ny]; cbn [Z.log2]; try lia.
  - apply Z.max_lub_lt; [lia|]. apply Z.log2_lt_pow2; lia.
  - apply Z.max_lub_lt; [|lia]. apply Z.log2_lt_pow2; lia.
  - apply Z.max_lub_lt; apply Z.log2_lt_pow2; lia.
Qed.
Lemma xor_ok : forall a b, bytes_ok a -> bytes_ok b -> bytes_ok (xor a b).
Proof.
  induction a as [|x a IH]; intros [|y b] Ha Hb; try (constructor). 
  - apply lxor_byte; [now inversion Ha|now inversion Hb].
  - apply IH; [now inversion Ha|now inversion Hb].
Qed.
Lemma xor_block a b : block a -> block b -> block (xor a b).
Proof. intros [La Oa] [Lb Ob]. split; [rewrite xor_length; lia|now apply xor_ok]. Qed.

(** ** Cutting into blocks *)
Lemma chunk : forall n buf, length buf = 16 * n -> exists ps, concat ps = buf /\ length ps = n /\ Forall (fun p : bytes => length p = 16) ps.
Proof.
  induction n as [|n IH]; intros buf E.
  - exists []. destruct buf; [repeat split; constructor|cbn in E; discriminate].
  - destruct (IH (skipn 16 buf)) as (ps & C & L & F); [rewrite skipn_length; lia|].
    exists (firstn 16 buf :: ps). cbn [concat length]. rewrite C, firstn_skipn. split; [reflexivity|]. split; [lia|].
    constructor; [rewrite firstn_length; lia|exact F].
Qed.
Lemma concat_len16 : forall ps : list bytes, Forall (fun p => length p = 16) ps -> length (concat ps) = 16 * length ps.
Proof. induction ps; intros F; [reflexivity|]. inversion F; subst. cbn [concat length]. rewrite app_length. rewrite IHps by assumption. lia. Qed.
Lemma concat_inj16 : forall ps qs : list bytes, Forall (fun p => length p = 16) ps -> Forall (fun p => length p = 16) qs -> concat ps = concat qs -> ps = qs.
Proof.
  induction ps as [|p ps IH]; intros [|q qs] F G E; [reflexivity| | |].
  - inversion G; subst. cbn in E. destruct q; [cbn in *; discriminate|discriminate].
  - inversion F; subst. cbn in E. destruct p; [cbn in *; discriminate|discriminate].
  - inversion F; inversion G; subst. cbn [concat] in E.
    assert (p = q).
    { apply (f_equal (firstn 16)) in E. rewrite !firstn_app in E. replace (16 - length p) with 0 in E by lia. replace (16 - length q) with 0 in E by lia.
      rewrite !firstn_O, !app_nil_r in E. rewrite !firstn_all2 in E by lia. exact E. }
    subst q. apply app_inv_head in E. f_equal. now apply IH.
Qed.

Lemma steps_cons f n prev p buf : length p = 16 ->
  steps f (S n) prev (p ++ buf) = let (o, p1) := f prev p in let (os, p2) := steps f n p1 buf in (o ++ os, p2).
Proof.
  intros L. cbn [steps]. unfold bsz. rewrite firstn_app, skipn_app. replace (16 - length p) with 0 by lia.
  rewrite firstn_all2, skipn_all2 by lia. rewrite firstn_O, skipn_O, app_nil_r. reflexivity.
Qed.
Fixpoint last_block (prev : bytes) (ps : list bytes) : bytes := match ps with [] => prev | p :: r => last_block p r end.
Lemma steps_enc a : forall ps prev tail, Forall (fun p => length p = 16) ps ->
  steps (enc_step a) (length ps) prev (concat ps ++ tail) = (concat (cbc (b_enc a) prev ps), last_block prev (cbc (b_enc a) prev ps)).
Proof.
  induction ps as [|p ps IH]; intros prev tail F; [reflexivity|]. inversion F; subst.
  cbn [length concat]. rewrite <- app_assoc, steps_cons by assumption. unfold enc_step at 1. rewrite IH by assumption. reflexivity.
Qed.
(** decryption of blocks *)
Fixpoint cbc_dec (dec : bytes -> bytes) (prev : bytes) (cs : list bytes) : list bytes :=
  match cs with [] => [] | c :: r => xor prev (dec c) :: cbc_dec dec c r end.
Lemma steps_dec a : forall cs prev tail, Forall (fun p => length p = 16) cs ->
  steps (dec_step a) (length cs) prev (concat cs ++ tail) = (concat (cbc_dec (b_dec a) prev cs), last_block prev cs).
Proof.
  induction cs as [|p ps IH]; intros prev tail F; [reflexivity|]. inversion F; subst.
  cbn [length concat]. rewrite <- app_assoc, steps_cons by assumption. unfold dec_step at 1. rewrite IH by assumption. reflexivity.
Qed.
Lemma cbc_blocks a : good_cipher a -> forall ps prev, block prev -> Forall block ps -> Forall block (cbc (b_enc a) prev ps).
Proof.
  intros G. induction ps as [|p ps IH]; intros prev B F; [constructor|]. inversion F; subst. cbn [cbc].
  assert (block (b_enc a (xor prev p))) by (apply (gc_enc _ G); now apply xor_block). constructor; auto.
Qed.
Lemma cbc_dec_blocks a : good_cipher a -> forall ps prev, block prev -> Forall block ps -> Forall block (cbc_dec (b_dec a) prev ps).
Proof.
  intros G. induction ps as [|p ps IH]; intros prev B F; [constructor|]. inversion F; subst. cbn [cbc_dec].
  constructor; auto. apply xor_block; [assumption|]. now apply (gc_dec _ G).
Qed.
Lemma dec_cbc a : good_cipher a -> forall ps prev, block prev -> Forall block ps -> cbc_dec (b_dec a) prev (cbc (b_enc a) prev ps) = ps.
Proof.
  intros G. induction ps as [|p ps IH]; intros prev B F; [reflexivity|]. inversion F as [|? ? Bp Fp]; subst. cbn [cbc cbc_dec].
  rewrite (gc_dec_enc _ G) by now apply xor_block. f_equal.
  - apply xor_xor. destruct B, Bp. lia.
  - apply IH; [|assumption]. apply (gc_enc _ G). now apply xor_block.
Qed.
Lemma cbc_dec_enc a : good_cipher a -> forall cs prev, block prev -> Forall block cs -> cbc (b_enc a) prev (cbc_dec (b_dec a) prev cs) = cs.
Proof.
  intros G. induction cs as [|p ps IH]; intros prev B F; [reflexivity|]. inversion F as [|? ? Bp Fp]; subst. cbn [cbc cbc_dec].
  assert (X : b_enc a (xor prev (xor prev (b_dec a p))) = p).
  { rewrite xor_xor; [now apply (gc_enc_dec _ G)|]. destruct B, (gc_dec _ G p Bp). lia. }
  rewrite X. f_equal. now apply IH.
Qed.
Lemma blocks_of : forall ps, Forall (fun p : bytes => length p = 16) ps -> bytes_ok (concat ps) -> Forall block ps.
Proof.
  induction ps as [|p ps IH]; intros F O; [constructor|]. inversion F; subst. cbn [concat] in O. apply Forall_app in O as [O1 O2].
  constructor; [split; assumption|auto].
Qed.
Lemma blocks_ok : forall ps, Forall block ps -> bytes_ok (concat ps) /\ Forall (fun p : bytes => length p = 16) ps.
Proof.
  induction ps as [|p ps IH]; intros F; [split; constructor|]. inversion F as [|? ? [L O] F']; subst. destruct (IH F'). split; [|constructor; auto].
  cbn [concat]. apply Forall_app. auto.
Qed.

(** ** Padding *)
Lemma mod_pad n : 1 <= 16 - n mod 16 <= 16.
Proof. pose proof (Nat.mod_upper_bound n 16). lia. Qed.
Lemma pad_length d : exists k, length (pkcs7_pad d) = 16 * S k.
Proof.
  unfold pkcs7_pad, bsz. rewrite app_length, repeat_length. pose proof (Nat.div_mod_eq (length d) 16). pose proof (Nat.mod_upper_bound (length d) 16).
  exists (length d / 16). lia.
Qed.
Lemma pad_unique (d : bytes) n k : 1 <= n <= 16 -> length d + n = 16 * k -> n = 16 - length d mod 16.
Proof.
  intros H E. pose proof (Nat.div_mod_eq (length d) 16). pose proof (Nat.mod_upper_bound (length d) 16).
  assert (length d / 16 < k) by lia. assert (k <= length d / 16 + 1) by lia. lia.
Qed.
Lemma forallb_repeat n : forall l, forallb (Z.eqb n) l = true <-> l = repeat n (length l).
Proof.
  induction l as [|x l IH]; cbn; [tauto|]. rewrite andb_true_iff, IH, Z.eqb_eq. split; [intros [<- <-]; reflexivity|].
  intros [= E1 E2]. split; [now symmetry|]. exact E2.
Qed.
Lemma last_repeat (n : Z) k : 0 < k -> last (repeat n k) 0%Z = n.
Proof. intros H. destruct k; [lia|]. clear H. induction k; [reflexivity|]. exact IHk. Qed.
Lemma last_app {A} (l r : list A) z : r <> [] -> last (l ++ r) z = last r z.
Proof.
  intros N. induction l as [|x l IH]; [reflexivity|]. cbn [app]. destruct (l ++ r) eqn:E.
  - apply app_eq_nil in E as [_ E]. contradiction.
  - exact IH.
Qed.
Lemma last_skipn {A} (l : list A) k z : k < length l -> last (skipn k l) z = last l z.
Proof.
  intros H. rewrite <- (firstn_skipn k l) at 2. symmetry. apply last_app. intros E. apply (f_equal (@length A)) in E. rewrite skipn_length in E. cbn in E. lia.
Qed.
Lemma unpad_exact x d : bytes_ok x -> pkcs7_unpad x = Ok d <-> x = pkcs7_pad d.
Proof.
  intros Ox. split.
  - unfold pkcs7_unpad, bsz. rewrite Nat.max_0_r. set (nb := length x / 16 - 1). set (buf := skipn (16 * nb) x).
    destruct (length buf =? 16) eqn:L; [|discriminate]. cbn [negb]. apply Nat.eqb_eq in L.
    assert (Lx : 16 * nb + 16 = length x). { unfold buf in L. rewrite skipn_length in L. lia. }
    set (n := last buf 0%Z). destruct (n =? 0)%Z eqn:E0; [discriminate|]. destruct (Z.of_nat 16 <? n)%Z eqn:E1; [discriminate|].
    cbn [orb]. destruct (forallb (Z.eqb n) (skipn (16 - Z.to_nat n) buf)) eqn:E2; [|discriminate]. cbn [negb]. intros Ed. apply Ok_inj in Ed. subst d.
    apply Z.eqb_neq in E0. apply Z.ltb_ge in E1. apply forallb_repeat in E2. rewrite skipn_length, L in E2.
    assert (Hn : (1 <= n <= 16)%Z).
    { assert (byte_ok n); [|unfold byte_ok in *; lia]. unfold n.
      assert (Ob : bytes_ok buf) by (apply Forall_skipn; exact Ox).
      destruct (exists_last (l := buf)) as (l & y & El); [intros El; rewrite El in L; discriminate|].
      rewrite El in Ob |- *. rewrite last_last. apply Forall_app in Ob as [_ Ob]. now inversion Ob. }
    unfold pkcs7_pad, bsz. set (k := Z.to_nat n) in *.
    assert (K : 16 - length (firstn (16 * nb) x ++ firstn (16 - k) buf) mod 16 = k).
    { symmetry. apply (pad_unique _ k (S nb)); [lia|]. rewrite app_length, !firstn_length. lia. }
    rewrite K. replace (Z.of_nat k) with n by lia. rewrite <- app_assoc.
    replace (16 - (16 - k)) with k in E2 by lia. rewrite <- E2, firstn_skipn. unfold buf. now rewrite firstn_skipn.
  - intros ->. destruct (pad_length d) as [q Lq]. unfold pkcs7_unpad, bsz. rewrite Nat.max_0_r.
    assert (Nb : length (pkcs7_pad d) / 16 - 1 = q). { rewrite Lq, Nat.mul_comm, Nat.div_mul; lia. } rewrite Nb.
    set (buf := skipn (16 * q) (pkcs7_pad d)).
    assert (L : length buf = 16). { unfold buf. rewrite skipn_length, Lq. lia. } rewrite L. cbn [Nat.eqb negb].
    pose proof (mod_pad (length d)) as M. set (n := 16 - length d mod 16) in M.
    assert (P : pkcs7_pad d = d ++ repeat (Z.of_nat n) n) by reflexivity.
    assert (Ld : length d = 16 * q + (16 - n)). { rewrite P, app_length, repeat_length in Lq. lia. }
    assert (La : last buf 0%Z = Z.of_nat n).
    { unfold buf. rewrite last_skipn by lia. rewrite P, last_app by (destruct n; [lia|discriminate]). apply last_repeat. lia. }
    rewrite La. rewrite Nat2Z.id.
    assert (S1 : skipn (16 - n) buf = repeat (Z.of_nat n) n).
    { unfold buf. rewrite skipn_skipn. rewrite P, skipn_app. rewrite skipn_all2 by lia. replace (16 - n + 16 * q - length d) with 0 by lia. reflexivity. }
    rewrite S1. replace (Z.of_nat n =? 0)%Z with false by (symmetry; apply Z.eqb_neq; lia).
    replace (Z.of_nat 16 <? Z.of_nat n)%Z with false by (symmetry; apply Z.ltb_ge; lia).
    assert (F : forallb (Z.eqb (Z.of_nat n)) (repeat (Z.of_nat n) n) = true) by (apply forallb_repeat; now rewrite repeat_length).
    rewrite F. cbn [orb negb]. f_equal.
    assert (B : firstn (16 * q) (pkcs7_pad d) ++ firstn (16 - n) buf = firstn (length d) (pkcs7_pad d)).
    { rewrite Ld. unfold buf. rewrite <- (firstn_skipn (16 * q) (pkcs7_pad d)) at 3. rewrite firstn_app, firstn_length.
      rewrite Lq. replace (Nat.min (16 * q) (16 * S q)) with (16 * q) by lia. rewrite (firstn_all2 (n := 16 * q + (16 - n))) by (rewrite firstn_length; lia).
      now replace (16 * q + (16 - n) - 16 * q) with (16 - n) by lia. }
    rewrite B, P, firstn_app, firstn_all. replace (length d - length d) with 0 by lia. cbn. apply app_nil_r.
Qed.

(** ** The cipher object *)
Definition fresh (iv : bytes) : cipher := Cipher (Ctx iv [] false) (Ctx iv [] false).
Lemma pad_ok d : bytes_ok d -> bytes_ok (pkcs7_pad d).
Proof.
  intros O. unfold pkcs7_pad, bsz. apply Forall_app. split; [exact O|]. pose proof (mod_pad (length d)).
  apply Forall_forall. intros x X. apply repeat_spec in X. subst. unfold byte_ok. lia.
Qed.
Lemma pad_blocks d : exists ps, concat ps = pkcs7_pad d /\ Forall (fun p : bytes => length p = 16) ps.
Proof. destruct (pad_length d) as [k L]. destruct (chunk (S k) _ L) as (ps & C & _ & F). eauto. Qed.
Lemma ciphertext_pad a iv d c : ciphertext a iv d c <-> exists ps, Forall (fun p => length p = 16) ps /\ concat ps = pkcs7_pad d /\ c = concat (cbc (b_enc a) iv ps).
Proof.
  split.
  - intros (n & ps & Hn & F & C & E). exists ps. repeat split; auto. rewrite C. unfold pkcs7_pad, bsz.
    assert (n = 16 - length d mod 16); [|now subst]. apply (pad_unique d n (length ps)); [lia|].
    rewrite <- concat_len16 by assumption. rewrite C, app_length, repeat_length. reflexivity.
  - intros (ps & F & C & E). exists (16 - length d mod 16), ps. repeat split; auto; apply mod_pad.
Qed.
Lemma encrypt_fresh a iv d : exists c x, cipher_encrypt a d (fresh iv) = (Ok c, Cipher (Ctx x [] true) (Ctx iv [] false)) /\ ciphertext a iv d c.
Proof.
  destruct (pad_blocks d) as (ps & C & F). exists (concat (cbc (b_enc a) iv ps)), (last_block iv (cbc (b_enc a) iv ps)).
  split; [|apply ciphertext_pad; eauto].
  unfold cipher_encrypt, update, fresh. cbn [c_enc x_done x_pending x_prev app].
  assert (L : length (pkcs7_pad d) / bsz = length ps). { rewrite <- C, concat_len16 by assumption. unfold bsz. now rewrite Nat.mul_comm, Nat.div_mul. }
  rewrite L, <- C. rewrite <- (app_nil_r (concat ps)) at 1. rewrite steps_enc by assumption.
  rewrite skipn_all2 by (rewrite concat_len16 by assumption; reflexivity). cbn [finalize x_done x_pending x_prev c_dec]. now rewrite app_nil_r.
Qed.
Lemma ciphertext_fun a iv d c c' : ciphertext a iv d c -> ciphertext a iv d c' -> c = c'.
Proof.
  rewrite !ciphertext_pad. intros (ps & F & C & ->) (qs & G & D & ->). f_equal. f_equal. apply concat_inj16; congruence.
Qed.
Lemma encrypt_exact a iv d c : fst (cipher_encrypt a d (fresh iv)) = Ok c <-> ciphertext a iv d c.
Proof.
  destruct (encrypt_fresh a iv d) as (c0 & x & E & H). rewrite E. cbn [fst]. split; [intros [= <-]; exact H|]. intros H'. f_equal. eapply ciphertext_fun; eauto.
Qed.
Lemma ciphertext_ok a iv d c : good_cipher a -> block iv -> bytes_ok d -> ciphertext a iv d c -> bytes_ok c /\ exists k, length c = 16 * S k.
Proof.
  intros G B O. rewrite ciphertext_pad. intros (ps & F & C & ->).
  assert (Bp : Forall block ps) by (apply blocks_of; [exact F|rewrite C; now apply pad_ok]).
  destruct (blocks_ok _ (cbc_blocks a G ps iv B Bp)) as [O' F']. split; [exact O'|]. rewrite concat_len16 by exact F'.
  destruct (pad_length d) as [k L]. exists k. rewrite <- C, concat_len16 in L by exact F. rewrite <- L.
  f_equal. clear. revert iv. induction ps; intros iv; cbn; [reflexivity|]. now rewrite IHps.
Qed.
Lemma decrypt_fresh a iv cs tail : Forall (fun p => length p = 16) cs -> length tail < 16 ->
  exists x, cipher_decrypt a (concat cs ++ tail) (fresh iv) =
    (pkcs7_unpad (concat (cbc_dec (b_dec a) iv cs)), Cipher (Ctx iv [] true) (Ctx x tail false)).
Proof.
  intros F T. exists (last_block iv cs). unfold cipher_decrypt, update, fresh. cbn [c_dec x_done x_pending x_prev app].
  assert (L : length (concat cs ++ tail) / bsz = length cs).
  { rewrite app_length, concat_len16 by assumption. unfold bsz. symmetry. apply (Nat.div_unique _ 16 (length cs) (length tail)); [exact T|reflexivity]. }
  rewrite L, steps_dec by assumption. cbn [finalize c_enc x_done x_pending x_prev]. rewrite app_nil_r.
  rewrite skipn_app, skipn_all2 by (rewrite concat_len16 by assumption; reflexivity). rewrite concat_len16 by assumption. unfold bsz. rewrite Nat.sub_diag. reflexivity.
Qed.
Lemma split_blocks data : exists cs tail, data = concat cs ++ tail /\ Forall (fun p : bytes => length p = 16) cs /\ length tail < 16.
Proof.
  pose proof (Nat.div_mod_eq (length data) 16). pose proof (Nat.mod_upper_bound (length data) 16).
  destruct (chunk (length data / 16) (firstn (16 * (length data / 16)) data)) as (cs & C & _ & F); [rewrite firstn_length; lia|].
  exists cs, (skipn (16 * (length data / 16)) data). rewrite C, firstn_skipn. repeat split; auto. rewrite skipn_length. lia.
Qed.
Lemma decrypt_exact a iv data d : good_cipher a -> block iv -> bytes_ok data -> bytes_ok d ->
  fst (cipher_decrypt a data (fresh iv)) = Ok d <-> exists c tail, data = c ++ tail /\ length tail < 16 /\ ciphertext a iv d c.
Proof.
  intros G B O Od. split.
  - destruct (split_blocks data) as (cs & tail & -> & F & T). destruct (decrypt_fresh a iv cs tail F T) as (x & ->). cbn [fst].
    apply Forall_app in O as [O _]. pose proof (blocks_of _ F O) as Bc. destruct (blocks_ok _ (cbc_dec_blocks a G cs iv B Bc)) as [Op Fp].
    rewrite unpad_exact by exact Op. intros E. exists (concat cs), tail. repeat split; auto. apply ciphertext_pad.
    exists (cbc_dec (b_dec a) iv cs). repeat split; auto. now rewrite cbc_dec_enc.
  - intros (c & tail & -> & T & C). apply ciphertext_pad in C as (ps & F & C & ->).
    assert (Bp : Forall block ps) by (apply blocks_of; [exact F|rewrite C; now apply pad_ok]).
    pose proof (cbc_blocks a G ps iv B Bp) as Bc. destruct (blocks_ok _ Bc) as [_ Fc].
    destruct (decrypt_fresh a iv _ tail Fc T) as (x & ->). cbn [fst]. rewrite dec_cbc by assumption. rewrite C.
    apply unpad_exact; [now apply pad_ok|reflexivity].
Qed.

(** ** One object, many calls *)
Definition used (c : cipher) : Prop := x_done (c_enc c) = true.
Lemma used_encrypt a d c : used c -> cipher_encrypt a d c = (Raise AlreadyFinalized, c).
Proof. unfold used, cipher_encrypt, update. intros ->. now destruct c. Qed.
Lemma used_decrypt a d c : used c -> x_done (c_dec c) = false ->
  exists c', cipher_decrypt a d c = (Raise AlreadyFinalized, c') /\ used c' /\ x_done (c_dec c') = false.
Proof.
  unfold used, cipher_decrypt, update. intros U D. rewrite D.
  destruct (steps _ _ _ _) as [o p]. unfold finalize. rewrite U. eexists. split; [reflexivity|]. split; [exact U|reflexivity].
Qed.
Lemma used_call a m k c : used c -> x_done (c_dec c) = false ->
  used (snd (etm_call a m k c)) /\ x_done (c_dec (snd (etm_call a m k c))) = false /\
  forall d, fst (etm_call a m k c) <> Ok (Some d).
Proof.
  intros U D. destruct k as [d|d]; cbn [etm_call].
  - unfold etm_encrypt. rewrite used_encrypt by exact U. cbn. split; [exact U|]. split; [exact D|discriminate].
  - unfold etm_decrypt. destruct (m_verify m _ _) as [[|]|e] eqn:E.
    + destruct (used_decrypt a (firstn (length d - m_size m) d) c U D) as (c' & -> & U' & D'). cbn. split; [exact U'|]. split; [exact D'|discriminate].
    + cbn. split; [exact U|]. split; [exact D|discriminate].
    + cbn. split; [exact U|]. split; [exact D|discriminate].
Qed.
Lemma used_calls a m : forall ks c, used c -> x_done (c_dec c) = false -> Forall (fun r => forall d, r <> Ok (Some d)) (fst (etm_calls a m ks c)).
Proof.
  induction ks as [|k ks IH]; intros c U D; [constructor|]. cbn [etm_calls].
  destruct (used_call a m k c U D) as (U' & D' & N). destruct (etm_call a m k c) as [r c']. cbn [fst snd] in *.
  specialize (IH c' U' D'). destruct (etm_calls a m ks c') as [rs c'']. cbn [fst] in *. constructor; assumption.
Qed.
(** what a call does to an object that has not been used *)
Lemma fresh_call a m k iv :
  let r := fst (etm_call a m k (fresh iv)) in let c := snd (etm_call a m k (fresh iv)) in
  (c = fresh iv /\ (forall d, r <> Ok (Some d))) \/ (used c /\ x_done (c_dec c) = false).
Proof.
  destruct k as [d|d]; cbn [etm_call].
  - right. unfold etm_encrypt. destruct (encrypt_fresh a iv d) as (ct & x & -> & _). cbn. split; reflexivity.
  - unfold etm_decrypt. destruct (m_verify m _ _) as [[|]|e].
    + right. destruct (split_blocks (firstn (length d - m_size m) d)) as (cs & tail & -> & F & T). destruct (decrypt_fresh a iv cs tail F T) as (x & ->). split; reflexivity.
    + left. split; [reflexivity|discriminate].
    + left. split; [reflexivity|discriminate].
Qed.
