(** * C43: authenticated encryption; C49: certificate chains *)
From Coq Require Import String.
From Coq Require Import List ZArith Bool Lia.
From Verif Require Import PyBase PyLemmas CipherModel CipherSpec CipherProofs.
Import ListNotations.
Open Scope nat_scope.

(** C43. Padding adds 1 to 16 bytes, each the number added, up to a whole number
    of blocks; and removing it succeeds exactly on padded data, with what was padded. *)
Theorem C43_padding : forall d : bytes, bytes_ok d ->
  (exists n, 1 <= n <= 16 /\ pkcs7_pad d = d ++ repeat (Z.of_nat n) n /\ (length d + n) mod 16 = 0) /\
  (forall x, bytes_ok x -> (pkcs7_unpad x = Ok d <-> x = pkcs7_pad d)).
Proof.
  intros d O. split; [|intros x Ox; now apply unpad_exact].
  exists (16 - length d mod 16). split; [apply mod_pad|]. split; [reflexivity|].
  destruct (pad_length d) as [k L]. unfold pkcs7_pad, bsz in L. rewrite app_length, repeat_length in L. rewrite L, Nat.mul_comm. now apply Nat.mod_mul.
Qed.
Print Assumptions C43_padding.

Lemma new_fresh iv o : cipher_new iv = Ok o -> o = fresh iv /\ length iv = 16.
Proof. unfold cipher_new, bsz. destruct (length iv =? 16) eqn:E; intros H; [|discriminate]. injection H as <-. apply Nat.eqb_eq in E. auto. Qed.

(** C43. A new cipher object encrypts to the chained blocks of the padded data,
    and decrypts exactly the data that starts with such a ciphertext and has
    less than a block after it. *)
Theorem C43_cipher_exact : forall (a : block_cipher) (iv : bytes) (o : cipher) (d : bytes),
  good_cipher a -> bytes_ok iv -> bytes_ok d -> cipher_new iv = Ok o ->
  (forall c, fst (cipher_encrypt a d o) = Ok c <-> ciphertext a iv d c) /\
  (forall data, bytes_ok data ->
     (fst (cipher_decrypt a data o) = Ok d <-> exists c tail, data = c ++ tail /\ length tail < 16 /\ ciphertext a iv d c)).
Proof.
  intros a iv o d G Oi Od N. apply new_fresh in N as [-> Li]. split; [intros c; apply encrypt_exact|].
  intros data O. apply decrypt_exact; auto. now split.
Qed.
Print Assumptions C43_cipher_exact.

(** C43. What one object encrypts, another with the same keys decrypts to the
    data, whatever its length, for any MAC that verifies its own tags. *)
Theorem C43_roundtrip : forall (a : block_cipher) (m : macmode) (iv d : bytes) (o1 o2 : cipher),
  good_cipher a -> good_mac m -> bytes_ok iv -> bytes_ok d -> cipher_new iv = Ok o1 -> cipher_new iv = Ok o2 ->
  exists out, fst (etm_encrypt a m d o1) = Ok out /\ bytes_ok out /\ length d < length out /\ fst (etm_decrypt a m out o2) = Ok (Some d).
Proof.
  intros a m iv d o1 o2 G [Ms M] Oi Od N1 N2. apply new_fresh in N1 as [-> Li]. apply new_fresh in N2 as [-> _].
  assert (B : block iv) by (split; assumption).
  unfold etm_encrypt. destruct (encrypt_fresh a iv d) as (c & x & -> & C). destruct (ciphertext_ok a iv d c G B Od C) as [Oc [k Lc]].
  destruct (M c Oc) as (t & Et & Lt & Ot & V). rewrite Et. cbn [fst]. exists (c ++ t). split; [reflexivity|]. split; [apply Forall_app; auto|].
  assert (Ld : length d < length c).
  { pose proof C as C'. apply ciphertext_pad in C' as (ps & F & Cp & ->). rewrite concat_len16 in Lc.
    2:{ apply blocks_ok, cbc_blocks; auto. apply blocks_of; [exact F|]. rewrite Cp. now apply pad_ok. }
    rewrite concat_len16.
    2:{ apply blocks_ok, cbc_blocks; auto. apply blocks_of; [exact F|]. rewrite Cp. now apply pad_ok. }
    assert (Lp : length (pkcs7_pad d) = 16 * length ps) by (rewrite <- Cp; now apply concat_len16).
    assert (Lq : forall p, length (cbc (b_enc a) p ps) = length ps). { clear. induction ps; intros p; cbn; [reflexivity|]. now rewrite IHps. }
    rewrite Lq, <- Lp. unfold pkcs7_pad, bsz. rewrite app_length, repeat_length. pose proof (mod_pad (length d)). lia. }
  split; [rewrite app_length; lia|].
  unfold etm_decrypt. rewrite app_length, Lt. replace (length c + m_size m - m_size m) with (length c) by lia.
  rewrite firstn_app, skipn_app, firstn_all, skipn_all, Nat.sub_diag. cbn [firstn skipn app]. rewrite app_nil_r, V.
  assert (D : fst (cipher_decrypt a c (fresh iv)) = Ok d).
  { apply decrypt_exact; auto. exists c, []. rewrite app_nil_r. cbn. repeat split; auto; lia. }
  destruct (cipher_decrypt a c (fresh iv)) as [r c']. cbn [fst] in D. now subst r.
Qed.
Print Assumptions C43_roundtrip.

(** C43. With HMAC, any data but a ciphertext followed by its own tag is
    refused: None is returned, the cipher gets none of it, and the object can
    be used as before.  With any MAC, that is so when the tag does not verify. *)
Theorem C43_refused : forall (a : block_cipher) (h : bytes -> bytes) (data : bytes) (o : cipher),
  (forall x, length (h x) = 20) ->
  (~ (exists c, data = c ++ h c) <-> fst (etm_decrypt a (hmac_mode h) data o) = Ok None) /\
  (~ (exists c, data = c ++ h c) -> snd (etm_decrypt a (hmac_mode h) data o) = o).
Proof.
  intros a h data o Hh. unfold etm_decrypt. cbn [hmac_mode m_size m_verify]. set (n := length data - 20).
  destruct (eqb (h (firstn n data)) (skipn n data)) eqn:E.
  - unfold eqb in E. destruct (eq_dec _ _) as [E'|]; [|discriminate].
    assert (X : exists c, data = c ++ h c) by (exists (firstn n data); now rewrite E', firstn_skipn).
    destruct (cipher_decrypt a (firstn n data) o) as [r o']. cbn [fst snd]. split; [|now intros Y].
    split; [now intros Y|]. destruct r; discriminate.
  - unfold eqb in E. destruct (eq_dec _ _) as [|E']; [discriminate|]. cbn [fst snd]. split; [|now intros _].
    split; [reflexivity|]. intros _ (c & Ec). apply E'.
    assert (L : n = length c). { unfold n. rewrite Ec, app_length, Hh. lia. }
    rewrite L, Ec, firstn_app, skipn_app, firstn_all, skipn_all, Nat.sub_diag. cbn [firstn skipn app]. now rewrite app_nil_r.
Qed.
Print Assumptions C43_refused.
Theorem C43_unverified_never_decrypted : forall (a : block_cipher) (m : macmode) (data ct tag : bytes) (o : cipher),
  data = ct ++ tag -> length tag = m_size m -> m_verify m ct tag = Ok false -> etm_decrypt a m data o = (Ok None, o).
Proof.
  intros a m data ct tag o -> L V. unfold etm_decrypt. rewrite app_length, L. replace (length ct + m_size m - m_size m) with (length ct) by lia.
  rewrite firstn_app, skipn_app, firstn_all, skipn_all, Nat.sub_diag. cbn [firstn skipn app]. now rewrite app_nil_r, V.
Qed.
Print Assumptions C43_unverified_never_decrypted.

(** C43. Data that is accepted although no encryption produced it carries a
    valid tag for a ciphertext that no encryption produced. *)
Theorem C43_forgery_needs_tag : forall (a : block_cipher) (h : bytes -> bytes) (data : bytes) (o : cipher),
  (forall x, length (h x) = 20) -> fst (etm_decrypt a (hmac_mode h) data o) <> Ok None ->
  exists ct, data = ct ++ h ct /\
    forall p o', fst (etm_encrypt a (hmac_mode h) p o') <> Ok data -> fst (cipher_encrypt a p o') <> Ok ct.
Proof.
  intros a h data o Hh A. unfold etm_decrypt in A. cbn [hmac_mode m_size m_verify] in A. set (n := length data - 20) in A.
  destruct (eqb (h (firstn n data)) (skipn n data)) eqn:E; [|cbn in A; congruence].
  unfold eqb in E. destruct (eq_dec _ _) as [E'|]; [|discriminate]. exists (firstn n data). split; [now rewrite E', firstn_skipn|].
  intros p o' N C. apply N. unfold etm_encrypt. destruct (cipher_encrypt a p o') as [r o'']. cbn [fst] in C. subst r. cbn. now rewrite E', firstn_skipn.
Qed.
Print Assumptions C43_forgery_needs_tag.

(** C43. Of any calls on one object, at most one gives data: an object
    encrypts one message or decrypts one. *)
Theorem C43_one_message : forall (a : block_cipher) (m : macmode) (iv : bytes) (o : cipher) (ks : list call),
  cipher_new iv = Ok o -> length (filter (fun r => match r with Ok (Some _) => true | _ => false end) (fst (etm_calls a m ks o))) <= 1.
Proof.
  intros a m iv o ks N. apply new_fresh in N as [-> _]. induction ks as [|k ks IH]; [cbn; lia|]. cbn [etm_calls].
  pose proof (fresh_call a m k iv) as H. destruct (etm_call a m k (fresh iv)) as [r c]. cbn [fst snd] in H. destruct H as [[-> N]|[U D]].
  - destruct (etm_calls a m ks (fresh iv)) as [rs c']. cbn [fst filter] in *. destruct r as [[d|]|e]; [exfalso; now apply (N d)|exact IH|exact IH].
  - pose proof (used_calls a m ks c U D) as F. destruct (etm_calls a m ks c) as [rs c']. cbn [fst] in *.
    assert (Z : filter (fun r : res (option bytes) => match r with Ok (Some _) => true | _ => false end) rs = []).
    { clear - F. induction F as [|x l Hx F IH]; [reflexivity|]. cbn. destruct x as [[d|]|]; [exfalso; now apply (Hx d)|exact IH|exact IH]. }
    cbn [filter]. rewrite Z. destruct r as [[d|]|]; cbn; lia.
Qed.
Print Assumptions C43_one_message.

(** ** C43, refuted variants, and a case that meets the hypotheses *)
Definition toy : block_cipher := BlockCipher (fun b => rev b) (fun b => rev b).
Lemma toy_good : good_cipher toy.
Proof.
  constructor; cbn; intros b [L O]; try apply rev_involutive.
  - split; [now rewrite rev_length|now apply Forall_rev].
  - split; [now rewrite rev_length|now apply Forall_rev].
Qed.
Definition toy_mac (d : bytes) : bytes := repeat ((fold_right Z.add 0 d) mod 256)%Z 20.
Lemma toy_mac_good : good_mac (hmac_mode toy_mac).
Proof.
  split; [cbn; lia|]. intros d O. exists (toy_mac d). cbn [hmac_mode m_mac m_size m_verify]. split; [reflexivity|].
  split; [apply repeat_length|]. split.
  - apply Forall_forall. intros x X. apply repeat_spec in X. subst. unfold byte_ok. apply Z.mod_pos_bound. lia.
  - unfold eqb. destruct (eq_dec _ _); congruence.
Qed.
Definition iv0 : bytes := map Z.of_nat (seq 1 16).
Example roundtrip_example : exists o out, cipher_new iv0 = Ok o /\ fst (etm_encrypt toy (hmac_mode toy_mac) (lit "attack at dawn, then retreat") o) = Ok out /\
  length out = 52 /\ fst (etm_decrypt toy (hmac_mode toy_mac) out o) = Ok (Some (lit "attack at dawn, then retreat")).
Proof. eexists _, _. repeat split; vm_compute; reflexivity. Qed.
(** the same object cannot decrypt what it encrypted *)
Theorem C43_same_object_refuted : exists (a : block_cipher) (m : macmode) (iv d out : bytes) (o o' : cipher),
  good_cipher a /\ good_mac m /\ cipher_new iv = Ok o /\ etm_encrypt a m d o = (Ok out, o') /\ fst (etm_decrypt a m out o') = Raise AlreadyFinalized.
Proof.
  exists toy, (hmac_mode toy_mac), iv0, (lit "x"). eexists _, _, _. split; [apply toy_good|]. split; [apply toy_mac_good|].
  split; [vm_compute; reflexivity|]. split; [vm_compute; reflexivity|vm_compute; reflexivity].
Qed.
Print Assumptions C43_same_object_refuted.
(** the bare cipher does not notice bytes added at the end *)
Theorem C43_cipher_length_refuted : exists (a : block_cipher) (iv c d : bytes) (o : cipher) (x : Z),
  good_cipher a /\ cipher_new iv = Ok o /\ fst (cipher_encrypt a d o) = Ok c /\ fst (cipher_decrypt a (c ++ [x]) o) = Ok d.
Proof.
  exists toy, iv0. eexists _, (lit "x"), _, 0%Z. split; [apply toy_good|]. split; [vm_compute; reflexivity|]. split; [vm_compute; reflexivity|vm_compute; reflexivity].
Qed.
Print Assumptions C43_cipher_length_refuted.
(** with a public key only, encrypting fails after the object was used up *)
Theorem C43_failed_encrypt_reusable_refuted : exists (a : block_cipher) (m : macmode) (iv d : bytes) (o o' : cipher),
  cipher_new iv = Ok o /\ etm_encrypt a m d o = (Raise TypeError, o') /\ fst (etm_encrypt a m d o') = Raise AlreadyFinalized.
Proof. exists toy, (rsa_mode (RsaPublic (fun _ _ => true))), iv0, (lit "x"). eexists _, _. repeat split; vm_compute; reflexivity. Qed.
Print Assumptions C43_failed_encrypt_reusable_refuted.

(** ** Certificate chains *)

(** C49. A chain is accepted exactly if every certificate is signed by the key
    of the next, all those keys being RSA keys. *)
Theorem C49_chain_accepted : forall (k : Type) (rsa : k -> option (bytes -> bytes -> bool)) (certs : list (cert k)),
  validate_chain rsa certs = Ok true <-> chain_ok rsa certs.
Proof.
  intros k rsa. induction certs as [|x [|y r] IH].
  - split; [|reflexivity]. intros _ l ? ? ? E. destruct l; discriminate.
  - split; [|reflexivity]. intros _ l ? ? ? E. destruct l as [|? [|]]; discriminate.
  - cbn [validate_chain]. split.
    + intros H. destruct (rsa (t_key y)) as [v|] eqn:K; [|discriminate]. destruct (v (t_tbs x) (t_sig x)) eqn:V; [|discriminate].
      apply IH in H. intros l x' y' r' E. destruct l as [|z l].
      * injection E as <- <- <-. eauto.
      * injection E as <- E. now apply (H l x' y' r').
    + intros H. destruct (H [] x y r eq_refl) as (v & -> & ->). apply IH. intros l x' y' r' E. apply (H (x :: l) x' y' r'). cbn. now rewrite E.
Qed.
Print Assumptions C49_chain_accepted.
(** C49. Otherwise the first bad link decides: a signature that does not verify
    gives False, a key that is not RSA an AttributeError. *)
Theorem C49_chain_refused : forall (k : Type) (rsa : k -> option (bytes -> bytes -> bool)) (l r : list (cert k)) (x y : cert k),
  chain_ok rsa (l ++ [x]) -> (forall v, rsa (t_key y) = Some v -> v (t_tbs x) (t_sig x) = false) ->
  validate_chain rsa (l ++ x :: y :: r) = match rsa (t_key y) with Some _ => Ok false | None => Raise AttributeError end.
Proof.
  intros k rsa l r x y. revert l. induction l as [|z l IH]; intros C B.
  - cbn. destruct (rsa (t_key y)) as [v|] eqn:E; [|reflexivity]. now rewrite (B v eq_refl).
  - assert (C' : chain_ok rsa (l ++ [x])). { intros l' x' y' r' E. apply (C (z :: l') x' y' r'). cbn. now rewrite E. }
    specialize (IH C' B). destruct l as [|w l].
    + destruct (C [] z x [] eq_refl) as (v & K & V). cbn [app validate_chain]. rewrite K, V. exact IH.
    + destruct (C [] z w (l ++ [x]) eq_refl) as (v & K & V). cbn [app] in *. cbn [validate_chain]. cbn [validate_chain] in IH. rewrite K, V. exact IH.
Qed.
Print Assumptions C49_chain_refused.
(** C49. The names of a certificate as a dictionary: of attributes with the same
    name the last one. *)
Theorem C49_names : forall (attrs : list (pystr * pystr)) (n : pystr),
  dget (cert_names attrs) n = match find (fun p => eqb (fst p) n) (rev attrs) with Some p => Some (snd p) | None => None end.
Proof.
  intros attrs n. unfold cert_names. rewrite <- (rev_involutive attrs) at 1. induction (rev attrs) as [|p l IH]; [reflexivity|].
  cbn [rev]. rewrite fold_left_app. cbn [fold_left find]. unfold eqb at 1. destruct (eq_dec (fst p) n) as [<-|N].
  - now rewrite dget_dset_same.
  - rewrite dget_dset_other by congruence. exact IH.
Qed.
Print Assumptions C49_names.
(** C49, refuted variant: nothing is checked about a chain of one certificate,
    nor about the last one of a longer chain *)
Theorem C49_self_signature_checked_refuted : forall (k : Type) (rsa : k -> option (bytes -> bytes -> bool)) (x : cert k), validate_chain rsa [x] = Ok true.
Proof. reflexivity. Qed.
Print Assumptions C49_self_signature_checked_refuted.

Example chain_example :
  let rsa := fun n : nat => Some (fun d s : bytes => eqb s (Z.of_nat n :: d)) in
  let c n s := Cert n (lit "c") (s :: lit "c") in
  validate_chain rsa [c 3 2%Z; c 2 1%Z; c 1 0%Z] = Ok true /\ validate_chain rsa [c 3 2%Z; c 2 5%Z; c 1 0%Z] = Ok false.
Proof. vm_compute. split; reflexivity. Qed.
