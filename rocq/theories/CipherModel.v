(** * Model of common/CipherUtil.py (CU) *)
From Coq Require Import List ZArith Bool.
From Verif Require Import PyBase.
Import ListNotations.
Open Scope nat_scope.

Definition bsz : nat := 16.                                     (* block_size = 128 bits, CU 54 *)

(** ** PKCS7(128) of the cryptography library, as called in CU 57-58 and 63-64.
    Padder and unpadder are new for each call and get all the data in one
    update, so update and finalize are one function here. *)
Definition pkcs7_pad (d : bytes) : bytes :=
  let n := bsz - length d mod bsz in d ++ repeat (Z.of_nat n) n.
(** the check looks at the last byte, then at that many bytes from the end *)
Definition pkcs7_unpad (d : bytes) : res bytes :=
  let nb := Nat.max (length d / bsz - 1) 0 in                    (* full blocks passed on by update *)
  let buf := skipn (bsz * nb) d in
  if negb (length buf =? bsz) then Raise ValueError
  else
    let n := last buf 0%Z in
    if (n =? 0)%Z || (Z.of_nat bsz <? n)%Z || negb (forallb (Z.eqb n) (skipn (bsz - Z.to_nat n) buf)) then Raise ValueError
    else Ok (firstn (bsz * nb) d ++ firstn (bsz - Z.to_nat n) buf).

(** ** Cipher contexts of the cryptography library, in CBC mode, padding off *)
Definition xor (a b : bytes) : bytes := map (fun p => Z.lxor (fst p) (snd p)) (combine a b).
(** AES under one key: a function on blocks for each direction (not modelled further) *)
Record block_cipher := BlockCipher { b_enc : bytes -> bytes; b_dec : bytes -> bytes }.
(** chaining block; bytes not yet a full block; finalize() was called *)
Record ctx := Ctx { x_prev : bytes; x_pending : bytes; x_done : bool }.
(** one block: output and next chaining block *)
Definition enc_step (a : block_cipher) (prev b : bytes) : bytes * bytes := let c := b_enc a (xor prev b) in (c, c).
Definition dec_step (a : block_cipher) (prev b : bytes) : bytes * bytes := (xor prev (b_dec a b), b).
Fixpoint steps (f : bytes -> bytes -> bytes * bytes) (n : nat) (prev buf : bytes) : bytes * bytes :=
  match n with
  | O => ([], prev)
  | S k => let (o, p1) := f prev (firstn bsz buf) in let (os, p2) := steps f k p1 (skipn bsz buf) in (o ++ os, p2)
  end.
Definition update (f : bytes -> bytes -> bytes * bytes) (data : bytes) (x : ctx) : res bytes * ctx :=
  if x_done x then (Raise AlreadyFinalized, x)
  else
    let buf := x_pending x ++ data in
    let n := length buf / bsz in
    let (o, p) := steps f n (x_prev x) buf in
    (Ok o, Ctx p (skipn (bsz * n) buf) false).
Definition finalize (x : ctx) : res bytes * ctx :=
  if x_done x then (Raise AlreadyFinalized, x)
  else match x_pending x with
       | [] => (Ok [], Ctx (x_prev x) [] true)
       | _ => (Raise ValueError, x)
       end.

(** ** CIPHER_AES128_CBC, CU 49-64 *)
Record cipher := Cipher { c_enc : ctx; c_dec : ctx }.
(** CU 50-54; a wrong iv length is a ValueError of CBC *)
Definition cipher_new (iv : bytes) : res cipher :=
  if length iv =? bsz then Ok (Cipher (Ctx iv [] false) (Ctx iv [] false)) else Raise ValueError.
(** encrypt, CU 56-59 *)
Definition cipher_encrypt (a : block_cipher) (data : bytes) (c : cipher) : res bytes * cipher :=
  let (r1, x1) := update (enc_step a) (pkcs7_pad data) (c_enc c) in
  match r1 with
  | Raise e => (Raise e, Cipher x1 (c_dec c))
  | Ok o1 =>
      let (r2, x2) := finalize x1 in
      (match r2 with Ok o2 => Ok (o1 ++ o2) | Raise e => Raise e end, Cipher x2 (c_dec c))
  end.
(** decrypt, CU 61-64; it finalizes the encrypter, not the decrypter (CU 62) *)
Definition cipher_decrypt (a : block_cipher) (data : bytes) (c : cipher) : res bytes * cipher :=
  let (r1, x1) := update (dec_step a) data (c_dec c) in
  match r1 with
  | Raise e => (Raise e, Cipher (c_enc c) x1)
  | Ok o1 =>
      let (r2, x2) := finalize (c_enc c) in
      (match r2 with Ok o2 => pkcs7_unpad (o1 ++ o2) | Raise e => Raise e end, Cipher x2 x1)
  end.

(** ** MAC modes *)
Record macmode := MacMode { m_size : nat; m_mac : bytes -> res bytes; m_verify : bytes -> bytes -> res bool }.
(** MAC_HMAC_SHA1, CU 66-78, over the keyed hash [h] *)
Definition hmac_mode (h : bytes -> bytes) : macmode := MacMode 20 (fun d => Ok (h d)) (fun d m => Ok (eqb (h d) m)).
(** RSA_SIGNATURE_MAC, CU 81-124: with a private key, with a public key only
    (the signer is None: calling it is a TypeError), or with another kind of
    key (neither attribute is set) *)
Inductive rsa_key := RsaPrivate (sign : bytes -> bytes) (check : bytes -> bytes -> bool) | RsaPublic (check : bytes -> bytes -> bool) | NotRsa.
Definition rsa_mode (k : rsa_key) : macmode :=
  MacMode 256
    (fun d => match k with RsaPrivate s _ => Ok (s d) | RsaPublic _ => Raise TypeError | NotRsa => Raise AttributeError end)
    (fun d m => match k with RsaPrivate _ v | RsaPublic v => Ok (v d m) | NotRsa => Raise AttributeError end).

(** ** EncryptThenMac, CU 127-144 *)
(** encrypt, CU 136-138 *)
Definition etm_encrypt (a : block_cipher) (m : macmode) (data : bytes) (c : cipher) : res bytes * cipher :=
  let (r, c') := cipher_encrypt a data c in
  (match r with
   | Raise e => Raise e
   | Ok ct => match m_mac m ct with Ok t => Ok (ct ++ t) | Raise e => Raise e end
   end, c').
(** decrypt, CU 140-144; [Ok None] is the returned None *)
Definition etm_decrypt (a : block_cipher) (m : macmode) (data : bytes) (c : cipher) : res (option bytes) * cipher :=
  let n := length data - m_size m in
  let ct := firstn n data in let stored := skipn n data in
  match m_verify m ct stored with
  | Raise e => (Raise e, c)
  | Ok false => (Ok None, c)
  | Ok true => let (r, c') := cipher_decrypt a ct c in (match r with Ok d => Ok (Some d) | Raise e => Raise e end, c')
  end.

(** ** A sequence of calls on one object *)
Inductive call := CEncrypt (d : bytes) | CDecrypt (d : bytes).
Definition etm_call (a : block_cipher) (m : macmode) (k : call) (c : cipher) : res (option bytes) * cipher :=
  match k with
  | CEncrypt d => let (r, c') := etm_encrypt a m d c in (match r with Ok o => Ok (Some o) | Raise e => Raise e end, c')
  | CDecrypt d => etm_decrypt a m d c
  end.
Fixpoint etm_calls (a : block_cipher) (m : macmode) (ks : list call) (c : cipher) : list (res (option bytes)) * cipher :=
  match ks with
  | [] => ([], c)
  | k :: r => let (o, c1) := etm_call a m k c in let (os, c2) := etm_calls a m r c1 in (o :: os, c2)
  end.

(** ** Certificates *)
(** What ValidateCertChainSigs looks at.  [k] is the type of public keys. *)
Record cert (k : Type) := Cert { t_key : k; t_tbs : bytes; t_sig : bytes }.
Arguments Cert {k}. Arguments t_key {k}. Arguments t_tbs {k}. Arguments t_sig {k}.
(** ValidateCertChainSigs, CU 226-232; [None]: the key is not an RSA key, the
    RSA_SIGNATURE_MAC object has no verifier (CU 84-90) *)
Fixpoint validate_chain {k} (rsa : k -> option (bytes -> bytes -> bool)) (certs : list (cert k)) : res bool :=
  match certs with
  | this :: ((nxt :: _) as r) =>
      match rsa (t_key nxt) with
      | None => Raise AttributeError
      | Some verify => if verify (t_tbs this) (t_sig this) then validate_chain rsa r else Ok false
      end
  | _ => Ok true
  end.
(** getCertIssuer, getCertSubject, CU 205-219: names and values in order *)
Definition cert_names (attrs : list (pystr * pystr)) : dict pystr pystr :=
  fold_left (fun d p => dset d (fst p) (snd p)) attrs [].
