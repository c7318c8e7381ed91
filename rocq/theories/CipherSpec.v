(** * What is expected of the cipher utilities *)
From Coq Require Import List ZArith Bool.
From Verif Require Import PyBase CipherModel.
Import ListNotations.
Open Scope nat_scope.

(** A block cipher under a key: a permutation of the 16-byte blocks. *)
Definition block (b : bytes) : Prop := length b = 16 /\ bytes_ok b.
Record good_cipher (a : block_cipher) : Prop := {
  gc_enc : forall b, block b -> block (b_enc a b);
  gc_dec : forall b, block b -> block (b_dec a b);
  gc_dec_enc : forall b, block b -> b_dec a (b_enc a b) = b;
  gc_enc_dec : forall b, block b -> b_enc a (b_dec a b) = b
}.
(** Cipher block chaining, of a list of blocks *)
Fixpoint cbc (enc : bytes -> bytes) (prev : bytes) (ps : list bytes) : list bytes :=
  match ps with [] => [] | p :: r => let c := enc (xor prev p) in c :: cbc enc c r end.
(** [c] is the ciphertext of [d]: [d] is filled up to whole blocks with 1 to 16
    bytes that all give their number, and the blocks are chained. *)
Definition ciphertext (a : block_cipher) (iv d c : bytes) : Prop :=
  exists (n : nat) (ps : list bytes),
    1 <= n <= 16 /\ Forall (fun p => length p = 16) ps /\
    concat ps = d ++ repeat (Z.of_nat n) n /\ c = concat (cbc (b_enc a) iv ps).

(** A MAC that verifies its own tags, which have the stated size. *)
Definition good_mac (m : macmode) : Prop :=
  m_size m > 0 /\
  forall d, bytes_ok d -> exists t, m_mac m d = Ok t /\ length t = m_size m /\ bytes_ok t /\ m_verify m d t = Ok true.
(** A signature chain is valid: every certificate is signed by the key of the next. *)
Definition chain_ok {k} (rsa : k -> option (bytes -> bytes -> bool)) (certs : list (cert k)) : Prop :=
  forall l x y r, certs = l ++ x :: y :: r -> exists v, rsa (t_key y) = Some v /\ v (t_tbs x) (t_sig x) = true.
