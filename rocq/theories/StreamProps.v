(** * C13-C14: HighPerformanceStreamIO.py *)
From Coq Require Import String.
From Coq Require Import List ZArith Bool Lia.
From Verif Require Import PyBase StreamModel StreamSpec StreamProofs.
Import ListNotations.
Open Scope Z_scope.

(** C13. Every call of every history on an UpdateableBytesIO returns what the
    byte queue returns (no call raises). *)
Theorem C13_updateable_is_fifo :
  forall (init : bytes) (os : list sop),
  snd (ubio_run os (bio_new init)) = snd (q_run os init).
Proof.
  intros init os. apply urun. split; [split; [apply Z.le_refl|apply zlen_nonneg]|reflexivity].
Qed.
Print Assumptions C13_updateable_is_fifo.

(** C13. Conservation: bytes read so far, followed by what a final read() would
    return, are the initial bytes followed by all updates; available() is the
    length of the rest. *)
Theorem C13_updateable_conserves_bytes :
  forall (init : bytes) (os : list sop),
  let (b, rets) := ubio_run os (bio_new init) in
  got_out os rets ++ fst (bio_read (-1) b) = init ++ put_in os /\
  ubio_available b = zlen (fst (bio_read (-1) b)) /\
  forall n, n <> 0 -> ubio_peek n b = fst (bio_read n b).
Proof.
  intros init os. destruct (urun os (bio_new init) init) as [[P R] E].
  { split; [split; [apply Z.le_refl|apply zlen_nonneg]|reflexivity]. }
  destruct (ubio_run os (bio_new init)) as [b rets]. simpl in *.
  split; [now rewrite <- (q_conservation os init), E, <- R|]. split.
  - unfold ubio_available. unfold zlen in *. rewrite skipn_length. lia.
  - intros n Hn. pose proof (urel_step (SPeek n) b _ (conj P eq_refl)) as [_ X]. simpl in X.
    inversion X as [Y]. rewrite Y. destruct (Z.eqb_spec n 0); [contradiction|reflexivity].
Qed.
Print Assumptions C13_updateable_conserves_bytes.

(** Finding: peek(0) returns everything although read(0) returns nothing. *)
Theorem C13_peek_zero_refuted :
  exists b : bio, ubio_peek 0 b <> fst (bio_read 0 b).
Proof. exists (bio_new (lit "ab")). vm_compute. discriminate. Qed.
Print Assumptions C13_peek_zero_refuted.

Example ubio_example :
  snd (ubio_run [SUpdate (lit "abc"); SRead 2; SUpdate (lit "de"); SPeek 2; SAvail; SRead (-1); SRead 4] (bio_new [])) =
  [RNone; RBytes (lit "ab"); RNone; RBytes (lit "cd"); RInt 3; RBytes (lit "cde"); RBytes []].
Proof. reflexivity. Qed.

(** C14. A non-seekable MinimumCopyingStreamIO returns the bytes in
    order for histories in which no read or peek asks for bytes of two
    different update() chunks (StreamSpec.c_ok: size -1, or within the first
    pending chunk, or only one chunk pending).  Reads across chunks are wrong, see
    the refutation below; what exactly they return is in MincopyProps.v. *)
Theorem C14_mincopy_in_order :
  forall os : list sop, c_ok_all os [] ->
  let (m, rets) := mcs_run os (mcs_new false) in
  rets = snd (c_run os []) /\
  got_out os rets ++ concat (fst (c_run os [])) = put_in os /\
  mcs_available m = zlen (concat (fst (c_run os []))).
Proof.
  intros os K. destruct (chunk_run os (mcs_new false) [] chunk_new K) as [R E].
  pose proof (c_conservation os [] (Forall_nil _) K) as C. simpl in C.
  destruct (mcs_run os (mcs_new false)) as [m rets]. simpl in *. split; auto. split; [now rewrite E|].
  symmetry. now apply chunk_len.
Qed.
Print Assumptions C14_mincopy_in_order.

(** C14 refuted: a read across two update() chunks duplicates the first one. *)
Theorem C14_mincopy_in_order_refuted :
  exists os : list sop, got_out os (snd (mcs_run os (mcs_new false))) = lit "aba" /\ put_in os = lit "abcd".
Proof. exists [SUpdate (lit "ab"); SUpdate (lit "cd"); SRead 3]. split; reflexivity. Qed.
Print Assumptions C14_mincopy_in_order_refuted.

(** C14, further finding: read(0) consumes the whole stream. *)
Theorem C14_mincopy_read_zero_refuted :
  exists d : bytes, d <> [] /\ snd (mcs_run [SUpdate d; SRead 0; SAvail] (mcs_new false)) = [RNone; RBytes d; RInt 0].
Proof. exists (lit "abc"). split; [discriminate|reflexivity]. Qed.
Print Assumptions C14_mincopy_read_zero_refuted.

Example mincopy_example :
  c_ok_all [SUpdate (lit "abc"); SUpdate []; SUpdate (lit "de"); SRead 2; SRead 1; SRead 2; SRead (-1)] [] /\
  snd (mcs_run [SUpdate (lit "abc"); SUpdate []; SUpdate (lit "de"); SRead 2; SRead 1; SRead 2; SRead (-1)] (mcs_new false)) =
  [RNone; RNone; RNone; RBytes (lit "ab"); RBytes (lit "c"); RBytes (lit "de"); REmptyStr].
Proof. split; [simpl; unfold zlen; simpl; repeat split; auto; right; lia|reflexivity]. Qed.
