(** * What a frame is (the class comment of PacketFramingStreamAdapter) *)
From Coq Require Import List ZArith Bool.
From Verif Require Import PyBase StreamModel FrameModel.
Import ListNotations.
Open Scope Z_scope.

(** [ MAGIC ] [ X ] [ CRC1 = crc(MAGIC + X) ] *)
Definition frame_header (n : Z) : bytes :=
  [5; 8; 13; 21] ++ be_enc 4 n ++ be_enc 4 (adler32 ([5; 8; 13; 21] ++ be_enc 4 n) 1).
(** [ CRC2 = crc(X + REV_MAGIC) ] [ X ] [ REV_MAGIC ] *)
Definition frame_trailer (n : Z) : bytes :=
  be_enc 4 (adler32 (be_enc 4 n ++ [81; 208; 128; 80]) 1) ++ be_enc 4 n ++ [81; 208; 128; 80].
Definition frame (data : bytes) : bytes :=
  frame_header (zlen data) ++ data ++ frame_trailer (zlen data).

(** [first_magic bs k]: [k] is the first index of [bs] at which the magic
    sequence starts, or, if there is none, the first one with fewer than four
    bytes left *)
Definition first_magic (bs : bytes) (k : nat) : Prop :=
  (firstn 4 (skipn k bs) = [5; 8; 13; 21] \/ zlen (skipn k bs) < 4) /\
  (forall j, (j < k)%nat -> firstn 4 (skipn j bs) <> [5; 8; 13; 21] /\ 4 <= zlen (skipn j bs)).

(** The bytes of the stream from the position on, and a stream as handed out
    by the library: position within the contents *)
Definition unread (b : bio) : bytes := skipn (Z.to_nat (b_pos b)) (b_data b).
Definition stream_ok (b : bio) : Prop := 0 <= b_pos b <= zlen (b_data b) /\ bytes_ok (b_data b).

(** A sequence of writes / reads through the adapter *)
Fixpoint write_all (ds : list bytes) (a : adapter) : adapter * res unit :=
  match ds with
  | [] => (a, Ok tt)
  | d :: r => match fa_write d a with
              | (a', Ok _) => write_all r a'
              | (a', Raise e) => (a', Raise e)
              end
  end.
Fixpoint read_all (ns : list Z) (a : adapter) : adapter * res (list bytes) :=
  match ns with
  | [] => (a, Ok [])
  | n :: r => match fa_read n a with
              | (a', Ok d) => match read_all r a' with
                              | (a'', Ok ds) => (a'', Ok (d :: ds))
                              | (a'', Raise e) => (a'', Raise e)
                              end
              | (a', Raise e) => (a', Raise e)
              end
  end.
(** [d] cut into consecutive pieces of the given sizes *)
Fixpoint pieces (ns : list Z) (d : bytes) : list bytes :=
  match ns with
  | [] => []
  | n :: r => firstn (Z.to_nat n) d :: pieces r (skipn (Z.to_nat n) d)
  end.
Fixpoint zsum (ns : list Z) : Z := match ns with [] => 0 | n :: r => n + zsum r end.

(** [b] is [a] with exactly one byte replaced by another *)
Definition one_byte_changed (a b : bytes) : Prop :=
  exists pre x y post, a = pre ++ x :: post /\ b = pre ++ y :: post /\ x <> y.

(** What may stand at the position where a frame is opened: less than a header,
    or a header, followed by its trailer if that has arrived *)
Definition well_formed_start (rest : bytes) : Prop :=
  zlen rest < 12 \/
  exists n, 0 <= n < 2 ^ 32 /\ firstn 12 rest = frame_header n /\
    (zlen rest < 24 + n \/ firstn 12 (skipn (Z.to_nat (12 + n)) rest) = frame_trailer n).

