(** * Model of network/packet/encoders/PacketFramingStream.py (PFS).
    The underlying stream is io.BytesIO with peek (UpdateableBytesIO), modelled
    in StreamModel.v; it is what PacketType.py serialises to and what the
    Deserializer reads from. *)
From Coq Require Import List ZArith Bool.
From Verif Require Import PyBase StreamModel.
Import ListNotations.
Open Scope Z_scope.

(** PFS 40-44 *)
Definition MAGIC : bytes := [5; 8; 13; 21].
Definition REV_MAGIC : bytes := [81; 208; 128; 80].
Definition PREFIX_SIZE : Z := 12.
Definition SUFFIX_SIZE : Z := 12.

(** zlib.adler32(data, start) (standard library) *)
Definition adler_mod : Z := 65521.
Definition adler_step (s : Z) (x : Z) : Z :=
  let a := (s mod 65536 + x) mod adler_mod in
  let b := (s / 65536 + a) mod adler_mod in
  b * 65536 + a.
Definition adler32 (data : bytes) (start : Z) : Z := fold_left adler_step data start.
(** struct.unpack("!I", b)[0] *)
Definition unpack4 (b : bytes) : res Z :=
  if zlen b =? 4 then Ok (be_dec b) else Raise StructError.

(** The adapter, PFS 46-52; [fa_size] is _dataSize (None possible) *)
Record adapter := Adapter { fa_stream : bio; fa_start : Z; fa_size : option Z;
                            fa_startChecked : bool; fa_endChecked : bool }.
Definition with_stream (a : adapter) (b : bio) : adapter :=
  Adapter b (fa_start a) (fa_size a) (fa_startChecked a) (fa_endChecked a).
Definition at_pos (b : bio) (p : Z) : bio := Bio (b_data b) p.

(** _rawStreamSize, 64-69, and _rawAvailable, 71-77: the position is restored *)
Definition raw_size (a : adapter) : Z := zlen (b_data (fa_stream a)) - fa_start a.
Definition raw_available (b : bio) : Z := zlen (b_data b) - b_pos b.
(** the loop of _fail, 59-61; every iteration consumes a byte, so [fuel] =
    bytes available suffices *)
Fixpoint skip_to_magic (fuel : nat) (b : bio) : bio :=
  match fuel with
  | O => b
  | S f => if (4 <=? raw_available b) && negb (eqb (ubio_peek 4 b) MAGIC)
           then skip_to_magic f (snd (bio_read 1 b))
           else b
  end.
(** _fail, 54-62 *)
Definition fail {A} (a : adapter) : adapter * res A :=
  (with_stream a (skip_to_magic (Z.to_nat (raw_available (fa_stream a))) (fa_stream a)), Raise FramingError).

(** _checkStreamStart, 79-104 *)
Definition check_start (a : adapter) : adapter * res unit :=
  if fa_startChecked a then (a, Ok tt) else
  let b := at_pos (fa_stream a) (fa_start a) in
  let a := with_stream a b in
  if raw_available b <? PREFIX_SIZE
  then (Adapter b (fa_start a) None (fa_startChecked a) (fa_endChecked a), Ok tt)
  else
    let prefix := ubio_peek PREFIX_SIZE b in
    let magic := pyslice prefix 0 4 in
    let sizeBytes := pyslice prefix 4 8 in
    let checkBytes := pyslice prefix 8 12 in
    if negb (eqb magic MAGIC) then fail a
    else
      let check := adler32 magic 1 in
      match unpack4 sizeBytes with
      | Raise e => (a, Raise e)
      | Ok size =>
          let check := adler32 sizeBytes check in
          match unpack4 checkBytes with
          | Raise e => (a, Raise e)
          | Ok cmpCheck =>
              if negb (cmpCheck =? check) then fail a
              else (Adapter (snd (bio_read PREFIX_SIZE b)) (fa_start a) (Some size) true (fa_endChecked a), Ok tt)
          end
      end.

(** _checkStreamEnd, 106-134 *)
Definition check_end (a : adapter) : adapter * res unit :=
  match fa_size a with
  | None => (a, Ok tt)
  | Some dataSize =>
      if fa_endChecked a then (a, Ok tt)
      else if PREFIX_SIZE + dataSize + SUFFIX_SIZE <=? raw_size a then
        let curPos := b_pos (fa_stream a) in
        let b := at_pos (fa_stream a) (fa_start a + PREFIX_SIZE + dataSize) in
        let '(checkBytes, b) := bio_read 4 b in
        match unpack4 checkBytes with
        | Raise e => (with_stream a b, Raise e)
        | Ok cmpCheck =>
            let '(sizeBytes, b) := bio_read 4 b in
            match unpack4 sizeBytes with
            | Raise e => (with_stream a b, Raise e)
            | Ok size =>
                if negb (size =? dataSize) then fail (with_stream a b)
                else
                  let '(magic, b) := bio_read 4 b in
                  if negb (eqb magic REV_MAGIC) then fail (with_stream a b)
                  else
                    let check := adler32 magic (adler32 sizeBytes 1) in
                    if negb (cmpCheck =? check) then fail (with_stream a b)
                    else (Adapter (at_pos b curPos) (fa_start a) (Some dataSize) (fa_startChecked a) true, Ok tt)
            end
        end
      else (a, Ok tt)
  end.

(** __init__, 46-52 *)
Definition adapter_new (b : bio) : adapter * res unit :=
  let a := Adapter b (b_pos b) None false false in
  match check_start a with
  | (a, Raise e) => (a, Raise e)
  | (a, Ok _) => check_end a
  end.

(** available, 136-150.  seek(-12, SEEK_END) stops at 0 *)
Definition fa_available (a : adapter) : Z :=
  if PREFIX_SIZE + SUFFIX_SIZE <=? raw_size a
  then Z.max 0 (zlen (b_data (fa_stream a)) - SUFFIX_SIZE) - b_pos (fa_stream a)
  else 0.
(** tell, 168-177 *)
Definition fa_tell (a : adapter) : Z :=
  if raw_size a <? PREFIX_SIZE + SUFFIX_SIZE then 0
  else Z.max 0 (b_pos (fa_stream a) - fa_start a - PREFIX_SIZE).

(** read, 179-201, for count >= 0 *)
Definition fa_read (count : Z) (a : adapter) : adapter * res bytes :=
  match check_start a with
  | (a, Raise e) => (a, Raise e)
  | (a, Ok _) =>
      match check_end a with
      | (a, Raise e) => (a, Raise e)
      | (a, Ok _) =>
          if negb (fa_startChecked a) then fail a
          else match fa_size a with
               | None => (a, Raise TypeError)
               | Some dataSize =>
                   let readMin := fa_start a + PREFIX_SIZE in
                   let readMax := if fa_endChecked a then readMin + dataSize
                                  else Z.max 0 (zlen (b_data (fa_stream a)) - 1) in
                   let readStart := b_pos (fa_stream a) in
                   if (readStart <? readMin) || (readMax <? readStart) then (a, Raise GenericException)
                   else if fa_available a <? count then
                     if count =? 1 then (a, Raise GenericException)
                     else let '(d, b) := bio_read (fa_available a) (fa_stream a) in (with_stream a b, Ok d)
                   else let '(d, b) := bio_read count (fa_stream a) in (with_stream a b, Ok d)
               end
      end
  end.

(** write, 203-233 *)
Definition fa_write (data : bytes) (a : adapter) : adapter * res unit :=
  if fa_endChecked a then (a, Raise GenericException)
  else
    let put a b dataSize :=
      let b := bio_write data b in
      let estSize := b_pos b - fa_start a - PREFIX_SIZE in
      (Adapter b (fa_start a) (Some (if dataSize <? estSize then estSize else dataSize)) true (fa_endChecked a), Ok tt) in
    if fa_startChecked a then
      match fa_size a with
      | Some s => put a (fa_stream a) s
      | None => (a, Raise TypeError)
      end
    else if fa_start a + PREFIX_SIZE <? b_pos (fa_stream a) then (a, Raise GenericException)
    else
      let b := at_pos (fa_stream a) (fa_start a) in
      let b := bio_write MAGIC (bio_write MAGIC (bio_write MAGIC b)) in
      put a b 0.

(** writeFrame, 235-254 *)
Definition fa_write_frame (a : adapter) : adapter * res unit :=
  if fa_endChecked a then (a, Raise GenericException)
  else
    let b := at_pos (fa_stream a) (fa_start a + 4) in
    let check := adler32 MAGIC 1 in
    match fa_size a with
    | None => (with_stream a b, Raise StructError)
    | Some s =>
        match pack_u 4 s with
        | Raise e => (with_stream a b, Raise e)
        | Ok sizeBytes =>
            let check := adler32 sizeBytes check in
            let b := bio_write (be_enc 4 check) (bio_write sizeBytes b) in
            let b := at_pos b (fa_start a + PREFIX_SIZE + s) in
            let check := adler32 REV_MAGIC (adler32 sizeBytes 1) in
            let b := bio_write REV_MAGIC (bio_write sizeBytes (bio_write (be_enc 4 check) b)) in
            (Adapter b (fa_start a) (Some s) (fa_startChecked a) true, Ok tt)
        end
    end.

(** closeFrame, 256-263 *)
Definition fa_close_frame (a : adapter) : adapter * res unit :=
  if negb (fa_endChecked a) then fail a
  else match fa_size a with
       | None => (a, Raise TypeError)
       | Some s => (with_stream a (at_pos (fa_stream a) (fa_start a + PREFIX_SIZE + s + SUFFIX_SIZE)), Ok tt)
       end.
