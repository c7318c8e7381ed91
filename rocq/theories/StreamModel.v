(** * Model of common/io/HighPerformanceStreamIO.py *)
From Coq Require Import List ZArith Bool.
From Verif Require Import PyBase.
Import ListNotations.
Open Scope Z_scope.

(** Python slice [l[a:b]] with Python's treatment of negative and too large
    indices. *)
Definition clip (n i : Z) : Z := if i <? 0 then Z.max 0 (n + i) else Z.min n i.
Definition pyslice {A} (l : list A) (a b : Z) : list A :=
  let n := zlen l in
  let a' := clip n a in let b' := clip n b in
  firstn (Z.to_nat (b' - a')) (skipn (Z.to_nat a') l).

(** ** io.BytesIO (standard library): contents and position *)
Record bio := Bio { b_data : bytes; b_pos : Z }.
(** BytesIO(initial_bytes) *)
Definition bio_new (init : bytes) : bio := Bio init 0.
Definition bio_seek (p : Z) (b : bio) : res bio :=
  if p <? 0 then Raise ValueError else Ok (Bio (b_data b) p).
Definition bio_seek_end (b : bio) : bio := Bio (b_data b) (zlen (b_data b)).
(** write at the position: zero padding if beyond the end, overwriting otherwise *)
Definition bio_write (d : bytes) (b : bio) : bio :=
  match d with
  | [] => b
  | _ =>
      let p := Z.to_nat (b_pos b) in
      let before := firstn p (b_data b) ++ repeat 0 (p - length (b_data b)) in
      Bio (before ++ d ++ skipn (p + length d) (b_data b)) (b_pos b + zlen d)
  end.
(** read(n): n < 0 means everything *)
Definition bio_read (n : Z) (b : bio) : bytes * bio :=
  let rest := skipn (Z.to_nat (b_pos b)) (b_data b) in
  let out := if n <? 0 then rest else firstn (Z.to_nat n) rest in
  (out, Bio (b_data b) (b_pos b + zlen out)).

(** ** UpdateableBytesIO, lines 18-36 *)
(** update, 19-23 *)
Definition ubio_update (d : bytes) (b : bio) : res bio :=
  let beforeWritePos := b_pos b in
  bio_seek beforeWritePos (bio_write d (bio_seek_end b)).
(** available, 32-36 (the position is restored) *)
Definition ubio_available (b : bio) : Z := zlen (b_data b) - b_pos b.
(** peek, 25-30 *)
Definition ubio_peek (size : Z) (b : bio) : bytes :=
  let size' := if (size =? 0) || (size <? 0) then ubio_available b else size in
  let offset := b_pos b + size' in
  pyslice (b_data b) (b_pos b) offset.

(** A client history: what each call returns *)
Inductive sop := SUpdate (d : bytes) | SRead (n : Z) | SPeek (n : Z) | SAvail.
Inductive sret := RNone | RBytes (d : bytes) | RInt (n : Z) | RExn (e : exn) | REmptyStr.
Definition ubio_step (o : sop) (b : bio) : bio * sret :=
  match o with
  | SUpdate d => match ubio_update d b with Ok b' => (b', RNone) | Raise e => (b, RExn e) end
  | SRead n => let (out, b') := bio_read n b in (b', RBytes out)
  | SPeek n => (b, RBytes (ubio_peek n b))
  | SAvail => (b, RInt (ubio_available b))
  end.
Fixpoint ubio_run (os : list sop) (b : bio) : bio * list sret :=
  match os with
  | [] => (b, [])
  | o :: r => let (b1, x) := ubio_step o b in let (b2, xs) := ubio_run r b1 in (b2, x :: xs)
  end.

(** ** MinimumCopyingStreamIO, lines 38-223 (seek, tell, close, memsize: MincopyModel.v) *)
Record mcs := Mcs { m_buffers : list bytes; m_bufferPos : list Z; m_streamEnd : Z;
                    m_pos : Z; m_seekable : bool }.
(** 60-73, with no initial buffer *)
Definition mcs_new (seekable : bool) : mcs := Mcs [] [] 0 0 seekable.

(** __calculateBufferAndOffset, 75-85; None stands for (-1,-1) *)
Fixpoint calc_loop (idx : nat) (bufs : list bytes) (poss : list Z) (position : Z) : option (nat * Z) :=
  match bufs, poss with
  | b :: br, p :: pr =>
      if position <? p + zlen b then Some (idx, position - p) else calc_loop (S idx) br pr position
  | _, _ => None
  end.
Definition mcs_calc (m : mcs) (position : Z) : option (nat * Z) :=
  match m_buffers m, m_bufferPos m with
  | [], _ => None
  | _, p0 :: _ => if position <? p0 then None else calc_loop 0 (m_buffers m) (m_bufferPos m) position
  | _, [] => None
  end.
(** update, 87-90 *)
Definition mcs_update (d : bytes) (m : mcs) : mcs :=
  Mcs (m_buffers m ++ [d]) (m_bufferPos m ++ [m_streamEnd m]) (m_streamEnd m + zlen d) (m_pos m) (m_seekable m).
(** available, 190-191 *)
Definition mcs_available (m : mcs) : Z := m_streamEnd m - m_pos m.
(** the loop at 146-150, over ALL buffers of the stream *)
Fixpoint peek_loop (bufs : list bytes) (size : Z) (acc : list bytes) : list bytes :=
  match bufs with
  | [] => acc
  | b :: r =>
      if size =? 0 then acc
      else let piece := if zlen b <? size then b else pyslice b 0 size in
           peek_loop r (size - zlen piece) (acc ++ [piece])
  end.
(** peek, 115-153; None is the str '' returned at 117 *)
Definition mcs_peek (size : Z) (m : mcs) : option bytes :=
  match mcs_calc m (m_pos m) with
  | None => None
  | Some (i, off) =>
      let first := nth i (m_buffers m) [] in
      if size =? -1 then
        Some (pyslice first off (zlen first) ++ concat (skipn (S i) (m_buffers m)))   (* 119-126 *)
      else
        let size1 := if (size <=? mcs_available m) && negb (size =? 0) then size else mcs_available m in (* 143 *)
        let b0 := pyslice first off (off + size1) in                                   (* 144 *)
        Some (concat (peek_loop (m_buffers m) (size1 - zlen b0) [b0]))                 (* 145-153 *)
  end.
(** read, 173-185 *)
Definition mcs_read (size : Z) (m : mcs) : option bytes * mcs :=
  let readData := mcs_peek size m in
  let pos' := m_pos m + match readData with Some d => zlen d | None => 0 end in
  let m1 := Mcs (m_buffers m) (m_bufferPos m) (m_streamEnd m) pos' (m_seekable m) in
  (readData,
   if m_seekable m then m1
   else match mcs_calc m1 pos' with
        | None => Mcs [] [] (m_streamEnd m) pos' false
        | Some (i, _) => Mcs (skipn i (m_buffers m)) (skipn i (m_bufferPos m)) (m_streamEnd m) pos' false
        end).

Definition mcs_ret (r : option bytes) : sret := match r with Some d => RBytes d | None => REmptyStr end.
Definition mcs_step (o : sop) (m : mcs) : mcs * sret :=
  match o with
  | SUpdate d => (mcs_update d m, RNone)
  | SRead n => let (out, m') := mcs_read n m in (m', mcs_ret out)
  | SPeek n => (m, mcs_ret (mcs_peek n m))
  | SAvail => (m, RInt (mcs_available m))
  end.
Fixpoint mcs_run (os : list sop) (m : mcs) : mcs * list sret :=
  match os with
  | [] => (m, [])
  | o :: r => let (m1, x) := mcs_step o m in let (m2, xs) := mcs_run r m1 in (m2, x :: xs)
  end.
