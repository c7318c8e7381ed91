(** * Model of MinimumCopyingStreamIO with seek, tell, close, memsize
    (common/io/HighPerformanceStreamIO.py 38-223).  The buffers, read, peek,
    update and available are those of StreamModel.v. *)
From Coq Require Import List ZArith Bool.
From Verif Require Import PyBase StreamModel.
Import ListNotations.
Open Scope Z_scope.

(** io.SEEK_SET = 0, io.SEEK_CUR = 1, io.SEEK_END = 2 (other values of whence
    leave newStreamPosition unbound, line 208) *)
Definition SEEK_SET : Z := 0.
Definition SEEK_CUR : Z := 1.
Definition SEEK_END : Z := 2.

Inductive merr := EValue | EOS | EType | EIndex | EUnbound.
Inductive mret := MNone | MBytes (d : bytes) | MStr | MInt (n : Z) | MBool (b : bool) | MErr (e : merr).

(** the object: StreamModel.mcs and __closed *)
Record mst := Mst { k_io : mcs; k_closed : bool }.

(** __init__, 60-73: initialBuffer None, or some bytes (b"" included: the test
    is == None) *)
Definition mst_new (initialBuffer : option bytes) (seekable : bool) : mst :=
  match initialBuffer with
  | None => Mst (Mcs [] [] 0 0 seekable) false
  | Some b => Mst (Mcs [b] [0] (zlen b) 0 seekable) false
  end.

Definition set_pos (p : Z) (m : mcs) : mcs :=
  Mcs (m_buffers m) (m_bufferPos m) (m_streamEnd m) p (m_seekable m).

(** close, 92-96: the position and the end of the stream stay *)
Definition mst_close (s : mst) : mst :=
  let m := k_io s in
  Mst (Mcs [] [] (m_streamEnd m) (m_pos m) (m_seekable m)) true.

(** seek, 193-208; line 202 adds [whence], not [offset] *)
Definition mst_seek (offset whence : Z) (s : mst) : mst * mret :=
  let m := k_io s in
  if k_closed s then (s, MErr EValue)                                   (* 194, 98-100 *)
  else if negb (m_seekable m) then (s, MErr EOS)                        (* 195-196 *)
  else if whence =? SEEK_SET then                                       (* 197-200 *)
    if offset <? 0 then (s, MErr EValue)
    else (Mst (set_pos offset m) (k_closed s), MNone)
  else if whence =? SEEK_CUR then                                       (* 201-202 *)
    (Mst (set_pos (m_pos m + whence) m) (k_closed s), MNone)
  else if whence =? SEEK_END then                                       (* 203-207 *)
    match m_buffers m with
    | [] => (Mst (set_pos 0 m) (k_closed s), MNone)
    | _ => (Mst (set_pos (m_streamEnd m + offset) m) (k_closed s), MNone)
    end
  else (s, MErr EUnbound).                                              (* 208 *)

(** tell, 210-213 *)
Definition mst_tell (s : mst) : mret :=
  if negb (m_seekable (k_io s)) then MErr EOS else MInt (m_pos (k_io s)).

(** memsize, 219-223: bufferData is a bytes object, bufferData[1] an int *)
Definition mst_memsize (s : mst) : mret :=
  match m_buffers (k_io s) with
  | [] => MInt 0
  | b :: _ => match nth_error b 1 with
              | None => MErr EIndex                (* bufferData[1]: index out of range *)
              | Some _ => MErr EType               (* len(int) *)
              end
  end.

Definition of_opt (r : option bytes) : mret := match r with Some d => MBytes d | None => MStr end.

(** the calls of a client; update, read, read1, peek, available (87-90,
    115-191) do not look at __closed *)
Inductive mop := MUpdate (d : bytes) | MRead (n : Z) | MPeek (n : Z) | MAvail
  | MSeek (offset whence : Z) | MTell | MClose | MClosed | MMemsize.
Definition mst_step (o : mop) (s : mst) : mst * mret :=
  match o with
  | MUpdate d => (Mst (mcs_update d (k_io s)) (k_closed s), MNone)
  | MRead n => let (r, m) := mcs_read n (k_io s) in (Mst m (k_closed s), of_opt r)
  | MPeek n => (s, of_opt (mcs_peek n (k_io s)))
  | MAvail => (s, MInt (mcs_available (k_io s)))
  | MSeek off wh => mst_seek off wh s
  | MTell => (s, mst_tell s)
  | MClose => (mst_close s, MNone)
  | MClosed => (s, MBool (k_closed s))              (* 102-104 *)
  | MMemsize => (s, mst_memsize s)
  end.
Fixpoint mst_run (os : list mop) (s : mst) : mst * list mret :=
  match os with
  | [] => (s, [])
  | o :: r => let (s1, x) := mst_step o s in let (s2, xs) := mst_run r s1 in (s2, x :: xs)
  end.
