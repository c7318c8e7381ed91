(** * Specification of MinimumCopyingStreamIO: the chunks it still holds, laid
    out one after the other from [a_start] in the stream, and a position. *)
From Coq Require Import List ZArith Bool.
From Verif Require Import PyBase MincopyModel.
Import ListNotations.
Open Scope Z_scope.

Record ast := Ast { a_start : Z; a_held : list bytes; a_pos : Z; a_closed : bool }.

Definition a_all (a : ast) : bytes := concat (a_held a).
(** the end of the stream, and the number of bytes after the position *)
Definition a_end (a : ast) : Z := a_start a + zlen (a_all a).
Definition a_avail (a : ast) : Z := a_end a - a_pos a.
(** is there a byte at the position? *)
Definition a_in (a : ast) : bool := (a_start a <=? a_pos a) && (a_pos a <? a_end a).
(** the bytes from the position on *)
Definition a_rest (a : ast) : bytes := skipn (Z.to_nat (a_pos a - a_start a)) (a_all a).

(** how many bytes are left, from offset [q] on, in the chunk [q] lies in *)
Fixpoint left_in_chunk (q : Z) (held : list bytes) : Z :=
  match held with
  | [] => 0
  | c :: r => if q <? zlen c then zlen c - q else left_in_chunk (q - zlen c) r
  end.
Definition a_left (a : ast) : Z := left_in_chunk (a_pos a - a_start a) (a_held a).

(** how many bytes a call read(n) or peek(n), n >= 0, gives *)
Definition want (n avail : Z) : Z := if (n =? 0) || (avail <? n) then avail else n.

(** what read(n)/peek(n) gives: the rest of the stream for n = -1; otherwise
    [want] bytes, taken from the rest of the current chunk and then AGAIN FROM
    THE FIRST HELD CHUNK ON. *)
Definition a_get (n : Z) (a : ast) : mret :=
  if negb (a_in a) then MStr
  else if n =? -1 then MBytes (a_rest a)
  else MBytes (firstn (Z.to_nat (want n (a_avail a)))
                 (firstn (Z.to_nat (a_left a)) (a_rest a) ++ a_all a)).
(** what it should give *)
Definition a_good (n : Z) (a : ast) : bytes :=
  if n =? -1 then a_rest a else firstn (Z.to_nat (want n (a_avail a))) (a_rest a).

(** forgetting the chunks that end at or before offset [q] *)
Fixpoint forget (q start : Z) (held : list bytes) : Z * list bytes :=
  match held with
  | [] => (start, [])
  | c :: r => if q <? zlen c then (start, held) else forget (q - zlen c) (start + zlen c) r
  end.
(** a non-seekable stream forgets, after each read, what is behind the
    position; everything if the position lies before all it holds *)
Definition a_release (a : ast) : ast :=
  if a_pos a <? a_start a then Ast (a_end a) [] (a_pos a) (a_closed a)
  else let (st, h) := forget (a_pos a - a_start a) (a_start a) (a_held a) in
       Ast st h (a_pos a) (a_closed a).

Definition a_move (k : Z) (a : ast) : ast := Ast (a_start a) (a_held a) (a_pos a + k) (a_closed a).
Definition a_goto (p : Z) (a : ast) : ast := Ast (a_start a) (a_held a) p (a_closed a).
Definition got (r : mret) : Z := match r with MBytes d => zlen d | _ => 0 end.

Definition a_step (seekable : bool) (o : mop) (a : ast) : ast * mret :=
  match o with
  | MUpdate d => (Ast (a_start a) (a_held a ++ [d]) (a_pos a) (a_closed a), MNone)
  | MRead n => let a1 := a_move (got (a_get n a)) a in
               (if seekable then a1 else a_release a1, a_get n a)
  | MPeek n => (a, a_get n a)
  | MAvail => (a, MInt (a_avail a))
  | MSeek off wh =>
      if a_closed a then (a, MErr EValue)
      else if negb seekable then (a, MErr EOS)
      else if wh =? 0 then if off <? 0 then (a, MErr EValue) else (a_goto off a, MNone)
      else if wh =? 1 then (a_goto (a_pos a + 1) a, MNone)
      else if wh =? 2 then
        (a_goto (match a_held a with [] => 0 | _ => a_end a + off end) a, MNone)
      else (a, MErr EUnbound)
  | MTell => (a, if seekable then MInt (a_pos a) else MErr EOS)
  | MClose => (Ast (a_end a) [] (a_pos a) true, MNone)
  | MClosed => (a, MBool (a_closed a))
  | MMemsize => (a, match a_held a with
                    | [] => MInt 0
                    | c :: _ => if zlen c <? 2 then MErr EIndex else MErr EType
                    end)
  end.
Fixpoint a_run (seekable : bool) (os : list mop) (a : ast) : ast * list mret :=
  match os with
  | [] => (a, [])
  | o :: r => let (a1, x) := a_step seekable o a in let (a2, xs) := a_run seekable r a1 in (a2, x :: xs)
  end.

(** sizes given to read and peek are -1 or not negative *)
Definition sized (o : mop) : Prop := match o with MRead n | MPeek n => -1 <= n | _ => True end.

Definition a_new (initialBuffer : option bytes) : ast :=
  Ast 0 (match initialBuffer with None => [] | Some b => [b] end) 0 false.

(** the bytes given to update() in a history; those got by read() *)
Definition m_put (os : list mop) : bytes :=
  flat_map (fun o => match o with MUpdate d => d | _ => [] end) os.
Fixpoint m_got (os : list mop) (rs : list mret) : bytes :=
  match os, rs with
  | MRead _ :: os', MBytes d :: rs' => d ++ m_got os' rs'
  | _ :: os', _ :: rs' => m_got os' rs'
  | _, _ => []
  end.
(** histories of a plain reader: update, read, peek, available, tell, closed *)
Definition plain (o : mop) : Prop :=
  match o with MSeek _ _ | MClose => False | _ => True end.
