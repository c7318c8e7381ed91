(** * Specification: a first-in first-out queue of bytes *)
From Coq Require Import List ZArith Bool.
From Verif Require Import PyBase StreamModel.
Import ListNotations.
Open Scope Z_scope.

(** the first n bytes, all of them if n is negative *)
Definition q_front (n : Z) (q : bytes) : bytes := if n <? 0 then q else firstn (Z.to_nat n) q.
Definition q_step (o : sop) (q : bytes) : bytes * sret :=
  match o with
  | SUpdate d => (q ++ d, RNone)
  | SRead n => (skipn (length (q_front n q)) q, RBytes (q_front n q))
  | SPeek n => (q, RBytes (if n =? 0 then q else q_front n q))
  | SAvail => (q, RInt (zlen q))
  end.
Fixpoint q_run (os : list sop) (q : bytes) : bytes * list sret :=
  match os with
  | [] => (q, [])
  | o :: r => let (q1, x) := q_step o q in let (q2, xs) := q_run r q1 in (q2, x :: xs)
  end.

(** all bytes put in, and all bytes got out by read, of a history *)
Definition put_in (os : list sop) : bytes :=
  flat_map (fun o => match o with SUpdate d => d | _ => [] end) os.
Fixpoint got_out (os : list sop) (rs : list sret) : bytes :=
  match os, rs with
  | SRead _ :: os', RBytes d :: rs' => d ++ got_out os' rs'
  | _ :: os', _ :: rs' => got_out os' rs'
  | _, _ => []
  end.

(** A queue that remembers the chunks it was given; [c_ok] are the operations
    that do not ask for bytes of two different chunks. *)
Definition chunks := list bytes.
Definition c_put (d : bytes) (c : chunks) : chunks := match d with [] => c | _ => c ++ [d] end.
Definition c_ok (o : sop) (c : chunks) : Prop :=
  match o with
  | SRead n | SPeek n =>
      n = -1 \/ match c with [] => True | h :: r => 1 <= n <= zlen h \/ (r = [] /\ 1 <= n) end
  | _ => True
  end.
Definition c_take (n : Z) (c : chunks) : option bytes :=
  match c with
  | [] => None
  | h :: r => Some (if n =? -1 then concat c else firstn (Z.to_nat n) h)
  end.
Definition c_drop (n : Z) (c : chunks) : chunks :=
  match c with
  | [] => []
  | h :: r => if n =? -1 then [] else
              match skipn (Z.to_nat n) h with [] => r | h' => h' :: r end
  end.
Definition c_step (o : sop) (c : chunks) : chunks * sret :=
  match o with
  | SUpdate d => (c_put d c, RNone)
  | SRead n => (c_drop n c, mcs_ret (c_take n c))
  | SPeek n => (c, mcs_ret (c_take n c))
  | SAvail => (c, RInt (zlen (concat c)))
  end.
Fixpoint c_run (os : list sop) (c : chunks) : chunks * list sret :=
  match os with
  | [] => (c, [])
  | o :: r => let (c1, x) := c_step o c in let (c2, xs) := c_run r c1 in (c2, x :: xs)
  end.
Fixpoint c_ok_all (os : list sop) (c : chunks) : Prop :=
  match os with [] => True | o :: r => c_ok o c /\ c_ok_all r (fst (c_step o c)) end.
