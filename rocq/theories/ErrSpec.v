(** * What the error transport should do *)
From Coq Require Import List ZArith Bool.
From Verif Require Import PyBase ErrModel.
Import ListNotations.
Open Scope Z_scope.

(** complement the bytes whose position, counted from [pos], was drawn *)
Fixpoint flipped (drawn : list Z) (pos : Z) (data : bytes) : bytes :=
  match data with
  | [] => []
  | b :: r => (if smem drawn pos then Z.lxor b 255 else b) :: flipped drawn (pos + 1) r
  end.
(** The stream is divided into windows; a window ends with the first write that
    takes it beyond [horizon] bytes, and the next one has its own draws.  The
    outputs of a sequence of writes (each with the draws used if a window
    starts after it). *)
Fixpoint windows (horizon : Z) (drawn : list Z) (pos : Z) (ws : list (bytes * list Z)) : list bytes :=
  match ws with
  | [] => []
  | (data, next) :: r =>
      flipped drawn pos data ::
      (if horizon <? pos + zlen data then windows horizon next 0 r else windows horizon drawn (pos + zlen data) r)
  end.
(** number of positions in which two byte strings differ *)
Fixpoint differences (a b : bytes) : nat :=
  match a, b with
  | x :: a', y :: b' => ((if (x =? y)%Z then 0 else 1) + differences a' b')%nat
  | _, _ => 0%nat
  end.
(** results random.randint(0, horizon) can give, [rate] of them *)
Definition draws_ok (set : Z * Z) (d : list Z) : Prop :=
  zlen d = Z.max 0 (fst set) /\ Forall (fun x => 0 <= x <= snd set) d.
