(** * Floats, for the specification: IEEE 754 patterns and the numbers they
    stand for.  All numbers are counted in units of 2^-1074, the least positive
    double, so that they are integers. *)
From Coq Require Import ZArith Bool.
Open Scope Z_scope.

(** a pattern with [p] fraction bits, without its sign bit *)
Definition magnitude (p w : Z) : Z :=
  if w <? 2 ^ p then w else (2 ^ p + w mod 2 ^ p) * 2 ^ (w / 2 ^ p - 1).
Definition signed (neg : bool) (z : Z) : Z := if neg then - z else z.
(** doubles: 1 sign bit, 11 exponent bits, 52 fraction bits *)
Definition is_double (b : Z) : Prop := 0 <= b < 2 ^ 64.
Definition inf64 : Z := 2047 * 2 ^ 52.
Definition neg64 (b : Z) : bool := 2 ^ 63 <=? b.
Definition abs64 (b : Z) : Z := b mod 2 ^ 63.
Definition finite64 (b : Z) : Prop := abs64 b < inf64.
Definition nan64 (b : Z) : Prop := inf64 < abs64 b.
Definition val64 (b : Z) : Z := signed (neg64 b) (magnitude 52 (abs64 b)).
(** singles: 1, 8, 23; the least positive single is 2^-149 *)
Definition is_single (c : Z) : Prop := 0 <= c < 2 ^ 32.
Definition inf32 : Z := 255 * 2 ^ 23.
Definition neg32 (c : Z) : bool := 2 ^ 31 <=? c.
Definition abs32 (c : Z) : Z := c mod 2 ^ 31.
Definition finite32 (c : Z) : Prop := abs32 c < inf32.
Definition nan32 (c : Z) : Prop := inf32 < abs32 c.
Definition val32 (c : Z) : Z := signed (neg32 c) (magnitude 23 (abs32 c) * 2 ^ 925).

(** [c] is the single nearest to the double [b], the even one of two; it has the
    sign of [b] *)
Definition nearest_single (b c : Z) : Prop :=
  is_single c /\ finite32 c /\ neg32 c = neg64 b /\
  forall c', is_single c' -> finite32 c' ->
    Z.abs (val64 b - val32 c) <= Z.abs (val64 b - val32 c') /\
    (Z.abs (val64 b - val32 c) = Z.abs (val64 b - val32 c') -> val32 c' <> val32 c -> Z.even c = true).
(** the double [b] is the single [c]: same sign, same number, same infinity, or
    both NaNs, [b] the quiet one with the payload of [c] *)
Definition same_float (b c : Z) : Prop :=
  is_double b /\ is_single c /\ neg64 b = neg32 c /\
  ((finite64 b /\ finite32 c /\ val64 b = val32 c) \/
   (abs64 b = inf64 /\ abs32 c = inf32) \/
   (nan32 c /\ abs64 b = inf64 + Z.lor (2 ^ 51) ((abs32 c - inf32) * 2 ^ 29))).
(** the double is exactly a single (and, if a NaN, a quiet one) *)
Definition exact_single (b : Z) : Prop :=
  exists c, same_float b c /\ (nan32 c -> inf32 + 2 ^ 22 <= abs32 c).
(** The least absolute value that is too large for a single: half way between the
    largest one, (2^24-1) * 2^104, and 2^128 *)
Definition overflow32 : Z := (2 ^ 25 - 1) * 2 ^ (103 + 1074).
(** a float is at most, or at least, an integer; a NaN is neither *)
Definition at_most (b n : Z) : Prop := (finite64 b /\ val64 b <= n * 2 ^ 1074) \/ (abs64 b = inf64 /\ neg64 b = true).
Definition at_least (b n : Z) : Prop := (finite64 b /\ n * 2 ^ 1074 <= val64 b) \/ (abs64 b = inf64 /\ neg64 b = false).

(** the same number, or the same infinity *)
Definition equal_floats (a b : Z) : Prop :=
  (finite64 a /\ finite64 b /\ val64 a = val64 b) \/ (abs64 a = inf64 /\ abs64 b = inf64 /\ neg64 a = neg64 b).
(** [b] is the double nearest to the integer [n], the even one of two; 0 gives +0 *)
Definition nearest_double (n b : Z) : Prop :=
  is_double b /\ finite64 b /\ (neg64 b = true <-> n < 0) /\
  forall b', is_double b' -> finite64 b' ->
    Z.abs (n * 2 ^ 1074 - val64 b) <= Z.abs (n * 2 ^ 1074 - val64 b') /\
    (Z.abs (n * 2 ^ 1074 - val64 b) = Z.abs (n * 2 ^ 1074 - val64 b') -> val64 b' <> val64 b -> Z.even b = true).
(** The least integer too large for a double: half way between the largest one
    and 2^1024 *)
Definition overflow64 : Z := (2 ^ 54 - 1) * 2 ^ 970.
(** [n] is the number [b] without its fraction *)
Definition truncates (b n : Z) : Prop :=
  finite64 b /\ Z.abs n * 2 ^ 1074 <= Z.abs (val64 b) < (Z.abs n + 1) * 2 ^ 1074 /\ 0 <= n * val64 b.
