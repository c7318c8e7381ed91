(** * Model of float values and their wire format: FloatFieldType,
    network/packet/fieldtypes/FloatFieldType.py, and FloatEncoder,
    network/packet/encoders/PlaygroundStandardPacketEncoder.py 158-173.

    A Python float is the bit pattern of an IEEE 754 double.  struct's "!d" writes
    that pattern; "!f" converts to a single as C does (round to nearest, ties to
    even; CPython 3.6 floatobject.c, _PyFloat_Pack4 and _PyFloat_Unpack4).  A NaN
    keeps the leading bits of its payload and becomes quiet, as the hardware
    conversions do. *)
From Coq Require Import ZArith Bool.
From Verif Require Import PyBase.
Open Scope Z_scope.

Definition f64_neg (b : Z) : Z := if 2 ^ 63 <=? b then 1 else 0.
Definition f64_exp (b : Z) : Z := (b / 2 ^ 52) mod 2 ^ 11.
Definition f64_man (b : Z) : Z := b mod 2 ^ 52.
Definition f32_neg (c : Z) : Z := if 2 ^ 31 <=? c then 1 else 0.
Definition f32_exp (c : Z) : Z := (c / 2 ^ 23) mod 2 ^ 8.
Definition f32_man (c : Z) : Z := c mod 2 ^ 23.

(** m / 2^s, rounded to nearest, ties to even *)
Definition rne (m s : Z) : Z :=
  let q := m / 2 ^ s in
  let r := m mod 2 ^ s in
  if 2 * r <? 2 ^ s then q else if 2 ^ s <? 2 * r then q + 1 else q + q mod 2.
(** (float)x, and _PyFloat_Pack4's check for overflow *)
Definition to_single (b : Z) : res Z :=
  let e := f64_exp b in
  let f := f64_man b in
  let sg := f64_neg b * 2 ^ 31 in
  if e =? 2047 then
    Ok (sg + 255 * 2 ^ 23 + (if f =? 0 then 0 else Z.lor (2 ^ 22) (f / 2 ^ 29)))
  else
    let m := if e =? 0 then f else 2 ^ 52 + f in
    let x := Z.max e 1 in
    let r := if 897 <=? x then (x - 897) * 2 ^ 23 + rne m 29 else rne m (29 + (897 - x)) in
    if 255 * 2 ^ 23 <=? r then Raise OverflowError else Ok (sg + r).
(** (double)x *)
Definition to_double (c : Z) : Z :=
  let e := f32_exp c in
  let f := f32_man c in
  let sg := f32_neg c * 2 ^ 63 in
  if e =? 255 then sg + 2047 * 2 ^ 52 + (if f =? 0 then 0 else Z.lor (2 ^ 51) (f * 2 ^ 29))
  else if e =? 0 then
    if f =? 0 then sg
    else let k := Z.log2 f in sg + (k + 874) * 2 ^ 52 + (f * 2 ^ (52 - k) - 2 ^ 52)
  else sg + (e + 896) * 2 ^ 52 + f * 2 ^ 29.

(** x <= n and n <= x for a float x and an integer n: exact, and false for a NaN.
    [f64_scaled b] is a finite float times 2^1074, an integer. *)
Definition f64_scaled (b : Z) : Z :=
  let m := if f64_exp b =? 0 then f64_man b else (2 ^ 52 + f64_man b) * 2 ^ (f64_exp b - 1) in
  if f64_neg b =? 0 then m else - m.
Definition f64_le_int (b n : Z) : bool :=
  if f64_exp b =? 2047 then (f64_man b =? 0) && negb (f64_neg b =? 0)
  else f64_scaled b <=? n * 2 ^ 1074.
Definition int_le_f64 (n b : Z) : bool :=
  if f64_exp b =? 2047 then (f64_man b =? 0) && (f64_neg b =? 0)
  else n * 2 ^ 1074 <=? f64_scaled b.

(** x == n and x == y, exact; a NaN equals nothing *)
Definition f64_eq_int (b n : Z) : bool := f64_le_int b n && int_le_f64 n b.
Definition f64_eq (a b : Z) : bool :=
  if f64_exp a =? 2047 then
    (f64_man a =? 0) && ((f64_exp b =? 2047) && ((f64_man b =? 0) && (f64_neg a =? f64_neg b)))
  else negb (f64_exp b =? 2047) && (f64_scaled a =? f64_scaled b).
(** bool(x): a NaN is true *)
Definition f64_true (b : Z) : bool := negb ((f64_exp b =? 0) && (f64_man b =? 0)).
(** int(x): toward zero; OverflowError for an infinity, ValueError for a NaN *)
Definition f64_trunc (b : Z) : res Z :=
  if f64_exp b =? 2047 then Raise (if f64_man b =? 0 then OverflowError else ValueError)
  else Ok (Z.quot (f64_scaled b) (2 ^ 1074)).
(** float(n): to nearest, ties to even (CPython longobject.c, PyLong_AsDouble) *)
Definition int_to_double (n : Z) : res Z :=
  let m := Z.abs n in
  let k := Z.log2 m in
  let w := if m =? 0 then 0
           else (k + 1022) * 2 ^ 52 + (if k <=? 52 then m * 2 ^ (52 - k) else rne m (k - 52)) in
  if 2047 * 2 ^ 52 <=? w then Raise OverflowError else Ok ((if n <? 0 then 2 ^ 63 else 0) + w).
