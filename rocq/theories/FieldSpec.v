(** * What a user expects of field assignment and of list fields, in words of
      the Python values only *)
From Coq Require Import List ZArith Bool.
From Verif Require Import PyBase FloatSpec FieldModel.
Import ListNotations.
Open Scope Z_scope.

(** The range declared by [KIND({MaxValue: m, MinValue: l, Bits: n})] *)
Definition declared_range (k : kind) (given : dict attr Z) (z : Z) : Prop :=
  (k = KUint -> 0 <= z) /\
  (forall m, dget given AMax = Some m -> z <= m) /\
  (forall m, dget given AMin = Some m -> m <= z) /\
  (forall n, dget given ABits = Some n -> z < 2 ^ n).

(** The same for a float field.  A width limits a float too: without a MaxValue,
    to 2^n - 1. *)
Definition declared_range_f (given : dict attr Z) (b : Z) : Prop :=
  (forall m, dget given AMax = Some m -> at_most b m) /\
  (forall m, dget given AMin = Some m -> at_least b m) /\
  (forall n, dget given ABits = Some n -> dget given AMax = None -> at_most b (2 ^ n - 1)).

(** Declarations covered: each attribute given once, an explicit MaxValue that
    fits the width if both are given, and numeric limits on numbers only. *)
Definition well_declared (k : kind) (given : dict attr Z) : Prop :=
  NoDup (dkeys given) /\
  (forall m n, dget given AMax = Some m -> dget given ABits = Some n -> m < 2 ^ n) /\
  (k <> KUint -> k <> KInt -> k <> KFloat ->
     dget given AMax = None /\ dget given AMin = None /\ dget given ABits = None).

(** what Python takes for false *)
Definition falsy (x : pyobj) : Prop :=
  x = PNone \/ x = PBool false \/ x = PInt 0 \/ x = PStr [] \/ x = PBytes [] \/ exists b, x = PFloat b /\ abs64 b = 0.

(** int(x) is the integer [z] *)
Inductive reads_int : pyobj -> Z -> Prop :=
| ri_int z : reads_int (PInt z) z
| ri_bool b : reads_int (PBool b) (if b then 1 else 0)
| ri_str s z : parse_int s = Ok z -> reads_int (PStr s) z
| ri_bytes s z : parse_int s = Ok z -> reads_int (PBytes s) z
| ri_float b z : truncates b z -> reads_int (PFloat b) z.
(** float(x) is the float [b].  An integer is rounded, and refused if it is too
    large. *)
Inductive reads_float (float_of : pystr -> option Z) : pyobj -> Z -> Prop :=
| rf_float b : reads_float float_of (PFloat b) b
| rf_int z b : Z.abs z < overflow64 -> nearest_double z b -> reads_float float_of (PInt z) b
| rf_true b : finite64 b -> is_double b -> val64 b = 2 ^ 1074 -> reads_float float_of (PBool true) b
| rf_false : reads_float float_of (PBool false) 0
| rf_str s b : float_of s = Some b -> reads_float float_of (PStr s) b
| rf_bytes s b : float_of s = Some b -> reads_float float_of (PBytes s) b.

(** [accepts k given x v]: a field of this type takes the Python value [x] and
    then reads as [v]. *)
Inductive accepts (str_of : pyobj -> pystr) (float_of : pystr -> option Z) (is_sub : nat -> nat -> bool)
    (k : kind) (given : dict attr Z) : pyobj -> pyobj -> Prop :=
| acc_unset : accepts str_of float_of is_sub k given PUnset PUnset
| acc_num x z : k = KUint \/ k = KInt -> x <> PUnset ->
    reads_int x z -> declared_range k given z -> accepts str_of float_of is_sub k given x (PInt z)
| acc_float x b : k = KFloat -> reads_float float_of x b -> declared_range_f given b ->
    accepts str_of float_of is_sub k given x (PFloat b)
| acc_bool x b : k = KBool -> x <> PUnset -> (b = false <-> falsy x) -> accepts str_of float_of is_sub k given x (PBool b)
| acc_str s : k = KString -> accepts str_of float_of is_sub k given (PStr s) (PStr s)
| acc_str_conv x : k = KString -> x <> PUnset -> (forall s, x <> PStr s) ->
    accepts str_of float_of is_sub k given x (PStr (str_of x))
| acc_buf b : k = KBuffer -> accepts str_of float_of is_sub k given (PBytes b) (PBytes b)
| acc_obj c d i : k = KObj c -> is_sub d c = true -> accepts str_of float_of is_sub k given (PObj d i) (PObj d i).

(** ** Packets: a class is a list of named declarations *)
Definition decls := list (pystr * (kind * dict attr Z)).
Definition class_fields (ds : decls) : list (pystr * field) :=
  map (fun d => (fst d, init_field (fst (snd d)) (snd (snd d)))) ds.

Section Pkt.
  Variable str_of : pyobj -> pystr.
  Variable float_of : pystr -> option Z.
  Variable is_sub : nat -> nat -> bool.
  (** Packets obtained by constructing one and then assigning attributes;
      assignments that raised are included. *)
  Inductive pkt_reach (ds : decls) : pkt -> Prop :=
  | pr_init init p : pkt_init str_of float_of is_sub (class_fields ds) init [] = (p, Ok tt) -> pkt_reach ds p
  | pr_set p n x p' r : pkt_reach ds p -> pkt_set str_of float_of is_sub p n x = Some (p', r) -> pkt_reach ds p'.
End Pkt.

(** ** Plain Python lists *)
(** [splits l i a x b]: index [i] (negative counts from the end) is at element
    [x], with [a] before it and [b] after it *)
Definition splits {A} (l : list A) (i : Z) (a : list A) (x : A) (b : list A) : Prop :=
  l = a ++ x :: b /\ (i = zlen a \/ i = zlen a - zlen l).
Definition bad_index {A} (l : list A) (i : Z) : Prop := i < - zlen l \/ zlen l <= i.

Inductive lop := OAppend (x : pyobj) | OPop (i : Z) | OSet (i : Z) (x : pyobj) | OAssign (xs : list pyobj).

(** The same operation on a plain list, with element values converted by
    [acc] *)
Inductive plain (acc : pyobj -> pyobj -> Prop) : list pyobj -> lop -> list pyobj -> res unit -> Prop :=
| pl_append l x v : acc x v -> plain acc l (OAppend x) (l ++ [v]) (Ok tt)
| pl_pop l i a y b : splits l i a y b -> plain acc l (OPop i) (a ++ b) (Ok tt)
| pl_pop_bad l i : bad_index l i -> plain acc l (OPop i) l (Raise IndexError)
| pl_set l i x a y b v : splits l i a y b -> acc x v -> plain acc l (OSet i x) (a ++ v :: b) (Ok tt)
| pl_set_bad l i x : bad_index l i -> plain acc l (OSet i x) l (Raise IndexError)
| pl_assign l xs vs : Forall2 acc xs vs -> plain acc l (OAssign xs) vs (Ok tt).
Inductive plain_run (acc : pyobj -> pyobj -> Prop) : list pyobj -> list lop -> list pyobj -> list (res unit) -> Prop :=
| plr_nil l : plain_run acc l [] l []
| plr_cons l o l' r os l'' rs : plain acc l o l' r -> plain_run acc l' os l'' rs ->
    plain_run acc l (o :: os) l'' (r :: rs).

(** The list field under the same operations *)
Section LOps.
  Variable str_of : pyobj -> pystr.
  Variable float_of : pystr -> option Z.
  Variable is_sub : nat -> nat -> bool.
  Definition lstep (l : lfield) (o : lop) : lfield * res unit :=
    match o with
    | OAppend x => list_append str_of float_of is_sub l x
    | OPop i => list_pop l i
    | OSet i x => list_set str_of float_of is_sub l i x
    | OAssign xs => list_assign str_of float_of is_sub l xs
    end.
  Fixpoint lrun (l : lfield) (os : list lop) : lfield * list (res unit) :=
    match os with
    | [] => (l, [])
    | o :: r => let '(l1, x) := lstep l o in let '(l2, xs) := lrun l1 r in (l2, x :: xs)
    end.
End LOps.
