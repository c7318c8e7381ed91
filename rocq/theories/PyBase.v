(** * PyBase: the fragment of Python semantics used by the models.

    No file of /repo is modelled here.  These definitions give meaning to the
    Python built-ins (dict, str, bytes, int parsing and printing, struct) that
    the modelled functions call.  Simplifications are stated with each one. *)

From Coq Require Import String Ascii Decimal.
From Coq Require Import List ZArith NArith Bool.
Import ListNotations.
Open Scope Z_scope.

(** ** Exceptions as values *)

(** The exception classes the modelled code raises, builtin and its own.
    Messages are dropped. *)
Inductive exn : Type :=
| KeyError | TypeError | ValueError | AttributeError | IndexError | NameError
| UnboundLocalError | StructError | AssertionError | GenericException
| ZeroDivisionError | UnicodeError | OverflowError | NotImplementedError
| InvalidPlaygroundAddress | PacketEncodingError | PacketDecodingError
| FramingError | PermissionDenied
| UnknownExtensionFieldError | RecursionError | StopIteration | InvalidStateError
| NotADirectoryError | CallbackException | AlreadyFinalized.

Inductive res (A : Type) : Type :=
| Ok (a : A)
| Raise (e : exn).
Arguments Ok {A} _.
Arguments Raise {A} _.

Definition bind {A B} (r : res A) (k : A -> res B) : res B :=
  match r with Ok a => k a | Raise e => Raise e end.

(** ** Decidable equality of dictionary keys.
    Python keys are compared with __eq__/__hash__; the models use key types
    whose Python equality is structural equality. *)
Class EqDec (A : Type) := eq_dec : forall x y : A, {x = y} + {x <> y}.

Definition eqb {A} `{EqDec A} (x y : A) : bool := if eq_dec x y then true else false.

#[export] Instance EqDec_Z : EqDec Z := Z.eq_dec.
#[export] Instance EqDec_nat : EqDec nat := Nat.eq_dec.
#[export] Instance EqDec_bool : EqDec bool := bool_dec.
#[export] Instance EqDec_list {A} `{EqDec A} : EqDec (list A) := list_eq_dec eq_dec.
#[export] Instance EqDec_option {A} `{EqDec A} : EqDec (option A).
Proof. unfold EqDec in *. decide equality. Defined.
#[export] Instance EqDec_prod {A B} `{EqDec A} `{EqDec B} : EqDec (A * B).
Proof. unfold EqDec in *. decide equality. Defined.

(** ** dict: insertion-ordered association list (Python >= 3.7) *)

Definition dict (K V : Type) := list (K * V).

Section Dict.
  Context {K V : Type} `{EqDec K}.

  (** [d.get(k)] / [d[k]] *)
  Fixpoint dget (d : dict K V) (k : K) : option V :=
    match d with
    | [] => None
    | (k', v) :: r => if eq_dec k k' then Some v else dget r k
    end.

  (** [k in d] *)
  Definition dhas (d : dict K V) (k : K) : bool :=
    match dget d k with Some _ => true | None => false end.

  (** [d[k] = v]: overwrite in place, or append *)
  Fixpoint dset (d : dict K V) (k : K) (v : V) : dict K V :=
    match d with
    | [] => [(k, v)]
    | (k', v') :: r => if eq_dec k k' then (k', v) :: r else (k', v') :: dset r k v
    end.

  (** [del d[k]] on a present key *)
  Fixpoint ddel (d : dict K V) (k : K) : dict K V :=
    match d with
    | [] => []
    | (k', v') :: r => if eq_dec k k' then r else (k', v') :: ddel r k
    end.

  (** [d[k]] with KeyError *)
  Definition dget_e (d : dict K V) (k : K) : res V :=
    match dget d k with Some v => Ok v | None => Raise KeyError end.

  (** [del d[k]] with KeyError *)
  Definition ddel_e (d : dict K V) (k : K) : res (dict K V) :=
    if dhas d k then Ok (ddel d k) else Raise KeyError.

  Definition dkeys (d : dict K V) : list K := map fst d.
End Dict.

(** Set membership and update on duplicate-free lists *)
Definition sadd {A} `{EqDec A} (s : list A) (x : A) : list A :=
  if in_dec eq_dec x s then s else s ++ [x].
Fixpoint sremove {A} `{EqDec A} (s : list A) (x : A) : list A :=
  match s with
  | [] => []
  | y :: r => if eq_dec x y then r else y :: sremove r x
  end.
Definition smem {A} `{EqDec A} (s : list A) (x : A) : bool :=
  if in_dec eq_dec x s then true else false.
(** [set.update] *)
Definition sunion {A} `{EqDec A} (s t : list A) : list A := fold_left sadd t s.

(** ** bytes and str *)

(** bytes: list of integers 0..255; str: list of code points. *)
Definition bytes := list Z.
Definition pystr := list Z.

Definition byte_ok (b : Z) : Prop := 0 <= b < 256.
Definition bytes_ok (bs : bytes) : Prop := Forall byte_ok bs.

Definition zlen {A} (l : list A) : Z := Z.of_nat (length l).

(** String literals for examples *)
Fixpoint lit (s : string) : pystr :=
  match s with
  | EmptyString => []
  | String c r => Z.of_N (N_of_ascii c) :: lit r
  end.

(** [s.split(sep)] for a one-character separator: always at least one part *)
Fixpoint split_on (c : Z) (s : list Z) : list (list Z) :=
  match s with
  | [] => [[]]
  | x :: r =>
      if Z.eq_dec x c then [] :: split_on c r
      else match split_on c r with
           | [] => [[x]]
           | p :: ps => (x :: p) :: ps
           end
  end.

(** [sep.join(parts)] for a one-character separator *)
Fixpoint join_on (c : Z) (ps : list (list Z)) : list Z :=
  match ps with
  | [] => []
  | [p] => p
  | p :: r => p ++ c :: join_on c r
  end.

Definition ch_dot : Z := 46.
Definition ch_star : Z := 42.
Definition ch_minus : Z := 45.
Definition ch_plus : Z := 43.
Definition ch_under : Z := 95.

(** ** int(s) for str s, base 10.
    Simplifications: only ASCII digits are digits (Python also accepts other
    Unicode decimal digits), and the 4300-digit limit of recent CPython is
    ignored. *)
Definition is_space (c : Z) : bool :=
  ((9 <=? c) && (c <=? 13)) || ((28 <=? c) && (c <=? 32)) || (c =? 133) || (c =? 160).
Fixpoint lstrip (s : pystr) : pystr :=
  match s with
  | [] => []
  | c :: r => if is_space c then lstrip r else s
  end.
Definition strip (s : pystr) : pystr := rev (lstrip (rev (lstrip s))).

Definition digit_cons (c : Z) (u : Decimal.uint) : option Decimal.uint :=
  match c with
  | 48 => Some (D0 u) | 49 => Some (D1 u) | 50 => Some (D2 u) | 51 => Some (D3 u)
  | 52 => Some (D4 u) | 53 => Some (D5 u) | 54 => Some (D6 u) | 55 => Some (D7 u)
  | 56 => Some (D8 u) | 57 => Some (D9 u) | _ => None
  end.

(** digits with single underscores between them; [after] = a digit precedes *)
Fixpoint digits (after : bool) (s : pystr) : option Decimal.uint :=
  match s with
  | [] => if after then Some Decimal.Nil else None
  | c :: r =>
      if (c =? ch_under) && after then digits false r
      else match digits true r with
           | Some u => digit_cons c u
           | None => None
           end
  end.

Definition parse_int (s : pystr) : res Z :=
  let uns r := match digits false r with
               | Some u => Some (Z.of_N (N.of_uint u)) | None => None end in
  match strip s with
  | c :: r =>
      if c =? ch_minus then match uns r with Some n => Ok (- n) | None => Raise ValueError end
      else if c =? ch_plus then match uns r with Some n => Ok n | None => Raise ValueError end
      else match uns (c :: r) with Some n => Ok n | None => Raise ValueError end
  | [] => Raise ValueError
  end.

(** ** str(n) for an int *)
Fixpoint print_uint (u : Decimal.uint) : pystr :=
  match u with
  | Decimal.Nil => []
  | D0 r => 48 :: print_uint r | D1 r => 49 :: print_uint r | D2 r => 50 :: print_uint r
  | D3 r => 51 :: print_uint r | D4 r => 52 :: print_uint r | D5 r => 53 :: print_uint r
  | D6 r => 54 :: print_uint r | D7 r => 55 :: print_uint r | D8 r => 56 :: print_uint r
  | D9 r => 57 :: print_uint r
  end.
Definition print_int (z : Z) : pystr :=
  if z <? 0 then ch_minus :: print_uint (N.to_uint (Z.to_N (- z)))
  else print_uint (N.to_uint (Z.to_N z)).

(** ** struct "!B/!H/!I/!Q": n-byte big-endian *)
Fixpoint be_enc (n : nat) (v : Z) : bytes :=
  match n with
  | O => []
  | S m => be_enc m (v / 256) ++ [v mod 256]
  end.
Definition be_dec (bs : bytes) : Z := fold_left (fun a b => a * 256 + b) bs 0.

(** struct.pack of an unsigned n-byte value: out of range raises struct.error *)
Definition pack_u (n : nat) (v : Z) : res bytes :=
  if (0 <=? v) && (v <? 256 ^ Z.of_nat n) then Ok (be_enc n v) else Raise StructError.
(** struct.pack of a signed n-byte value (two's complement) *)
Definition pack_s (n : nat) (v : Z) : res bytes :=
  let m := 256 ^ Z.of_nat n in
  if (- (m / 2) <=? v) && (v <? m / 2) then Ok (be_enc n (v mod m)) else Raise StructError.
Definition unpack_s (n : nat) (bs : bytes) : Z :=
  let m := 256 ^ Z.of_nat n in
  let u := be_dec bs in if u <? m / 2 then u else u - m.
