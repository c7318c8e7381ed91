(** * Model of field assignment: network/packet/fieldtypes/
      (PacketFieldType, Uint, IntFieldType, BoolFieldType, StringFieldType,
      BufferFieldType, FloatFieldType, ComplexFieldType, ListFieldType, PacketFields) and
      network/packet/fieldtypes/attributes/ *)
From Coq Require Import List ZArith Bool.
From Verif Require Import PyBase FloatModel.
Import ListNotations.
Open Scope Z_scope.

(** ** Python values that are assigned to fields.
    [PObj c i] is an instance of class [c] with identity [i].  Simplification:
    lists only as arguments of the list operations below.  A float is the bit
    pattern of a double (FloatModel). *)
Inductive pyobj :=
| PUnset | PNone | PBool (b : bool) | PInt (z : Z) | PStr (s : pystr) | PBytes (b : bytes)
| PFloat (b : Z) | PObj (c i : nat).

(** ** Attributes: attributes/Descriptor.py:11-13, scalar_validators.py:8,13,29 *)
Inductive attr := AMax | AMin | ABits | AOptional | ARequired | AExplicitTag.
#[export] Instance EqDec_attr : EqDec attr.
Proof. unfold EqDec. decide equality. Defined.
(** scalar_validators.py:17: Bits has base MaxValue; all others have none
    (FieldTypeAttribute.py:3-7) *)
Definition base_attrs (a : attr) : list attr := match a with ABits => [AMax] | _ => [] end.
(** scalar_validators.py:24-28, FieldTypeAttribute.py:9-15 *)
Definition translate_attr (a base : attr) (v : Z) : Z :=
  match a, base with ABits, AMax => 2 ^ v - 1 | _, _ => v end.
(** isinstance(attr, Validator) *)
Definition is_validator (a : attr) : bool :=
  match a with AMax | AMin | ABits => true | _ => false end.

(** Field kinds.  [KObj c] is ComplexFieldType(c). *)
Inductive kind := KUint | KInt | KBool | KString | KBuffer | KFloat | KObj (c : nat).

Record field := Field { f_kind : kind; f_attrs : dict attr Z; f_vals : list attr; f_data : pyobj }.

(** PacketFieldType.__init__, PacketFieldType.py:45-50, the loop over the base
    attributes of one attribute.  Base attributes have no bases of their own
    here, so the worklist never grows. *)
Fixpoint add_bases (a : attr) (bases : list attr) (d : dict attr Z) : dict attr Z :=
  match bases with
  | [] => d
  | b :: r =>
      if dhas d b then add_bases a r d
      else match dget d a with
           | Some v => add_bases a r (dset d b (translate_attr a b v))
           | None => add_bases a r d
           end
  end.
(** PacketFieldType.__init__, PacketFieldType.py:34-53: the attributes given are
    iterated; validators are the given ones (the derived ones only become
    attributes). *)
Definition init_field (k : kind) (given : dict attr Z) : field :=
  Field k (fold_left (fun d a => add_bases a (base_attrs a) d) (dkeys given) given)
        (filter is_validator (dkeys given)) PUnset.
(** PacketFieldType.__call__, 78-85, and ComplexFieldType.__call__, 29-35 *)
Definition call_field (f : field) (new : dict attr Z) : field :=
  init_field (f_kind f) (fold_left (fun d p => dset d (fst p) (snd p)) new (f_attrs f)).

(** int(x), with every exception turned into ValueError (Uint.py:6-9,
    IntFieldType.py:6-9).  Simplification: int(bytes) reads the same spellings
    as int(str). *)
Definition py_int (x : pyobj) : res Z :=
  match x with
  | PInt z => Ok z
  | PBool b => Ok (if b then 1 else 0)
  | PStr s => parse_int s
  | PBytes s => parse_int s
  | PFloat b => f64_trunc b
  | _ => Raise ValueError
  end.
(** bool(x) *)
Definition py_bool (x : pyobj) : bool :=
  match x with
  | PUnset | PNone => false
  | PBool b => b
  | PInt z => negb (z =? 0)
  | PStr s => match s with [] => false | _ => true end
  | PBytes s => match s with [] => false | _ => true end
  | PFloat b => f64_true b
  | PObj _ _ => true
  end.

Section Field.
  (** str(x) of an object that is not a str, and isinstance between classes,
      and == between instances *)
  Variable str_of : pyobj -> pystr.
  (** the number float() reads in a string or in bytes, if it does *)
  Variable float_of : pystr -> option Z.
  Variable is_sub : nat -> nat -> bool.
  Variable obj_eq : nat * nat -> nat * nat -> bool.

  Definition py_str (x : pyobj) : pystr := match x with PStr s => s | _ => str_of x end.

  (** float(x) *)
  Definition py_float (x : pyobj) : res Z :=
    match x with
    | PFloat b => Ok b
    | PInt z => int_to_double z
    | PBool b => int_to_double (if b then 1 else 0)
    | PStr s | PBytes s => match float_of s with Some b => Ok b | None => Raise ValueError end
    | _ => Raise TypeError
    end.

  (** x == y *)
  Definition py_eq (x y : pyobj) : bool :=
    match x, y with
    | PUnset, PUnset => true
    | PNone, PNone => true
    | PBool a, PBool b => Bool.eqb a b
    | PBool a, PInt z => (if a then 1 else 0) =? z
    | PInt z, PBool a => z =? (if a then 1 else 0)
    | PInt a, PInt b => a =? b
    | PFloat a, PFloat b => f64_eq a b
    | PFloat a, PInt z => f64_eq_int a z
    | PInt z, PFloat a => f64_eq_int a z
    | PFloat a, PBool b => f64_eq_int a (if b then 1 else 0)
    | PBool b, PFloat a => f64_eq_int a (if b then 1 else 0)
    | PStr a, PStr b => eqb a b
    | PBytes a, PBytes b => eqb a b
    | PObj c i, PObj d j => obj_eq (c, i) (d, j)
    | _, _ => false
    end.

  Definition with_data (f : field) (x : pyobj) : field :=
    Field (f_kind f) (f_attrs f) (f_vals f) x.

  (** _setTypedData: the new field content and whether it raised.
      Uint.py:5-10, IntFieldType.py:5-9, BoolFieldType.py:5-9,
      StringFieldType.py:6-10, BufferFieldType.py:6-9, FloatFieldType.py:10-14, ComplexFieldType.py:24-27 *)
  Definition set_typed (f : field) (x : pyobj) : field * res unit :=
    match f_kind f with
    | KUint => match py_int x with
               | Ok z => (with_data f (PInt z), if z <? 0 then Raise ValueError else Ok tt)
               | Raise _ => (f, Raise ValueError)
               end
    | KInt => match py_int x with
              | Ok z => (with_data f (PInt z), Ok tt)
              | Raise _ => (f, Raise ValueError)
              end
    | KBool => (with_data f (PBool (py_bool x)), Ok tt)
    | KString => (with_data f (PStr (py_str x)), Ok tt)
    | KBuffer => match x with
                 | PBytes _ => (with_data f x, Ok tt)
                 | _ => (f, Raise ValueError)
                 end
    | KFloat => match py_float x with
                | Ok b => (with_data f (PFloat b), Ok tt)
                | Raise _ => (f, Raise ValueError)
                end
    | KObj c => match x with
                | PObj d _ => if is_sub d c then (with_data f x, Ok tt) else (f, Raise ValueError)
                | _ => (f, Raise ValueError)
                end
    end.

  (** validator.validate(self._data, attrValue): Validator.py:8-9,
      scalar_validators.py:7,12,21-22.  Comparing a non-number raises TypeError. *)
  Definition validate_one (a : attr) (v : Z) (x : pyobj) : res bool :=
    let cmp := match x with
               | PInt z => Some (fun n => z <=? n, fun n => n <=? z)
               | PBool b => Some (fun n => (if b then 1 else 0) <=? n, fun n => n <=? (if b then 1 else 0))
               | PFloat b => Some (fun n => f64_le_int b n, fun n => int_le_f64 n b)
               | _ => None end in
    match cmp with
    | None => Raise TypeError
    | Some (le, ge) => match a with
                | AMax => Ok (le v)
                | AMin => Ok (ge v)
                | ABits => Ok (le (2 ^ v))
                | _ => Ok true
                end
    end.
  (** PacketFieldType.py:60-63; the order of the set does not matter for
      whether it raises *)
  Fixpoint run_validators (vs : list attr) (d : dict attr Z) (x : pyobj) : res unit :=
    match vs with
    | [] => Ok tt
    | a :: r => match dget d a with
                | None => Raise KeyError
                | Some v => match validate_one a v x with
                            | Raise e => Raise e
                            | Ok false => Raise ValueError
                            | Ok true => run_validators r d x
                            end
                end
    end.

  (** PacketFieldType.setData, PacketFieldType.py:55-63 *)
  Definition set_data (f : field) (x : pyobj) : field * res unit :=
    match x with
    | PUnset => (with_data f PUnset, Ok tt)
    | _ => match set_typed f x with
           | (f', Raise e) => (f', Raise e)
           | (f', Ok _) => (f', run_validators (f_vals f') (f_attrs f') (f_data f'))
           end
    end.

  (** PacketFields.__init__, PacketFields.py:9-10: a field of a packet is made
      by calling the declared one.  A field declared as the class itself
      (STRING, UINT, ...) is the case of no attributes. *)
  Definition packet_field (decl : field) : field := call_field decl [].

  (** ** ListFieldType, ListFieldType.py.
      [l_type]: the element type (a non-list field); [l_set]: _data is not
      UNSET; [l_items]: _dataList. *)
  Record lfield := LField { l_type : field; l_set : bool; l_items : list field }.
  (** __init__, 4-6 *)
  Definition list_init (t : field) : lfield := LField t false [].

  (** append, 39-44: the element is added before its value is checked *)
  Definition list_append (l : lfield) (x : pyobj) : lfield * res unit :=
    let '(e, r) := set_data (call_field (l_type l) []) x in
    match r with
    | Ok _ => (LField (l_type l) true (l_items l ++ [e]), Ok tt)
    | Raise ex => (LField (l_type l) (l_set l) (l_items l ++ [e]), Raise ex)
    end.
  Fixpoint list_extend (l : lfield) (xs : list pyobj) : lfield * res unit :=
    match xs with
    | [] => (l, Ok tt)
    | x :: r => match list_append l x with
                | (l', Ok _) => list_extend l' r
                | (l', Raise e) => (l', Raise e)
                end
    end.
  Definition with_set (l : lfield) (b : bool) := LField (l_type l) b (l_items l).
  Definition list_clear (l : lfield) := LField (l_type l) (l_set l) [].

  (** index of a Python list *)
  Definition py_index (n : Z) (i : Z) : option nat :=
    if (0 <=? i) && (i <? n) then Some (Z.to_nat i)
    else if (- n <=? i) && (i <? 0) then Some (Z.to_nat (i + n))
    else None.
  Fixpoint remove_nth {A} (n : nat) (l : list A) : list A :=
    match n, l with
    | _, [] => []
    | O, _ :: r => r
    | S m, y :: r => y :: remove_nth m r
    end.
  Fixpoint set_nth {A} (n : nat) (x : A) (l : list A) : list A :=
    match n, l with
    | _, [] => []
    | O, _ :: r => x :: r
    | S m, y :: r => y :: set_nth m x r
    end.

  (** pop, 46-47: does not return the element *)
  Definition list_pop (l : lfield) (i : Z) : lfield * res unit :=
    match py_index (zlen (l_items l)) i with
    | Some n => (LField (l_type l) (l_set l) (remove_nth n (l_items l)), Ok tt)
    | None => (l, Raise IndexError)
    end.
  (** __getitem__, 79-83, for an int index *)
  Definition list_get (l : lfield) (i : Z) : res pyobj :=
    match py_index (zlen (l_items l)) i with
    | Some n => match nth_error (l_items l) n with Some f => Ok (f_data f) | None => Raise IndexError end
    | None => Raise IndexError
    end.
  (** __setitem__, 85-86 *)
  Definition list_set (l : lfield) (i : Z) (x : pyobj) : lfield * res unit :=
    match py_index (zlen (l_items l)) i with
    | Some n => match nth_error (l_items l) n with
                | Some f => let '(f', r) := set_data f x in
                            (LField (l_type l) (l_set l) (set_nth n f' (l_items l)), r)
                | None => (l, Raise IndexError)
                end
    | None => (l, Raise IndexError)
    end.
  (** __iter__, 88-90 *)
  Definition list_iter (l : lfield) : list pyobj := map f_data (l_items l).
  (** __len__, 73-74 *)
  Definition list_len (l : lfield) : Z := zlen (l_items l).
  (** __contains__, 54-57 *)
  Definition list_contains (l : lfield) (x : pyobj) : bool :=
    existsb (fun f => py_eq (f_data f) x) (l_items l).
  (** __eq__, 59-71, with a list of values or another list field *)
  Fixpoint list_eq_vals (a b : list pyobj) : bool :=
    match a, b with
    | [], [] => true
    | x :: r, y :: s => py_eq x y && list_eq_vals r s
    | _, _ => false
    end.
  Definition list_eq (l : lfield) (ys : list pyobj) : bool := list_eq_vals (list_iter l) ys.

  (** setData with a Python list, 21-24, 30.  The attributes of the list field
      itself are Optional/Required/ExplicitTag, not validators. *)
  Definition list_assign (l : lfield) (xs : list pyobj) : lfield * res unit :=
    match list_extend (list_clear l) xs with
    | (l', Ok _) => (with_set l' true, Ok tt)
    | (l', Raise e) => (l', Raise e)
    end.
  (** setData with UNSET, PacketFieldType.py:56-58 *)
  Definition list_unset (l : lfield) : lfield := with_set l false.
  (** setData with another list field, 9-20, 30 *)
  Definition list_copy_from (l src : lfield) : lfield * res unit :=
    if negb (l_set src) then (with_set l false, Ok tt)
    else if list_eq l (list_iter src) then (with_set l true, Ok tt)
    else match list_extend (list_clear l) (list_iter src) with
         | (l', Ok _) => (with_set l' true, Ok tt)
         | (l', Raise e) => (l', Raise e)
         end.
  (** data(), 32-35: None is UNSET *)
  Definition list_data (l : lfield) : option (list pyobj) :=
    if l_set l then Some (list_iter l) else None.
  (** __call__, 49-52 *)
  Definition list_call (l : lfield) : lfield * res unit :=
    list_copy_from (list_init (l_type l)) l.

  (** ** A packet: PacketFields.py.  FIELDS as (name, declared field); names
      starting with "_" are ordinary attributes and not fields. *)
  Definition pkt := dict pystr field.
  (** PacketFields.__init__, 7-12: names of the initial values that are not
      fields are ignored. *)
  Fixpoint pkt_init (decls : list (pystr * field)) (init : dict pystr pyobj) (p : pkt) : pkt * res unit :=
    match decls with
    | [] => (p, Ok tt)
    | (n, d) :: r =>
        let f := packet_field d in
        match dget init n with
        | None => pkt_init r init (dset p n f)
        | Some x => match set_data f x with
                    | (f', Ok _) => pkt_init r init (dset p n f')
                    | (f', Raise e) => (dset p n f', Raise e)
                    end
        end
    end.
  Definition is_private (n : pystr) : bool :=
    match n with c :: _ => c =? ch_under | [] => false end.
  (** __setattr__, 22-25, on a field (on other names it sets an ordinary
      attribute: None) *)
  Definition pkt_set (p : pkt) (n : pystr) (x : pyobj) : option (pkt * res unit) :=
    if is_private n then None
    else match dget p n with
         | None => None
         | Some f => let '(f', r) := set_data f x in Some (dset p n f', r)
         end.
  (** __getattribute__, 17-20, on a field *)
  Definition pkt_get (p : pkt) (n : pystr) : option pyobj :=
    if is_private n then None
    else match dget p n with Some f => Some (f_data f) | None => None end.
  (** __eq__, 28-38, of two packets of the same class *)
  Definition pkt_eq (names : list pystr) (p q : pkt) : bool :=
    forallb (fun n => match dget p n, dget q n with
                      | Some f, Some g => py_eq (f_data f) (f_data g) | _, _ => false end) names.
End Field.
