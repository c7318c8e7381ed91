(** * Models of common/Version.py, network/common/PlaygroundAddress.py and
      network/common/PortKey.py *)
From Coq Require Import List ZArith Bool.
From Verif Require Import PyBase.
Import ListNotations.
Open Scope Z_scope.

(** ** common/Version.py *)

Record version := Version { v_major : Z; v_minor : Z }.

(** Version.py:4-12 *)
Definition version_from_string (s : pystr) : res version :=
  match split_on ch_dot s with
  | [a; b] => match parse_int a, parse_int b with
              | Ok x, Ok y => Ok (Version x y)
              | _, _ => Raise AttributeError           (* 9-11: bare except *)
              end
  | _ => Raise AttributeError                          (* 6-7 *)
  end.
(** Version.py:21-22, "%d.%d" *)
Definition version_str (v : version) : pystr :=
  print_int (v_major v) ++ ch_dot :: print_int (v_minor v).
(** Version.py:24-27 (both operands are versions) *)
Definition version_eq (v w : version) : bool :=
  (v_major v =? v_major w) && (v_minor v =? v_minor w).

(** ** PlaygroundAddress.py *)

(** One part of an address: "*" or an int *)
Inductive apart := Star | Num (z : Z).
(** PlaygroundAddress.py:52-57, the four fields (the cached string is a
    function of them: 57) *)
Record addr := Addr { a_zone : apart; a_network : apart; a_device : apart; a_index : apart }.

(** 67-68 *)
Definition a_parts (a : addr) : list apart := [a_zone a; a_network a; a_device a; a_index a].
(** str(p) of one part *)
Definition part_str (p : apart) : pystr := match p with Star => [ch_star] | Num z => print_int z end.
(** 57, 64-65: toString *)
Definition addr_str (a : addr) : pystr := join_on ch_dot (map part_str (a_parts a)).

Definition part_eqb (p q : apart) : bool :=
  match p, q with Star, Star => true | Num x, Num y => x =? y | _, _ => false end.
(** 76-81: __eq__ between two address objects *)
Definition addr_eq (a b : addr) : bool :=
  part_eqb (a_zone a) (a_zone b) && part_eqb (a_network a) (a_network b) &&
  part_eqb (a_device a) (a_device b) && part_eqb (a_index a) (a_index b).
(** 82-83: __eq__ with a str *)
Definition addr_eq_str (a : addr) (s : pystr) : bool := eqb (addr_str a) s.

(** The two classes: PlaygroundAddress (100) and PlaygroundAddressBlock (115) *)
Inductive acls := ClsAddress | ClsBlock.

(** ConvertStringPart: 102-103 and 121-122 *)
Definition convert_part (c : acls) (p : pystr) : res apart :=
  match c with
  | ClsAddress => bind (parse_int p) (fun z => Ok (Num z))
  | ClsBlock => if eqb p [ch_star] then Ok Star else bind (parse_int p) (fun z => Ok (Num z))
  end.

(** 32-40: the parts appended to out_addressParts when the check succeeds.
    Only str arguments are modelled (30-31 rejects the others). *)
Definition valid_parts (c : acls) (s : pystr) : option addr :=
  match split_on ch_dot s with
  | [p0; p1; p2; p3] =>
      match convert_part c p0, convert_part c p1, convert_part c p2, convert_part c p3 with
      | Ok x0, Ok x1, Ok x2, Ok x3 => Some (Addr x0 x1 x2 x3)
      | _, _, _, _ => None
      end
  | _ => None
  end.
(** 17-42 *)
Definition is_valid_string (c : acls) (s : pystr) : bool :=
  match valid_parts c s with Some _ => true | None => false end.

(** 110-113 and 136-142 *)
Definition part_valid (c : acls) (p : apart) : bool :=
  match p with
  | Star => match c with ClsAddress => false | ClsBlock => true end
  | Num z => 0 <=? z
  end.
(** 105-108 and 124-126: constructors (validate raises) *)
Definition construct (c : acls) (a : addr) : res addr :=
  if forallb (part_valid c) (a_parts a) then Ok a else Raise InvalidPlaygroundAddress.

(** 45-50 *)
Definition from_string (c : acls) (s : pystr) : res addr :=
  match valid_parts c s with
  | None => Raise InvalidPlaygroundAddress
  | Some a => construct c a
  end.

(** 127-134: prefixString *)
Fixpoint take_nums (ps : list apart) : list apart :=
  match ps with Num z :: r => Num z :: take_nums r | _ => [] end.
Definition prefix_string (a : addr) : pystr := join_on ch_dot (map part_str (take_nums (a_parts a))).

(** 144-151: spawnAddress, with the results of random.randint(0, maxInt) given
    as the list [draws] *)
Fixpoint fill_stars (ps : list apart) (draws : list Z) : list apart :=
  match ps with
  | [] => []
  | Star :: r => match draws with x :: ds => Num x :: fill_stars r ds | [] => Star :: fill_stars r [] end
  | Num z :: r => Num z :: fill_stars r draws
  end.
Definition spawn_address (a : addr) (draws : list Z) : res addr :=
  match fill_stars (a_parts a) draws with
  | [x0; x1; x2; x3] => construct ClsAddress (Addr x0 x1 x2 x3)
  | _ => Raise TypeError
  end.

(** 153-161: isParentBlock (both have four parts) *)
Fixpoint block_matches (bs ps : list apart) : bool :=
  match bs, ps with
  | b :: br, p :: pr =>
      (match b with Star => true | Num _ => part_eqb b p end) && block_matches br pr
  | _, _ => true
  end.
Definition is_parent_block (b a : addr) : bool := block_matches (a_parts b) (a_parts a).

(** 163-174: getParentBlock.  [first_star] is blockParts.index("*"), or the
    length if there is none (165-168). *)
Fixpoint first_star (ps : list apart) : nat :=
  match ps with [] => O | Star :: _ => O | Num _ :: r => S (first_star r) end.
Fixpoint set_nth {A} (n : nat) (x : A) (l : list A) : list A :=
  match l, n with
  | [], _ => []
  | _ :: r, O => x :: r
  | y :: r, S m => y :: set_nth m x r
  end.
Definition get_parent_block (a : addr) : res (option addr) :=
  match first_star (a_parts a) with
  | O => Ok None                                                   (* 169-172 *)
  | S next =>
      match set_nth next Star (a_parts a) with                     (* 173 *)
      | [x0; x1; x2; x3] =>
          bind (construct ClsBlock (Addr x0 x1 x2 x3)) (fun b => Ok (Some b))  (* 174 *)
      | _ => Raise TypeError
      end
  end.

(** ** PortKey.py *)
Record portkey := PortKey { pk_src : option pystr; pk_sport : option Z;
                            pk_dst : option pystr; pk_dport : option Z }.
(** PortKey.py:10-11: inverseKey *)
Definition pk_inverse (k : portkey) : portkey :=
  PortKey (pk_dst k) (pk_dport k) (pk_src k) (pk_sport k).
(** PortKey.py:13-17 *)
Definition pk_source_only (k : portkey) : portkey := PortKey (pk_src k) (pk_sport k) None None.
Definition pk_dest_only (k : portkey) : portkey := PortKey None None (pk_dst k) (pk_dport k).
(** PortKey.py:19-28 (argument a PortKey) *)
Definition pk_eq (a b : portkey) : bool :=
  eqb (pk_src a) (pk_src b) && eqb (pk_sport a) (pk_sport b) &&
  eqb (pk_dst a) (pk_dst b) && eqb (pk_dport a) (pk_dport b).
(** PortKey.py:30-31: the tuple that is hashed *)
Definition pk_tuple (k : portkey) := (pk_src k, pk_sport k, pk_dst k, pk_dport k).
