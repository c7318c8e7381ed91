(** * Specification vocabulary for packets (C15-C21) *)
From Coq Require Import List ZArith Bool.
From Verif Require Import PyBase Utf8Model AddrModel FloatSpec PacketModel.
Import ListNotations.
Open Scope Z_scope.

(** ** Values of the fields *)

(** [z] satisfies the declared MaxValue, MinValue and Bits attributes *)
Definition satisfies (a : attrs) (z : Z) : Prop :=
  (forall m, at_max a = Some m -> z <= m) /\
  (forall m, at_min a = Some m -> m <= z) /\
  (forall n, at_bits a = Some n -> z <= 2 ^ n /\ (at_max a = None -> z <= 2 ^ n - 1)).
(** The largest value the field declares; 2^32-1 if nothing is declared *)
Definition declared_max (a : attrs) : Z :=
  match at_max a, at_bits a with
  | Some m, _ => m
  | None, Some n => 2 ^ n - 1
  | None, None => 2 ^ 32 - 1
  end.
(** A wire width of 1, 2, 4 or 8 bytes, the least that is enough for [m] *)
Definition width_for (m : Z) (w : nat) : Prop :=
  In w [1%nat; 2%nat; 4%nat; 8%nat] /\ m < 256 ^ Z.of_nat w /\
  forall w', In w' [1%nat; 2%nat; 4%nat; 8%nat] -> (w' < w)%nat -> 256 ^ Z.of_nat w' <= m.
Definition is_ascii (s : pystr) : Prop := Forall (fun c => 0 <= c < 128) s.

(** the same for a float, a bit pattern *)
Definition satisfies_f (a : attrs) (b : Z) : Prop :=
  (forall m, at_max a = Some m -> at_most b m) /\
  (forall m, at_min a = Some m -> at_least b m) /\
  (forall n, at_bits a = Some n -> at_most b (2 ^ n) /\ (at_max a = None -> at_most b (2 ^ n - 1))).
(** The size a float field declares; 32 bits if nothing is declared *)
Definition declared_bits (a : attrs) : Z := match at_bits a with Some n => n | None => 32 end.

Definition scalar_ok (s : scalar) (x : sval) : Prop :=
  match s, x with
  | SUint a, SvInt z => satisfies a z /\ exists w, width_for (declared_max a) w /\ 0 <= z < 256 ^ Z.of_nat w
  | SInt a, SvInt z => satisfies a z /\ exists w, width_for (declared_max a) w /\
                         - (256 ^ Z.of_nat w / 2) <= z < 256 ^ Z.of_nat w / 2
  | SBool, SvBool _ => True
  | SFloat a, SvFloat b => is_double b /\ satisfies_f a b /\
                           ((declared_bits a = 32 /\ exact_single b) \/ declared_bits a = 64)
  | _, _ => False
  end.

(** ** Tags: an explicit tag is used as it is and must be new; an automatic
    tag is the least natural number not used by an earlier field.  Field names
    are distinct. *)
Definition least_unused (used : list Z) (t : Z) : Prop :=
  0 <= t /\ ~ In t used /\ forall u, 0 <= u < t -> In u used.
Definition tagging (fs : list (pystr * fattr)) (tags : list Z) : Prop :=
  NoDup (map fst fs) /\ length tags = length fs /\
  forall i name fa t, nth_error fs i = Some (name, fa) -> nth_error tags i = Some t ->
    ~ In t (firstn i tags) /\
    match fa_tag fa with Some e => t = e | None => least_unused (firstn i tags) t end.

(** ** The parts of a value *)
Definition part := (val * fty)%type.
(** the set fields among FIELDS, with their types *)
Fixpoint set_fields (fs : list (pystr * fattr * fty)) (vs : list (option val)) : list part :=
  match fs, vs with
  | (_, t) :: fr, Some v :: vr => (v, t) :: set_fields fr vr
  | _ :: fr, None :: vr => set_fields fr vr
  | _, _ => []
  end.
Fixpoint set_items (t : fty) (l : list (option val)) : list part :=
  match l with
  | [] => []
  | Some v :: r => (v, t) :: set_items t r
  | None :: r => set_items t r
  end.
(** what a value directly contains *)
Definition children (E : env) (x : part) : list part :=
  match snd x, fst x with
  | TList t, VList l => set_items t l
  | TFields fs, VFields vs => set_fields fs vs
  | TPacket _, VPacket c vs => set_fields (c_fields (e_cls E c)) vs
  | _, _ => []
  end.
(** what it contains at any depth, itself included *)
Inductive inside (E : env) (y : part) : part -> Prop :=
| in_self : inside E y y
| in_child x z : In z (children E x) -> inside E y z -> inside E y x.
Definition is_packet (v : val) : Prop := match v with VPacket _ _ => True | _ => False end.

(** Packets are nested in packets at most [n] deep *)
Inductive depth_le (E : env) : nat -> part -> Prop :=
| dl_packet n v t : is_packet v -> (forall y, In y (children E (v, t)) -> depth_le E n y) -> depth_le E (S n) (v, t)
| dl_other n v t : ~ is_packet v -> (forall y, In y (children E (v, t)) -> depth_le E n y) -> depth_le E n (v, t).

(** ** Size on the wire *)
Definition int_bytes (a : attrs) : Z :=
  let m := declared_max a in
  if m <? 2 ^ 8 then 1 else if m <? 2 ^ 16 then 2 else if m <? 2 ^ 32 then 4 else 8.
Definition utf8_len (s : pystr) : Z := match utf8_enc s with Ok b => zlen b | Raise _ => 0 end.
Section Size.
  Variable E : env.
  Fixpoint wire_size (v : val) (t : fty) {struct v} : Z :=
    match t, v with
    | TScalar (SUint a), _ | TScalar (SInt a), _ => int_bytes a
    | TScalar SBool, _ => 1
    | TScalar (SFloat a), _ => if declared_bits a =? 64 then 8 else 4
    | TString, VStr s => 2 + zlen s
    | TBuffer, VBuf b => 8 + zlen b
    | TList t', VList l =>
        2 + (fix go (l : list (option val)) := match l with
             | Some x :: r => wire_size x t' + go r
             | None :: r => go r
             | [] => 0 end) l
    | TFields fs, VFields vs =>
        2 + (fix go (vs : list (option val)) (fs : list (pystr * fattr * fty)) := match vs, fs with
             | Some x :: vr, (_, ft) :: fr => 2 + wire_size x ft + go vr fr
             | None :: vr, _ :: fr => go vr fr
             | _, _ => 0 end) vs fs
    | TPacket _, VPacket c vs =>
        18 + utf8_len (c_ident (e_cls E c)) + utf8_len (c_version (e_cls E c)) + 2 +
        (fix go (vs : list (option val)) (fs : list (pystr * fattr * fty)) := match vs, fs with
             | Some x :: vr, (_, ft) :: fr => 2 + wire_size x ft + go vr fr
             | None :: vr, _ :: fr => go vr fr
             | _, _ => 0 end) vs (c_fields (e_cls E c))
    | _, _ => 0
    end.
End Size.

(** ** Encodable packets *)

(** A packet class can be named on the wire and is found again by a decoder
    for [base] *)
Definition class_ok (E : env) (base c : nat) : Prop :=
  (exists d, utf8_enc (c_ident (e_cls E c)) = Ok d /\ zlen d < 256) /\
  (exists v ver, utf8_enc (c_version (e_cls E c)) = Ok v /\ zlen v < 256 /\
                 version_from_string (c_version (e_cls E c)) = Ok ver /\
                 e_lookup E base (c_ident (e_cls E c)) ver = Ok (Some c)) /\
  e_sub E c base = true.
Definition fields_ok (fs : list (pystr * fattr * fty)) (vs : list (option val)) : Prop :=
  length vs = length fs /\ zlen (set_fields fs vs) < 2 ^ 16 /\
  exists tags, tagging (map fst fs) tags /\ Forall (fun t => 0 <= t < 2 ^ 16) tags.
(** A part whose own contents can be encoded, unset fields left aside *)
Definition part_ok (E : env) (x : part) : Prop :=
  match snd x, fst x with
  | TScalar s, VScalar v => scalar_ok s v
  | TString, VStr s => is_ascii s /\ zlen s < 2 ^ 16
  | TBuffer, VBuf b => bytes_ok b /\ zlen b < 2 ^ 64
  | TList _, VList l => zlen l < 2 ^ 16
  | TFields fs, VFields vs => fields_ok fs vs
  | TPacket base, VPacket c vs => class_ok E base c /\ fields_ok (c_fields (e_cls E c)) vs /\ wire_size E (fst x) (snd x) < 2 ^ 64
  | _, _ => False
  end.
Definition encodable (E : env) (x : part) : Prop := forall y, inside E y x -> part_ok E y.

(** No required field of this part is unset, and no list element *)
Fixpoint required_set (fs : list (pystr * fattr * fty)) (vs : list (option val)) : Prop :=
  match fs, vs with
  | (_, fa, _) :: fr, v :: vr => (v = None -> fa_opt fa = true) /\ required_set fr vr
  | _, _ => True
  end.
Definition part_complete (E : env) (x : part) : Prop :=
  match snd x, fst x with
  | TList _, VList l => ~ In None l
  | TFields fs, VFields vs => required_set fs vs
  | TPacket _, VPacket c vs => required_set (c_fields (e_cls E c)) vs
  | _, _ => True
  end.
Definition complete (E : env) (x : part) : Prop := forall y, inside E y x -> part_complete E y.

(** ** Read sizes.  The decoder limits single reads by the length of the
    packet it entered last, also after it has left it.  Strings, buffers,
    identifiers and versions are read in one piece. *)
Definition piece (E : env) (v : val) (n : Z) : Prop :=
  match v with
  | VStr s => n = zlen s
  | VBuf b => n = zlen b
  | VPacket c _ => n = utf8_len (c_ident (e_cls E c)) \/ n = utf8_len (c_version (e_cls E c))
  | _ => False
  end.
(** every piece of [x] fits into every packet nested in it *)
Definition pieces_fit (E : env) (x : part) : Prop :=
  forall y n q, inside E y x -> piece E (fst y) n ->
    inside E q x -> is_packet (fst q) -> n <= wire_size E (fst q) (snd q).

(** A packet that Deserializer(base) can be sent *)
Definition sendable (E : env) (depth base : nat) (p : val) : Prop :=
  encodable E (p, TPacket base) /\ complete E (p, TPacket base) /\
  depth_le E depth (p, TPacket base) /\ pieces_fit E (p, TPacket base).
(** No packet nested in it *)
Definition flat (E : env) (x : part) : Prop :=
  forall z y, In z (children E x) -> inside E y z -> ~ is_packet (fst y).

(** ** Garbage before a packet: no window starting inside it is a length
    followed by its bitwise complement *)
Definition header_pair (w : bytes) : Prop :=
  length w = 16%nat /\ Z.lxor (be_dec (firstn 8 w)) (be_dec (skipn 8 w)) = 2 ^ 64 - 1.
Definition no_false_header (g bs : bytes) : Prop :=
  forall i, (i < length g)%nat -> ~ header_pair (firstn 16 (skipn i (g ++ bs))).

(** ** What a Deserializer may deliver, whatever bytes it was sent: every
    field has a value of its declared type that satisfies the declared
    attributes, every packet is an instance of a class registered for the
    decoder's base class and a subclass of it.  Required fields can be unset. *)
Definition part_shape (E : env) (x : part) : Prop :=
  match snd x, fst x with
  | TScalar s, VScalar v => scalar_ok s v
  | TString, VStr s => exists b, utf8_enc s = Ok b /\ zlen b < 2 ^ 16
  | TBuffer, VBuf b => bytes_ok b /\ zlen b < 2 ^ 64
  | TList _, VList l => zlen l < 2 ^ 16 /\ ~ In None l
  | TFields fs, VFields vs => length vs = length fs
  | TPacket base, VPacket c vs =>
      length vs = length (c_fields (e_cls E c)) /\ e_sub E c base = true /\
      exists name ver, e_lookup E base name ver = Ok (Some c)
  | _, _ => False
  end.
Definition shaped (E : env) (x : part) : Prop := forall y, inside E y x -> part_shape E y.
