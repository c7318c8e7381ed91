(** * Model of the packet layer:
      network/packet/fieldtypes/*, network/packet/encoders/PlaygroundStandardPacketEncoder.py
      (abbreviated PSPE below) and network/packet/PacketType.py *)
From Coq Require Import List ZArith Bool.
From Verif Require Import PyBase Utf8Model StreamModel AddrModel FloatModel.
Import ListNotations.
Open Scope Z_scope.

(** ** Field types and values *)

(** Numeric attributes of a field: fieldtypes/attributes/scalar_validators.py.
    [at_max] = MaxValue, [at_min] = MinValue, [at_bits] = Bits, each if given.
    Simplification: attribute values are integers. *)
Record attrs := Attrs { at_max : option Z; at_min : option Z; at_bits : option Z }.
Definition no_attrs : attrs := Attrs None None None.
Definition bits_attrs (n : Z) : attrs := Attrs None None (Some n).
(** The value of the MaxValue attribute: given, or derived from Bits
    (PacketFieldType.py:45-50, scalar_validators.py:24-28) *)
Definition eff_max (a : attrs) : option Z :=
  match at_max a with
  | Some m => Some m
  | None => match at_bits a with Some n => Some (2 ^ n - 1) | None => None end
  end.
(** The validators of a field inside a packet or a list, all of them must hold
    (PacketFieldType.py:60-63).  Such a field is made by calling the declared
    one (PacketFields.py:10, ListFieldType.py:41), which passes the derived
    MaxValue as an attribute of its own (PacketFieldType.py:78-85), so it is a
    validator too.  Bits itself validates against 2**n
    (scalar_validators.py:21-22). *)
Definition validate (a : attrs) (z : Z) : bool :=
  match eff_max a with Some m => z <=? m | None => true end &&
  match at_min a with Some m => m <=? z | None => true end &&
  match at_bits a with Some n => z <=? 2 ^ n | None => true end.

(** the same for a float *)
Definition validate_f (a : attrs) (b : Z) : bool :=
  match eff_max a with Some m => f64_le_int b m | None => true end &&
  match at_min a with Some m => int_le_f64 m b | None => true end &&
  match at_bits a with Some n => f64_le_int b (2 ^ n) | None => true end.

(** Scalar field types: UINT, INT, BOOL, FloatFieldType.  A float value is the
    bit pattern of a double (FloatModel). *)
Inductive scalar := SUint (a : attrs) | SInt (a : attrs) | SBool | SFloat (a : attrs).
Inductive sval := SvInt (z : Z) | SvBool (b : bool) | SvFloat (b : Z).

(** The attributes the encoder reads on a field of a packet: Optional and
    ExplicitTag (attributes/Descriptor.py:11-13) *)
Record fattr := FAttr { fa_opt : bool; fa_tag : option Z }.

(** Field types.  [TFields] is ComplexFieldType(C) for a PacketFields subclass
    C with the listed FIELDS; [TPacket base] is ComplexFieldType(base) for a
    packet class [base] (a class identity). *)
Inductive fty :=
| TScalar (s : scalar)
| TString
| TBuffer
| TList (t : fty)
| TFields (fs : list (pystr * fattr * fty))
| TPacket (base : nat).

(** Field contents.  [None] in place of a value is UNSET.  The fields of a
    PacketFields object are given in the order of FIELDS. *)
Inductive val :=
| VScalar (x : sval)
| VStr (s : pystr)
| VBuf (b : bytes)
| VList (l : list (option val))
| VFields (vs : list (option val))
| VPacket (cls : nat) (vs : list (option val)).

(** A packet class: DEFINITION_IDENTIFIER, DEFINITION_VERSION, FIELDS *)
Record pcls := PCls { c_ident : pystr; c_version : pystr; c_fields : list (pystr * fattr * fty) }.
(** The classes that exist, the definition store of each base class
    (getDefinition) and the subclass relation. *)
Record env := Env { e_cls : nat -> pcls;
                    e_lookup : nat -> pystr -> version -> res (option nat);
                    e_sub : nat -> nat -> bool }.

(** ** Scalars *)

(** UintEncoder._maxValueToPackCode, PSPE 175-195, and the same table for
    IntEncoder, 198-204: number of bytes.  Default maximum 2^32-1 (183). *)
Definition max_width (m : Z) : res nat :=
  if m <? 2 ^ 8 then Ok 1%nat else if m <? 2 ^ 16 then Ok 2%nat
  else if m <? 2 ^ 32 then Ok 4%nat else if m <? 2 ^ 64 then Ok 8%nat
  else Raise PacketEncodingError.
Definition int_width (a : attrs) : res nat :=
  max_width (match eff_max a with Some m => m | None => 2 ^ 32 - 1 end).
(** FloatEncoder._getPackCode, PSPE 169-172: the Bits attribute, default 32, must
    be a key of the map *)
Definition float_width (a : attrs) : res nat :=
  let n := match at_bits a with Some n => n | None => 32 end in
  if n =? 32 then Ok 4%nat else if n =? 64 then Ok 8%nat else Raise KeyError.
Definition sc_width (s : scalar) : res nat :=
  match s with SUint a | SInt a => int_width a | SBool => Ok 1%nat | SFloat a => float_width a end.
(** IntrinsicTypeStandardEncoder.encode, PSPE 149-151, with struct.pack.
    A value of the wrong Python type cannot be stored (setData), the last line
    is unreachable. *)
Definition sc_enc (s : scalar) (v : sval) : res bytes :=
  match s, v with
  | SUint a, SvInt z => bind (int_width a) (fun w => pack_u w z)
  | SInt a, SvInt z => bind (int_width a) (fun w => pack_s w z)
  | SBool, SvBool b => Ok [if b then 1 else 0]
  | SFloat a, SvFloat b => bind (float_width a) (fun w =>
      if Nat.eqb w 4 then bind (to_single b) (fun c => Ok (be_enc 4 c)) else Ok (be_enc 8 b))
  | _, _ => Raise StructError
  end.
(** setData on the decoded value: PacketFieldType.py:55-63, Uint.py:4-10,
    IntFieldType.py:4-8, BoolFieldType.py:4-8, FloatFieldType.py:9-14 *)
Definition sc_set_int (unsigned : bool) (a : attrs) (z : Z) : res sval :=
  if unsigned && (z <? 0) then Raise ValueError
  else if validate a z then Ok (SvInt z) else Raise ValueError.
(** IntrinsicTypeStandardEncoder.decodeIterator, PSPE 153-156, after the read *)
Definition sc_dec (s : scalar) (bs : bytes) : res sval :=
  match s with
  | SUint a => sc_set_int true a (be_dec bs)
  | SInt a => sc_set_int false a (unpack_s (length bs) bs)
  | SBool => Ok (SvBool (negb (be_dec bs =? 0)))
  | SFloat a => bind (float_width a) (fun w =>
      let b := if Nat.eqb w 4 then to_double (be_dec bs) else be_dec bs in
      if validate_f a b then Ok (SvFloat b) else Raise ValueError)
  end.

(** ** Tags: PacketFieldsEncoder._processFields, PSPE 255-270 *)

(** 266-267: while autoTag in inverse: autoTag += 1.  The inverse has as many
    keys as there are tags, so [fuel] = number of tags + 1 suffices. *)
Fixpoint auto_tag (fuel : nat) (used : list Z) (t : Z) : Z :=
  match fuel with
  | O => t
  | S f => if smem used t then auto_tag f used (t + 1) else t
  end.
(** 259-269.  [names]/[tags] are the keys and values of the Bijection so far:
    its two directions agree (C01). *)
Fixpoint process_fields_from (fs : list (pystr * fattr)) (names : list pystr) (tags : list Z) (auto : Z) : res (list Z) :=
  match fs with
  | [] => Ok tags
  | (name, fa) :: r =>
      if smem names name then Raise GenericException                              (* 260-261 *)
      else match fa_tag fa with
           | Some t => if smem tags t then Raise GenericException                 (* 263-264 *)
                       else process_fields_from r (names ++ [name]) (tags ++ [t]) auto
           | None => let t := auto_tag (S (length tags)) tags auto in             (* 265-268 *)
                     process_fields_from r (names ++ [name]) (tags ++ [t]) t
           end
  end.
(** The tag of each field, in the order of FIELDS *)
Definition process_fields (fs : list (pystr * fattr)) : res (list Z) := process_fields_from fs [] [] 0.

(** ** Encoding *)

Definition wrap {A} (r : res A) : res A :=
  match r with Ok a => Ok a | Raise _ => Raise PacketEncodingError end.

(** struct "{n}s": pad with zeros or truncate to n bytes *)
Definition pack_s_bytes (n : Z) (b : bytes) : bytes :=
  firstn (Z.to_nat n) b ++ repeat 0 (Z.to_nat n - length b).

(** StringEncoder.encode, PSPE 219-224: the length written is the number of
    characters, and the pack code cuts or pads the UTF-8 bytes to it. *)
Definition enc_string (s : pystr) : res bytes :=
  let strLen := zlen s in
  if 2 ^ 16 <? strLen then Raise PacketEncodingError
  else bind (utf8_enc s) (fun e => bind (pack_u 2 strLen) (fun h => Ok (h ++ pack_s_bytes strLen e))).
(** BufferEncoder.encode, PSPE 239-243 *)
Definition enc_buffer (b : bytes) : res bytes :=
  let bufLen := zlen b in
  if 2 ^ 64 <? bufLen then Raise PacketEncodingError
  else bind (pack_u 8 bufLen) (fun h => Ok (h ++ b)).

(** PSPE 276-285: an unset field that is not Optional raises before anything
    is written. *)
Fixpoint check_unset (fs : list (pystr * fattr)) (vs : list (option val)) : res Z :=
  match fs, vs with
  | (_, fa) :: fr, v :: vr =>
      match v with
      | None => if fa_opt fa then check_unset fr vr else Raise PacketEncodingError
      | Some _ => bind (check_unset fr vr) (fun n => Ok (1 + n))
      end
  | _, _ => Ok 0
  end.

Definition u64_ones : Z := 2 ^ 64 - 1.

(** PacketEncoder.encode, PSPE 349-371, given the encoded fields.
    Simplification: the stream is the byte string written so far; the
    placeholder-and-seek-back of the two lengths is written directly. *)
Definition enc_header (ident version : pystr) (body : bytes) : res bytes :=
  bind (utf8_enc ident) (fun d =>
  bind (utf8_enc version) (fun v =>
  bind (pack_u 1 (zlen d)) (fun dl =>
  bind (pack_u 1 (zlen v)) (fun vl =>
  let tail := dl ++ d ++ vl ++ v ++ body in
  let packetLength := 16 + zlen tail in
  bind (pack_u 8 packetLength) (fun l1 =>
  bind (pack_u 8 (Z.lxor packetLength u64_ones)) (fun l2 => Ok (l1 ++ l2 ++ tail))))))).

Section Encode.
  Variable E : env.

  (** topEncoder.encode, PSPE 127-131 and the encoders it selects.  Values of
      the wrong kind for the type cannot be stored in the field (setData), the
      last line is unreachable for values built through the API. *)
  Fixpoint enc (v : val) (t : fty) {struct v} : res bytes :=
    match t, v with
    | TScalar s, VScalar x => sc_enc s x
    | TString, VStr s => enc_string s
    | TBuffer, VBuf b => enc_buffer b
    | TList t', VList l =>                                                       (* PSPE 327-330 *)
        bind (pack_u 2 (zlen l)) (fun h =>
        bind ((fix enc_list (l : list (option val)) : res bytes :=
                 match l with
                 | [] => Ok []
                 | Some x :: r => bind (enc x t') (fun b => bind (enc_list r) (fun bs => Ok (b ++ bs)))
                 | None :: _ => Raise StructError   (* struct.pack of UNSET, or TypeError/AttributeError *)
                 end) l) (fun bs => Ok (h ++ bs)))
    | TFields fs, VFields vs =>                                                  (* PSPE 272-297 *)
        bind (process_fields (map fst fs)) (fun tags =>
        bind (check_unset (map fst fs) vs) (fun n =>
        bind (pack_u 2 n) (fun h =>
        bind ((fix enc_fields (vs : list (option val)) (fs : list (pystr * fattr * fty)) (tags : list Z) : res bytes :=
                 match vs, fs, tags with
                 | None :: vr, _ :: fr, _ :: tr => enc_fields vr fr tr
                 | Some x :: vr, (_, ft) :: fr, tg :: tr =>
                     bind (wrap (bind (pack_u 2 tg) (fun tb => bind (enc x ft) (fun b => Ok (tb ++ b)))))  (* 292-297 *)
                          (fun b => bind (enc_fields vr fr tr) (fun bs => Ok (b ++ bs)))
                 | _, _, _ => Ok []
                 end) vs fs tags) (fun bs => Ok (h ++ bs)))))
    | TPacket _, VPacket c vs =>
        let cl := e_cls E c in
        let fs := c_fields cl in
        bind (bind (process_fields (map fst fs)) (fun tags =>
        bind (check_unset (map fst fs) vs) (fun n =>
        bind (pack_u 2 n) (fun h =>
        bind ((fix enc_fields (vs : list (option val)) (fs : list (pystr * fattr * fty)) (tags : list Z) : res bytes :=
                 match vs, fs, tags with
                 | None :: vr, _ :: fr, _ :: tr => enc_fields vr fr tr
                 | Some x :: vr, (_, ft) :: fr, tg :: tr =>
                     bind (wrap (bind (pack_u 2 tg) (fun tb => bind (enc x ft) (fun b => Ok (tb ++ b)))))
                          (fun b => bind (enc_fields vr fr tr) (fun bs => Ok (b ++ bs)))
                 | _, _, _ => Ok []
                 end) vs fs tags) (fun bs => Ok (h ++ bs))))))
        (enc_header (c_ident cl) (c_version cl))
    | _, _ => Raise TypeError
    end.

  (** packet.__serialize__(), PacketType.py:234-240 *)
  Definition serialize (p : val) : res bytes := enc p (TPacket 0).
End Encode.

(** ** Decoding: a generator that waits for bytes.

    [prog A] is the generator returned by decodeIterator, suspended at its
    next use of the stream:
    - [PNeed n over k]: unpackIterator of size n (PSPE 47-61): if n exceeds the
      adapter's limit it raises (continue with [over]); otherwise wait until n
      bytes are available, read them and continue with [k];
    - [PSync start over k]: the loop at PSPE 378-395 entered with
      packetStartPosition = start; [k] gets the final packetStartPosition and
      packetLength;
    - [PTell k]: stream.tell();  [PSetMax m p]: set_max_size(m);
    - [PReadSome n p]: stream.read(n), result ignored (PSPE 434). *)
Inductive prog (A : Type) : Type :=
| PRet (a : A)
| PFail (e : exn)
| PNeed (n : Z) (over : prog A) (k : bytes -> prog A)
| PSync (start : Z) (over : prog A) (k : Z -> Z -> prog A)
| PTell (k : Z -> prog A)
| PSetMax (m : Z) (p : prog A)
| PReadSome (n : Z) (p : prog A).
Arguments PRet {A} _. Arguments PFail {A} _. Arguments PNeed {A} _ _ _. Arguments PSync {A} _ _ _.
Arguments PTell {A} _. Arguments PSetMax {A} _ _. Arguments PReadSome {A} _ _.

(** sequencing: [yield from] followed by the rest *)
Fixpoint pbind {A B} (p : prog A) (f : A -> prog B) : prog B :=
  match p with
  | PRet a => f a
  | PFail e => PFail e
  | PNeed n o k => PNeed n (pbind o f) (fun b => pbind (k b) f)
  | PSync s o k => PSync s (pbind o f) (fun a b => pbind (k a b) f)
  | PTell k => PTell (fun z => pbind (k z) f)
  | PSetMax m p => PSetMax m (pbind p f)
  | PReadSome n p => PReadSome n (pbind p f)
  end.
(** [try: yield from p; except Exception: raise PacketEncodingError] *)
Fixpoint pwrap {A} (p : prog A) : prog A :=
  match p with
  | PRet a => PRet a
  | PFail _ => PFail PacketEncodingError
  | PNeed n o k => PNeed n (pwrap o) (fun b => pwrap (k b))
  | PSync s o k => PSync s (pwrap o) (fun a b => pwrap (k a b))
  | PTell k => PTell (fun z => pwrap (k z))
  | PSetMax m p => PSetMax m (pwrap p)
  | PReadSome n p => PReadSome n (pwrap p)
  end.
Definition need {A} (n : Z) (k : bytes -> prog A) : prog A := PNeed n (PFail GenericException) k.
Definition plift {A} (r : res A) : prog A := match r with Ok a => PRet a | Raise e => PFail e end.

(** *** Running the generator against the stream *)

(** The stream (an UpdateableBytesIO or BytesIO) and the adapter's _max_size;
    0 stands for None as well as 0 (PSPE 49 tests truth). *)
Record st := St { s_bio : bio; s_max : Z }.
Inductive outcome (A : Type) :=
| Waiting (p : prog A) (s : st)     (* yielded DECODE_WAITING_FOR_STREAM *)
| Finished (a : A) (s : st)         (* StopIteration with a value *)
| Failed (e : exn) (s : st).
Arguments Waiting {A} _ _. Arguments Finished {A} _ _. Arguments Failed {A} _ _.

Definition over_limit (n : Z) (s : st) : bool := negb (s_max s =? 0) && (s_max s <? n).
(** PSPE 380-384 on 16 bytes *)
Definition header_len (w : bytes) : option Z :=
  let l := be_dec (firstn 8 w) in
  if l =? Z.lxor (be_dec (firstn 8 (skipn 8 w))) u64_ones then Some l else None.
(** The loop at PSPE 378-395 over the bytes from packetStartPosition = start.
    [inl (start', half)]: waiting at start' for the first or second 8 bytes. *)
Fixpoint sync_scan (rest : bytes) (start : Z) : (Z * bool) + (Z * Z) :=
  if zlen rest <? 8 then inl (start, false)
  else if zlen rest <? 16 then inl (start, true)
  else match header_len (firstn 16 rest) with
       | Some l => inr (start, l)
       | None => match rest with [] => inl (start, false) | _ :: r => sync_scan r (start + 1) end
       end.
Definition stream_rest (b : bio) (p : Z) : bytes := skipn (Z.to_nat p) (b_data b).

(** next(iterator).  While waiting in the sync loop the position stays where
    the last read or seek left it; on resumption the model re-reads the (same)
    first 8 bytes. *)
Fixpoint exec {A} (p : prog A) (s : st) : outcome A :=
  match p with
  | PRet a => Finished a s
  | PFail e => Failed e s
  | PNeed n over k =>
      if over_limit n s then exec over s
      else if ubio_available (s_bio s) <? n then Waiting p s
      else let (out, b') := bio_read n (s_bio s) in exec (k out) (St b' (s_max s))
  | PSync start over k =>
      if over_limit 8 s then exec over s
      else match sync_scan (stream_rest (s_bio s) start) start with
           | inl (start', half) =>
               Waiting (PSync start' over k)
                       (St (Bio (b_data (s_bio s)) (if half then start' + 8 else start')) (s_max s))
           | inr (start', l) => exec (k start' l) (St (Bio (b_data (s_bio s)) (start' + 16)) (s_max s))
           end
  | PTell k => exec (k (b_pos (s_bio s))) s
  | PSetMax m p => exec p (St (s_bio s) m)
  | PReadSome n p => let (_, b') := bio_read n (s_bio s) in exec p (St b' (s_max s))
  end.

(** *** The decoders *)

Definition index_of (t : Z) : list Z -> option nat :=
  fix go l := match l with
              | [] => None
              | x :: r => if t =? x then Some O else match go r with Some i => Some (S i) | None => None end
              end.
Fixpoint set_nth {A} (i : nat) (x : A) (l : list A) : list A :=
  match l, i with
  | [], _ => []
  | _ :: r, O => x :: r
  | y :: r, S j => y :: set_nth j x r
  end.

(** StringEncoder.decodeIterator, PSPE 226-230 *)
Definition dec_string : prog val :=
  need 2 (fun l => need (be_dec l) (fun b => pbind (plift (utf8_dec b)) (fun s => PRet (VStr s)))).
(** BufferEncoder.decodeIterator, PSPE 245-248 *)
Definition dec_buffer : prog val := need 8 (fun l => need (be_dec l) (fun b => PRet (VBuf b))).
Definition dec_scalar (s : scalar) : prog val :=
  pbind (plift (sc_width s)) (fun w =>
  need (Z.of_nat w) (fun b => pbind (plift (sc_dec s b)) (fun x => PRet (VScalar x)))).
(** ListEncoder.decodeIterator, PSPE 335-341; [elem] decodes into a fresh item *)
Fixpoint dec_items (elem : prog val) (n : nat) (acc : list (option val)) : prog val :=
  match n with
  | O => PRet (VList acc)
  | S m => pbind (pwrap elem) (fun v => dec_items elem m (acc ++ [Some v]))
  end.
Definition dec_list (elem : prog val) : prog val :=
  need 2 (fun c => dec_items elem (Z.to_nat (be_dec c)) []).
(** PacketFieldsEncoder.decodeIterator, PSPE 307-321.  The flag of the result
    is true if UnknownExtensionFieldError was raised (the fields decoded so
    far stay in the packet object).  [decs] decodes each field given its
    current contents. *)
Fixpoint dec_fields_loop (tags : list Z) (decs : list (option val -> prog val)) (n : nat) (cur : list (option val))
  : prog (list (option val) * bool) :=
  match n with
  | O => PRet (cur, false)
  | S m =>
      need 2 (fun tb =>
        let fieldID := be_dec tb in
        match index_of fieldID tags with
        | None => if fieldID <? 200 then PFail PacketEncodingError else PRet (cur, true)
        | Some i =>
            pbind (pwrap (nth i decs (fun _ => PFail KeyError) (nth i cur None)))
                  (fun v => dec_fields_loop tags decs m (set_nth i (Some v) cur))
        end)
  end.
(** PSPE 304-321 *)
Definition dec_fields (fds : list (pystr * fattr)) (decs : list (option val -> prog val)) (cur : list (option val))
  : prog (list (option val) * bool) :=
  pbind (plift (process_fields fds)) (fun tags =>
  need 2 (fun c => dec_fields_loop tags decs (Z.to_nat (be_dec c)) cur)).

Section Decode.
  (** decoder for nested packets of the given base class *)
  Variable rp : nat -> prog val.
  (** topDecoder.decodeIterator(stream, rawField), PSPE 138-142; [cur] is what
      the field contains.  A second occurrence of a nested PacketFields in one
      packet decodes into the existing object (302: initializeData). *)
  Fixpoint dec_ty (t : fty) (cur : option val) {struct t} : prog val :=
    match t with
    | TScalar s => dec_scalar s
    | TString => dec_string
    | TBuffer => dec_buffer
    | TList t' => dec_list (dec_ty t' None)
    | TFields fs =>
        let init := match cur with Some (VFields vs) => vs | _ => map (fun _ => None) fs end in
        pbind (dec_fields (map fst fs) (map (fun f => dec_ty (snd f)) fs) init)
              (fun r => if snd r then PFail UnknownExtensionFieldError else PRet (VFields (fst r)))
    | TPacket base => rp base
    end.
End Decode.

Section DecodePacket.
  Variable E : env.
  (** PacketEncoder.decodeIterator, PSPE 373-443.  [depth] is how many nested
      packet decoders Python can stack before RecursionError. *)
  Fixpoint dec_packet (depth : nat) (base : nat) : prog val :=
    match depth with
    | O => PFail RecursionError
    | S d =>
        PTell (fun start0 =>                                                     (* 376 *)
        PSync start0 (PFail GenericException) (fun start packetLength =>         (* 378-395 *)
        PSetMax packetLength (                                                   (* 397 *)
        need 1 (fun nl => need (be_dec nl) (fun nb =>                            (* 399-400 *)
        pbind (plift (utf8_dec nb)) (fun name =>                                 (* 401 *)
        need 1 (fun vl => need (be_dec vl) (fun vb =>                            (* 403-404 *)
        pbind (plift (bind (utf8_dec vb) version_from_string)) (fun ver =>       (* 405-407 *)
        pbind (plift (e_lookup E base name ver)) (fun packetType =>              (* 409-411 *)
        match packetType with
        | None =>                                                                (* 413-419, 428-443 *)
            PTell (fun pos =>
            let unreadBytes := packetLength - (pos - start) in
            if unreadBytes =? 0 then PFail GenericException
            else PReadSome unreadBytes (PFail GenericException))
        | Some c =>
            if negb (e_sub E c base) then PFail ValueError                       (* 422: setData isinstance *)
            else
              let fs := c_fields (e_cls E c) in
              pbind (dec_fields (map fst fs) (map (fun f => dec_ty (dec_packet d) (snd f)) fs) (map (fun _ => None) fs))
                (fun r =>                                                        (* 424-427 *)
                 PTell (fun pos =>                                               (* 428-440 *)
                 let unreadBytes := packetLength - (pos - start) in
                 if unreadBytes =? 0 then PRet (VPacket c (fst r))
                 else PReadSome unreadBytes
                        (if snd r then PRet (VPacket c (fst r)) else PFail GenericException)))
        end))))))))))
    end.

  (** PacketType.Deserialize(buffer), PacketType.py:150-158: the loop at PSPE
      133-136 resumes the generator for ever if it waits ([None]). *)
  Definition deserialize (depth base : nat) (buffer : bytes) : option (res val) :=
    match exec (dec_packet depth base) (St (bio_new buffer) 0) with
    | Waiting _ _ => None
    | Finished v _ => Some (Ok v)
    | Failed e _ => Some (Raise e)
    end.

  (** ** Deserializer, PacketType.py:175-225 *)
  (** _stream, _iterator with its adapter limit, and whether the stream is our
      own (_streamType).  The caller passes an errHandler or drops errors; in
      both cases the errors are the [EvError] events below. *)
  Record dser := Dser { d_bio : bio; d_iter : prog val; d_max : Z; d_managed : bool }.
  (** 177-184 with stream=None *)
  Definition d_new (depth base : nat) : dser := Dser (bio_new []) (dec_packet depth base) 0 true.
  (** ... and with a stream passed in *)
  Definition d_new_on (depth base : nat) (b : bio) : dser := Dser b (dec_packet depth base) 0 false.
  (** 186-187 *)
  Definition d_update (buf : bytes) (d : dser) : dser :=
    match ubio_update buf (d_bio d) with
    | Ok b => Dser b (d_iter d) (d_max d) (d_managed d)
    | Raise _ => d
    end.
  Inductive devent := EvPacket (v : val) | EvError (e : exn).
  (** One turn of the loop at 194-224; [None]: exhausted *)
  Definition d_step (depth base : nat) (d : dser) : dser * option devent :=
    let prefix := ubio_peek 8 (d_bio d) in                                       (* 195 *)
    match exec (d_iter d) (St (d_bio d) (d_max d)) with
    | Waiting p s => (Dser (s_bio s) p (s_max s) (d_managed d), None)            (* 198-200 *)
    | Finished v s =>                                                            (* 201-213 *)
        let b := if d_managed d
                 then let (old, _) := bio_read (-1) (s_bio s) in
                      match ubio_update old (bio_new []) with Ok b => b | Raise _ => s_bio s end
                 else s_bio s in
        (Dser b (dec_packet depth base) 0 (d_managed d), Some (EvPacket v))
    | Failed e s =>                                                              (* 214-221 *)
        let b := if eqb (ubio_peek 8 (s_bio s)) prefix
                 then snd (bio_read 1 (s_bio s)) else s_bio s in
        (Dser b (dec_packet depth base) 0 (d_managed d), Some (EvError e))
    end.
  (** nextPackets() drained by the caller, at most [fuel] turns.
      PacketProofs shows that [available + 1] turns are always enough. *)
  Fixpoint d_drain (fuel : nat) (depth base : nat) (d : dser) : dser * list devent :=
    match fuel with
    | O => (d, [])
    | S f => match d_step depth base d with
             | (d1, None) => (d1, [])
             | (d1, Some ev) => let (d2, evs) := d_drain f depth base d1 in (d2, ev :: evs)
             end
    end.
  Definition d_next_packets (depth base : nat) (d : dser) : dser * list devent :=
    d_drain (S (length (b_data (d_bio d)))) depth base d.
  (** Any interleaving of update() calls and turns of nextPackets() *)
  Inductive dop := DUpdate (b : bytes) | DNext.
  Fixpoint d_run (depth base : nat) (os : list dop) (d : dser) : dser * list devent :=
    match os with
    | [] => (d, [])
    | DUpdate b :: r => d_run depth base r (d_update b d)
    | DNext :: r => let (d1, ev) := d_step depth base d in
                    let (d2, evs) := d_run depth base r d1 in
                    (d2, match ev with Some e => e :: evs | None => evs end)
    end.
End DecodePacket.
