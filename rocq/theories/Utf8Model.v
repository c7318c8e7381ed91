(** * UTF-8: meaning of str.encode("utf-8") and bytes.decode("utf-8")
    (strict error handling).  No file of /repo is modelled here; the packet
    encoder calls these built-ins (PlaygroundStandardPacketEncoder.py:223, 229,
    353, 354, 401, 405). *)
From Coq Require Import List ZArith Bool.
From Verif Require Import PyBase.
Import ListNotations.
Open Scope Z_scope.

(** A code point that UTF-8 can encode: a Unicode scalar value *)
Definition scalar_cp (c : Z) : bool :=
  (0 <=? c) && (c <? 1114112) && negb ((55296 <=? c) && (c <? 57344)).

Definition utf8_enc1 (c : Z) : res bytes :=
  if negb (scalar_cp c) then Raise UnicodeError
  else if c <? 128 then Ok [c]
  else if c <? 2048 then Ok [192 + c / 64; 128 + c mod 64]
  else if c <? 65536 then Ok [224 + c / 4096; 128 + (c / 64) mod 64; 128 + c mod 64]
  else Ok [240 + c / 262144; 128 + (c / 4096) mod 64; 128 + (c / 64) mod 64; 128 + c mod 64].
Fixpoint utf8_enc (s : pystr) : res bytes :=
  match s with
  | [] => Ok []
  | c :: r => bind (utf8_enc1 c) (fun b => bind (utf8_enc r) (fun bs => Ok (b ++ bs)))
  end.

Definition is_cont (b : Z) : bool := (128 <=? b) && (b <? 192).
Definition in_rng (lo hi c : Z) : bool := (lo <=? c) && (c <? hi).
Definition cons_ok (c : Z) (r : res pystr) : res pystr := bind r (fun s => Ok (c :: s)).

Fixpoint utf8_dec (bs : bytes) : res pystr :=
  match bs with
  | [] => Ok []
  | b0 :: r0 =>
      if in_rng 0 128 b0 then cons_ok b0 (utf8_dec r0)
      else if in_rng 192 224 b0 then
        match r0 with
        | b1 :: r1 =>
            let c := (b0 - 192) * 64 + (b1 - 128) in
            if is_cont b1 && in_rng 128 2048 c then cons_ok c (utf8_dec r1) else Raise UnicodeError
        | _ => Raise UnicodeError
        end
      else if in_rng 224 240 b0 then
        match r0 with
        | b1 :: b2 :: r2 =>
            let c := (b0 - 224) * 4096 + (b1 - 128) * 64 + (b2 - 128) in
            if is_cont b1 && is_cont b2 && in_rng 2048 65536 c && scalar_cp c
            then cons_ok c (utf8_dec r2) else Raise UnicodeError
        | _ => Raise UnicodeError
        end
      else if in_rng 240 248 b0 then
        match r0 with
        | b1 :: b2 :: b3 :: r3 =>
            let c := (b0 - 240) * 262144 + (b1 - 128) * 4096 + (b2 - 128) * 64 + (b3 - 128) in
            if is_cont b1 && is_cont b2 && is_cont b3 && in_rng 65536 1114112 c
            then cons_ok c (utf8_dec r3) else Raise UnicodeError
        | _ => Raise UnicodeError
        end
      else Raise UnicodeError
  end.
