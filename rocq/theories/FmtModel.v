(** * Model of the texts of log records: PlaygroundLoggingFormatter and
      PartialConverter of common/logging.py (LG 72-91), over the % of str and
      the getMessage of logging.LogRecord (Python's library)

    Formats are made of text, of %% and of conversions to str, with or without
    a key; any other conversion (a flag, a width, %d; %(k)%, which differs between
    versions) gives [Else], which means nothing.  What converters return, and the arguments of the record, are
    texts.  Not modelled: what logging.Formatter puts around the message (time,
    name, level, tracebacks). *)
From Coq Require Import String.
From Coq Require Import List ZArith Bool.
From Verif Require Import PyBase.
Import ListNotations.
Open Scope nat_scope.

Inductive out := Done (s : pystr) | Err (e : exn) | Else.
Definition pre (x : pystr) (o : out) : out := match o with Done s => Done (x ++ s) | _ => o end.

(** ** str % args (unicodeobject.c, PyUnicode_Format).
    What is left to convert: a tuple, one object, or one object already used *)
Inductive source := STuple (l : list pystr) | SOne (x : pystr) | SUsed.
Inductive at_ := Text | Percent | Key (depth : nat) (k : pystr) | Conv.
Definition next (s : source) : option (pystr * source) :=
  match s with STuple (x :: r) => Some (x, STuple r) | SOne x => Some (x, SUsed) | _ => None end.
(** [d]: the lookup of keys, if the arguments are a mapping *)
Fixpoint pct (d : option (pystr -> res pystr)) (src : source) (a : at_) (s : pystr) : out :=
  match s with
  | [] =>
      match a with
      | Text => match d, src with
                | None, STuple (_ :: _) | None, SOne _ => Err TypeError
                | _, _ => Done []
                end
      | _ => Err ValueError
      end
  | c :: r =>
      let convert :=
        if Z.eqb c 115 then match next src with Some (x, src') => pre x (pct d src' Text r) | None => Err TypeError end
        else Else in
      match a with
      | Text => if Z.eqb c 37 then pct d src Percent r else pre [c] (pct d src Text r)
      | Percent => if Z.eqb c 40 then match d with None => Err TypeError | Some _ => pct d src (Key 0 []) r end
                   else if Z.eqb c 37 then pre [37%Z] (pct d src Text r) else convert
      | Key n k =>
          if Z.eqb c 41 then
            match n with
            | S m => pct d src (Key m (k ++ [c])) r
            | O => match d with
                   | None => Err TypeError
                   | Some f => match f k with Raise e => Err e | Ok v => pct d (SOne v) Conv r end
                   end
            end
          else pct d src (Key (if Z.eqb c 40 then S n else n) (k ++ [c])) r
      | Conv => convert
      end
  end.

(** PartialConverter.__getitem__, LG 76-78 *)
Definition partial (d : dict pystr pystr) (k : pystr) : res pystr :=
  match dget d k with Some v => Ok v | None => Ok (lit "%(" ++ k ++ lit ")s") end.

(** The arguments of a record: a tuple, which may be empty, or a mapping that
    is not (logging.LogRecord.__init__) *)
Inductive args := ATuple (l : list pystr) | AMap (d : dict pystr pystr).
Definition has_args (a : args) : bool := match a with ATuple [] | AMap [] => false | _ => true end.
(** LogRecord.getMessage; [whole]: the text of the mapping itself *)
Definition get_message (whole : pystr) (msg : pystr) (a : args) : out :=
  if has_args a then
    match a with ATuple l => pct None (STuple l) Text msg | AMap d => pct (Some (fun k => dget_e d k)) (SOne whole) Text msg end
  else Done msg.

Section Records.
  (** the data that go with records; SPECIAL_CONVERTERS, LG 81 *)
  Context {X : Type} (converters : pystr -> option (X -> res pystr)).
  Record record := Rec { r_msg : pystr; r_args : args; r_special : option (dict pystr X) }.
  (** the loop of LG 88-89 *)
  Fixpoint convert_all (l : dict pystr X) : res (dict pystr pystr) :=
    match l with
    | [] => Ok []
    | (k, x) :: r =>
        match converters k with
        | None => Raise KeyError
        | Some f => bind (f x) (fun v => bind (convert_all r) (fun d => Ok ((k, v) :: d)))
        end
    end.
  (** format, LG 85-91: the text, and the record as it is left.  [self]: the
      text of the PartialConverter; [whole] as in get_message *)
  Definition format (self whole : pystr) (r : record) : out * record :=
    match r_special r with
    | None => (get_message whole (r_msg r) (r_args r), r)
    | Some sp =>
        match convert_all sp with
        | Raise e => (Err e, r)
        | Ok d =>
            match pct (Some (partial d)) (SOne self) Text (r_msg r) with
            | Done m => (get_message whole m (r_args r), Rec m (r_args r) (r_special r))
            | o => (o, r)
            end
        end
    end.
  (** what each of [n] handlers makes of one record, in turn
      (logging.Logger.callHandlers) *)
  Fixpoint handled (self whole : pystr) (n : nat) (r : record) : list out :=
    match n with O => [] | S m => let (o, r') := format self whole r in o :: handled self whole m r' end.
End Records.
Arguments record : clear implicits.
