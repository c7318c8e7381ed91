(** * Specification of configuration files' places, handles and values *)
From Coq Require Import String.
From Coq Require Import List ZArith Bool.
From Verif Require Import PyBase IniModel IniSpec ConfModel.
Import ListNotations.
Open Scope Z_scope.

(** ** Places *)
(** the custom paths that were accepted, the latest first: an id counts once, and the three standard ids never *)
Fixpoint customs (os : list op) (done : list (pystr * pystr)) : list (pystr * pystr) :=
  match os with
  | OAddCustomPath id path :: r =>
      if in_dec (list_eq_dec Z.eq_dec) id (map fst done ++ [lit "INSTANCE"; lit "USER"; lit "SYSTEM"])
      then customs r done else customs r ((id, path) :: done)
  | _ :: r => customs r done
  | [] => done
  end.
(** the places searched, in order; [inst] is PLAYGROUND_INSTANCE *)
Definition places (inst : option pystr) (os : list op) : list pystr :=
  map snd (customs os []) ++
  match inst with Some d => [join1 d (lit ".playground")] | None => [] end ++
  [lit "~/.playground"; lit "/var/playground"].
Definition there (w : world) (p : pystr) : Prop := p <> [] /\ ((exists f, In (p, f) (w_files w)) \/ In p (w_dirs w)).
(** [r] is the first of [ps] that is there *)
Inductive first_there (w : world) : list pystr -> option pystr -> Prop :=
| ft_none : first_there w [] None
| ft_here p ps : there w p -> first_there w (p :: ps) (Some p)
| ft_later p ps r : ~ there w p -> first_there w ps r -> first_there w (p :: ps) r.

(** ** Values: %% is a percent sign and %(name)s the value of name; the values
    referred to may have references [d] deep *)
Inductive means (m : pystr -> option pystr) : nat -> pystr -> pystr -> Prop :=
| m_nil d : means m d [] []
| m_char d c v s : c <> 37 -> means m d v s -> means m d (c :: v) (c :: s)
| m_percent d v s : means m d v s -> means m d (lit "%%" ++ v) (lit "%" ++ s)
| m_plain d k x v s : k <> [] -> ~ In 41 k -> m (PnmsModel.lower k) = Some x -> ~ In 37 x -> means m d v s -> means m d (lit "%(" ++ k ++ lit ")s" ++ v) (x ++ s)
| m_deep d k x y v s : k <> [] -> ~ In 41 k -> m (PnmsModel.lower k) = Some x -> In 37 x -> means m d x y -> means m (S d) v s -> means m (S d) (lit "%(" ++ k ++ lit ")s" ++ v) (y ++ s).
(** the option's own value in its section, else the one in DEFAULT *)
Definition stored (c : ini) (n k : pystr) : option pystr :=
  match dget (i_sects c) n with
  | Some d => match dget d k with Some v => Some v | None => dget (i_defs c) k end
  | None => None
  end.
(** a text as a value: every percent sign doubled *)
Definition escaped (s : pystr) : pystr := flat_map (fun c => if c =? 37 then [37; 37] else [c]) s.

(** ** Files *)
Definition text_at (w : world) (p : pystr) : option pystr := match dget (w_files w) p with Some (t, _) => Some t | None => None end.
(** what the handle holds *)
Definition holds (w : world) (i : nat) (c : ini) : Prop :=
  exists h, nth_error (w_handles w) i = Some h /\ nth_error (w_parsers w) (h_parser h) = Some (Some c).
(** the operation may change the file p: another program, a save of a handle
    opened for writing, or an open that creates *)
Definition writes (w : world) (o : op) (p : pystr) : Prop :=
  match o with
  | OWriteFile q _ | ORemoveFile q => q = p
  | OSave i => exists h, nth_error (w_handles w) i = Some h /\ h_access h = Write /\ h_path h = p
  | OOpen id a cr loc _ _ =>
      exists l, where_ w loc = Fine (Some l) /\ path_of l id = p /\ (cr = Overwrite \/ cr = IfNeeded /\ text_at w p = None)
  | _ => False
  end.
(** no operation of the history writes p *)
Fixpoint quiet (w : world) (os : list op) (p : pystr) : Prop :=
  match os with [] => True | o :: r => ~ writes w o p /\ quiet (fst (step w o)) r p end.

(** what is set can be held by a file (C61) *)
Definition keeps (kvs : list (pystr * pystr)) : Prop := forall k v, In (k, v) kvs -> item_ok (PnmsModel.lower k, v).
Definition section_name (n : pystr) : Prop := name_ok n \/ n = lit "DEFAULT".
Definition op_ok (o : op) : Prop :=
  match o with
  | OSet _ _ k v => item_ok (PnmsModel.lower k, v)
  | OAssign _ n kvs => section_name n /\ keeps kvs
  | OOpen _ _ _ _ s _ => forall n kvs, In (n, kvs) s -> section_name n /\ keeps kvs
  | _ => True
  end.
