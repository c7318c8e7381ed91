(** * Model of network/devices/switch/UnreliableSwitch.py (abbreviated US) *)
From Coq Require Import List ZArith Bool.
From Verif Require Import PyBase.
Import ListNotations.
Open Scope Z_scope.

(** data[:i], data[i:] and data[i] for any integer i (Python slices) *)
Definition idx (n i : Z) : Z := if i <? 0 then Z.max 0 (n + i) else Z.min i n.
Definition slice_to (d : bytes) (i : Z) : bytes := firstn (Z.to_nat (idx (zlen d) i)) d.
Definition slice_from (d : bytes) (i : Z) : bytes := skipn (Z.to_nat (idx (zlen d) i)) d.
Definition item (d : bytes) (i : Z) : res Z :=
  let j := if i <? 0 then zlen d + i else i in
  if (0 <=? j) && (j <? zlen d) then Ok (nth (Z.to_nat j) d 0) else Raise IndexError.
(** US 53, without the pop *)
Definition flip (d : bytes) (rel : Z) : res bytes :=
  match item d rel with
  | Raise e => Raise e
  | Ok b => Ok (slice_to d rel ++ [Z.lxor b 255] ++ slice_from d (rel + 1))
  end.

(** ConstantErrorTransport, US 28-33: byteIndex, bytesToCorrupt, curSettings *)
Record cet := Cet { c_index : Z; c_bad : list Z; c_set : Z * Z }.
(** insertion into a sorted list, for list.sort of integers (US 41) *)
Fixpoint ins (x : Z) (l : list Z) : list Z :=
  match l with [] => [x] | y :: r => if x <=? y then x :: l else y :: ins x r end.
Definition sort (l : list Z) : list Z := fold_right ins [] l.
(** resetBytesToCorrupt, US 35-42.  [draws] are the results of random.randint
    in order; ErrorsPerHorizon of them are used. *)
Definition distinct (draws : list Z) : list Z := fold_left (fun acc x => if smem acc x then acc else acc ++ [x]) draws [].
Definition reset (set : Z * Z) (index : Z) (draws : list Z) : cet := Cet index (sort (distinct draws)) set.
(** the loop US 50-53 *)
Fixpoint corrupt (index range : Z) (bad : list Z) (data : bytes) : res (bytes * list Z) :=
  match bad with
  | [] => Ok (data, [])
  | b :: r => if b <? range then match flip data (b - index) with Raise e => Raise e | Ok d => corrupt index range r d end
              else Ok (data, bad)
  end.
(** write, US 45-58, under the class settings [set] = (ErrorsPerHorizon,
    ErrorHorizon); [d1] are the draws of the first reset if it happens, [d2]
    of the second.  Result: what is written to the lower transport. *)
Definition ce_write (set : Z * Z) (d1 d2 : list Z) (data : bytes) (c : cet) : res (cet * bytes) :=
  let c := if eqb (c_set c) set then c else reset set (c_index c) d1 in
  match corrupt (c_index c) (zlen data + c_index c) (c_bad c) data with
  | Raise e => Raise e
  | Ok (out, bad) =>
      let index := c_index c + zlen out in
      let c' := Cet index bad (c_set c) in
      Ok (if snd set <? index then reset set 0 d2 else c', out)
  end.
(** a history of writes under unchanged settings, with the draws of each *)
Fixpoint ce_writes (set : Z * Z) (ws : list (bytes * (list Z * list Z))) (c : cet) : res (cet * list bytes) :=
  match ws with
  | [] => Ok (c, [])
  | (data, (d1, d2)) :: r =>
      match ce_write set d1 d2 data c with
      | Raise e => Raise e
      | Ok (c', out) => match ce_writes set r c' with Raise e => Raise e | Ok (c2, outs) => Ok (c2, out :: outs) end
      end
  end.

(** DelayTransport, US 60-78: a write is passed on at once or later, when its
    timer fires; [n] picks the pending write whose timer fires. *)
Inductive dop := DWrite (data : bytes) (late : bool) | DFire (n : nat).
Definition d_step (o : dop) (pend : list bytes) : list bytes * list bytes :=
  match o with
  | DWrite d true => (pend ++ [d], [])
  | DWrite d false => (pend, [d])
  | DFire n => match nth_error pend n with Some d => (firstn n pend ++ skipn (S n) pend, [d]) | None => (pend, []) end
  end.
Fixpoint d_run (os : list dop) (pend : list bytes) : list bytes * list bytes :=
  match os with
  | [] => (pend, [])
  | o :: r => let (p1, o1) := d_step o pend in let (p2, o2) := d_run r p1 in (p2, o1 ++ o2)
  end.

(** UnreliableSwitch.registerLink, US 96-98: every announcement wraps the
    transport of the link once more (also one with an invalid address, and one
    of an address already announced).  A link's transport is the list of its
    error transports, the outermost first; the delays in between are left out. *)
Definition us_announce (set : Z * Z) (draws : list Z) (layers : list cet) : list cet := reset set 0 draws :: layers.
Fixpoint us_write (set : Z * Z) (rnd : nat -> list Z * list Z) (data : bytes) (layers : list cet) : res (list cet * bytes) :=
  match layers with
  | [] => Ok ([], data)
  | c :: r =>
      match ce_write set (fst (rnd (length r))) (snd (rnd (length r))) data c with
      | Raise e => Raise e
      | Ok (c', out) => match us_write set rnd out r with Raise e => Raise e | Ok (r', out') => Ok (c' :: r', out') end
      end
  end.
