(** * Model of protocol and transport stacking: network/common/Protocol.py 32-84
    (PR) and VNICCallbackProtocol.setPlaygroundConnectionInfo,
    network/protocols/vsockets.py 389-397 (VS) *)
From Coq Require Import List ZArith Bool.
From Verif Require Import PyBase.
Import ListNotations.
Open Scope nat_scope.

(** The protocol objects that exist: object number [i] is the [i]-th entry, its
    class and its _higherProtocol (PR 45-47).  Objects are never freed. *)
Definition heap := list (nat * option nat).
Definition higher (h : heap) (i : nat) : option nat :=                                (* PR 49-50 *)
  match nth_error h i with Some (_, x) => x | None => None end.
Fixpoint set_higher (h : heap) (i : nat) (x : option nat) : heap :=                   (* PR 52-53 *)
  match h, i with
  | [], _ => []
  | (k, _) :: r, 0 => (k, x) :: r
  | o :: r, S j => o :: set_higher r j x
  end.

(** A factory: any callable that returns a protocol, creating objects or raising *)
Definition factory := heap -> res (heap * nat).
(** PR 45-47: a protocol class as its own factory *)
Definition new_protocol (k : nat) : factory := fun h => Ok (h ++ [(k, None)], length h).

(** PR 36-40: the loop over the factories from last to first *)
Fixpoint stack_loop (rev_fs : list factory) (top : option nat) (h : heap) : res (heap * option nat) :=
  match rev_fs with
  | [] => Ok (h, top)
  | f :: r => bind (f h) (fun hp => stack_loop r (Some (snd hp)) (set_higher (fst hp) (snd hp) top))
  end.
(** PR 35-41: StackingProtocolFactory.__call__; without factories the name
    [protocol] is never bound *)
Definition stack_call (fs : list factory) : factory := fun h =>
  bind (stack_loop (rev fs) None h) (fun ht =>
    match snd ht with Some p => Ok (fst ht, p) | None => Raise UnboundLocalError end).

(** VS 394-396: walking up to the last protocol.  The loop is bounded by the
    number of objects; going round in circles is [None]. *)
Fixpoint top_of (fuel : nat) (h : heap) (p : nat) : option nat :=
  match fuel with
  | 0 => None
  | S n => match higher h p with None => Some p | Some q => top_of n h q end
  end.
(** VS 389-397: the stack goes on the callback protocol, the application on top *)
Definition set_info (self : nat) (stack : option nat) (app : nat) (h : heap) : option heap :=
  let h1 := set_higher h self stack in
  match top_of (S (length h1)) h1 self with
  | Some p => Some (set_higher h1 p (Some app))
  | None => None
  end.
(** devices/vnic/connect.py 99-116: the part of buildStack that makes the objects: the stack
    factory is optional *)
Definition build (fs : option (list factory)) (self app : nat) (h : heap) : res (option heap) :=
  match fs with
  | None => Ok (set_info self None app h)
  | Some l => bind (stack_call l h) (fun hp => Ok (set_info self (Some (snd hp)) app (fst hp)))
  end.

(** ** Transports, PR 55-84 *)
(** The names StackingTransport copies; any other name *)
Inductive xname := Sockname | Peername | Spawnport | Other (n : nat).
#[export] Instance EqDec_xname : EqDec xname.
Proof. unfold EqDec. decide equality. apply Nat.eq_dec. Defined.
(** what the application asks of a transport *)
Inductive tcall := TWrite (data : bytes) | TClose | TAbort.
(** The lowest transport is asyncio's: it has its own extra info.  A value that
    is None is not an entry.  The dictionary given is taken over by the
    transport; sharing one dictionary between transports is not modelled. *)
Inductive transport := TBase (extra : dict xname Z) | TStack (lower : transport) (extra : dict xname Z).
Definition get_extra (t : transport) (n : xname) : option Z :=
  match t with TBase e => dget e n | TStack _ e => dget e n end.
(** PR 60-65 *)
Definition inherit (lower : transport) (n : xname) (e : dict xname Z) : dict xname Z :=
  match dget e n with
  | Some _ => e
  | None => match get_extra lower n with Some v => dset e n v | None => e end
  end.
(** PR 57-65 *)
Definition stack_transport (lower : transport) (extra : dict xname Z) : transport :=
  TStack lower (inherit lower Spawnport (inherit lower Peername (inherit lower Sockname extra))).
(** PR 70-80: what reaches the lowest transport *)
Fixpoint tcalls (t : transport) (c : tcall) : list tcall :=
  match t with TBase _ => [c] | TStack l _ => tcalls l c end.
(** PR 82-84 *)
Definition writelines (t : transport) (ls : list bytes) : list tcall := concat (map (fun b => tcalls t (TWrite b)) ls).
