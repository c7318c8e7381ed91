(** * Model of common/datastructures/Bijection.py *)
From Coq Require Import List ZArith Bool.
From Verif Require Import PyBase.
Import ListNotations.

(** The result of a Python call made for its effect. *)
Inductive outcome : Type := Done | Threw (e : exn).

Section Bij.
  (** Python is untyped: keys and values live in one type of hashable objects. *)
  Context {U : Type} `{EqDec U}.

  (** The two dict objects created at Bijection.py:43-44.  All four Bijection
      objects made by [__init__] hold references to these two. *)
  Inductive cell := CF | CR.
  Record heap := Heap { hF : dict U U; hR : dict U U }.
  Definition rd (h : heap) (c : cell) : dict U U := match c with CF => hF h | CR => hR h end.
  Definition wr (h : heap) (c : cell) (d : dict U U) : heap :=
    match c with CF => Heap d (hR h) | CR => Heap (hF h) d end.

  (** Bijection.py:42-75: the object itself, [__inverse], [__inverseMutable]
      and the local [immutableSelf]. *)
  Inductive vid := VSelf | VInv | VInvMut | VImmSelf.
  Record view := View { vw_fwd : cell; vw_rev : cell; vw_imm : bool;
                        vw_inverse : vid; vw_invmut : option vid }.
  Definition views (v : vid) : view :=
    match v with
    | VSelf    => View CF CR false VInv     (Some VInvMut)  (* 43-47 *)
    | VInvMut  => View CR CF false VImmSelf (Some VSelf)    (* 54, 58-61 *)
    | VImmSelf => View CF CR true  VInv     None            (* 55, 65-68 *)
    | VInv     => View CR CF true  VImmSelf None            (* 53, 72-75 *)
    end.

  (** Bijection.py:42-44: a fresh Bijection *)
  Definition bij_empty : heap := Heap [] [].

  (** Bijection.py:77-78 *)
  Definition bij_get (v : vid) (k : U) (h : heap) : res U := dget_e (rd h (vw_fwd (views v))) k.
  (** Bijection.py:80-81 *)
  Definition bij_len (v : vid) (h : heap) : nat := length (rd h (vw_fwd (views v))).
  (** MutableMapping/Mapping.__contains__: try self[k], False on KeyError *)
  Definition bij_in (v : vid) (k : U) (h : heap) : bool :=
    match bij_get v k h with Ok _ => true | Raise _ => false end.
  (** Bijection.py:83-84: [self.__forward.__iter()] is mangled to
      [_Bijection__iter], an attribute dict does not have. *)
  Definition bij_iter (v : vid) (h : heap) : res (list U) := Raise AttributeError.

  (** Bijection.py:87-95, body of __setitem__ statement by statement.  A raised
      exception leaves the heap as it was when the statement raised. *)
  Definition bij_set_body (w : view) (k x : U) (h : heap) : heap * outcome :=
    let s1 : heap * outcome :=
      match dget (rd h (vw_fwd w)) k with                     (* 88-89 *)
      | Some deadValue =>
          match ddel_e (rd h (vw_rev w)) deadValue with        (* 90 *)
          | Ok d => (wr h (vw_rev w) d, Done)
          | Raise e => (h, Threw e)
          end
      | None => (h, Done)
      end in
    match s1 with
    | (h1, Threw e) => (h1, Threw e)
    | (h1, Done) =>
        let s2 : heap * outcome :=
          match dget (rd h1 (vw_rev w)) x with                 (* 91-92 *)
          | Some deadKey =>
              match ddel_e (rd h1 (vw_fwd w)) deadKey with     (* 93 *)
              | Ok d => (wr h1 (vw_fwd w) d, Done)
              | Raise e => (h1, Threw e)
              end
          | None => (h1, Done)
          end in
        match s2 with
        | (h2, Threw e) => (h2, Threw e)
        | (h2, Done) =>
            let h3 := wr h2 (vw_fwd w) (dset (rd h2 (vw_fwd w)) k x) in   (* 94 *)
            let h4 := wr h3 (vw_rev w) (dset (rd h3 (vw_rev w)) x k) in   (* 95 *)
            (h4, Done)
        end
    end.

  (** Bijection.py:98-100, body of __delitem__ *)
  Definition bij_del_body (w : view) (k : U) (h : heap) : heap * outcome :=
    match dget_e (rd h (vw_fwd w)) k with
    | Raise e => (h, Threw e)
    | Ok x =>
        match ddel_e (rd h (vw_rev w)) x with
        | Raise e => (h, Threw e)
        | Ok d =>
            let h1 := wr h (vw_rev w) d in
            match ddel_e (rd h1 (vw_fwd w)) k with
            | Raise e => (h1, Threw e)
            | Ok d' => (wr h1 (vw_fwd w) d', Done)
            end
        end
    end.

  (** Bijection.py:3-8, the [mutable] decorator *)
  Definition guarded (w : view) (body : heap -> heap * outcome) (h : heap) : heap * outcome :=
    if vw_imm w then (h, Threw TypeError) else body h.

  Definition bij_set (v : vid) (k x : U) (h : heap) : heap * outcome :=
    guarded (views v) (bij_set_body (views v) k x) h.
  Definition bij_del (v : vid) (k : U) (h : heap) : heap * outcome :=
    guarded (views v) (bij_del_body (views v) k) h.

  (** Bijection.py:102-107 *)
  Definition bij_inverse (v : vid) : vid := vw_inverse (views v).
  Definition bij_inverseMutable (v : vid) : res vid :=
    if vw_imm (views v) then Raise TypeError
    else match vw_invmut (views v) with Some w => Ok w | None => Raise GenericException end.

  (** A client of one Bijection: item assignment or deletion through any view. *)
  Inductive bop := BSet (v : vid) (k x : U) | BDel (v : vid) (k : U).
  Definition bij_step (o : bop) (h : heap) : heap * outcome :=
    match o with BSet v k x => bij_set v k x h | BDel v k => bij_del v k h end.
  (** Every operation of the history is attempted; exceptions are caught by the
      client, which then carries on. *)
  Fixpoint bij_run (os : list bop) (h : heap) : heap :=
    match os with [] => h | o :: r => bij_run r (fst (bij_step o h)) end.
End Bij.
Arguments heap : clear implicits.
Arguments bop : clear implicits.
