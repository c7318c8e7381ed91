(** * Model of common/ReturnOrientedGenerator.py (RG)

    A generator is the values it will yield and how it then ends; one that has
    ended, or was closed, yields nothing and returns None.  An iterator is what
    __iter__ gives, itself a generator around it (yield from).  Simplified: the
    generator does not catch GeneratorExit, and is used only through the
    wrapper; send() and throw() are not modelled. *)
From Coq Require Import List Arith Bool.
From Verif Require Import PyBase.
Import ListNotations.

Section Gen.
  Context {A B : Type}.
  Inductive ending := Returns (v : B) | Raises (e : exn).
  Inductive result := Running | NoValue | Value (v : B).
  (** not started; in the middle; ended or closed *)
  Inductive phase := Fresh | Open | Over.
  (** [g_end]: None once the generator has ended or was closed *)
  Record rog := Rog { g_left : list A; g_end : option ending; g_result : result; g_iters : list phase }.
  (** __init__, RG 5-7 *)
  Definition rog_new (l : list A) (e : ending) : rog := Rog l (Some e) Running [].
  Inductive op := Iter | Next (i : nat) | Drop (i : nat).
  Inductive answer := Yields (a : A) | Stops | Fails (e : exn).
  Fixpoint put (i : nat) (x : phase) (l : list phase) : list phase :=
    match l, i with [], _ => [] | _ :: r, O => x :: r | y :: r, S j => y :: put j x r end.
  (** next() of an iterator, RG 9-10 *)
  Definition next (i : nat) (g : rog) : option answer * rog :=
    match nth_error (g_iters g) i with
    | None => (None, g)
    | Some Over => (Some Stops, g)
    | Some _ =>
        match g_left g with
        | a :: r => (Some (Yields a), Rog r (g_end g) (g_result g) (put i Open (g_iters g)))
        | [] =>
            match g_end g with
            | None => (Some Stops, Rog [] None NoValue (put i Over (g_iters g)))
            | Some (Returns v) => (Some Stops, Rog [] None (Value v) (put i Over (g_iters g)))
            | Some (Raises e) => (Some (Fails e), Rog [] None (g_result g) (put i Over (g_iters g)))
            end
        end
    end.
  (** an iterator is closed, or nobody holds it any more (a loop left by break):
      one that has started closes the generator with it *)
  Definition drop (i : nat) (g : rog) : rog :=
    match nth_error (g_iters g) i with
    | Some Open => Rog [] None (g_result g) (put i Over (g_iters g))
    | Some Fresh => Rog (g_left g) (g_end g) (g_result g) (put i Over (g_iters g))
    | _ => g
    end.
  (** a history: what next() answered, by iterator, and the object *)
  Definition step (s : list (nat * answer) * rog) (o : op) : list (nat * answer) * rog :=
    let (tr, g) := s in
    match o with
    | Iter => (tr, Rog (g_left g) (g_end g) (g_result g) (g_iters g ++ [Fresh]))
    | Next i => match next i g with (Some a, g') => (tr ++ [(i, a)], g') | (None, g') => (tr, g') end
    | Drop i => (tr, drop i g)
    end.
  Definition run (l : list A) (e : ending) (os : list op) : list (nat * answer) * rog := fold_left step os ([], rog_new l e).
End Gen.
Arguments ending : clear implicits.
Arguments result : clear implicits.
Arguments rog : clear implicits.
Arguments answer : clear implicits.
