(** * What is expected of a condition, in terms of the calls made and of what
      happened *)
From Coq Require Import List Bool.
From Verif Require Import PyBase CondModel.
Import ListNotations.
Open Scope nat_scope.

Section Spec.
  Context {E : Type}.
  (** the application's state after these events *)
  Definition env_after (e : E) (es : list (cevent E)) : E :=
    fold_left (fun a ev => match ev with CEnv e' => e' | _ => a end) es e.
  (** how often notify() was called, and how often one took effect *)
  Definition notifies (es : list (cevent E)) : nat := length (filter (fun ev => match ev with CNotify _ => true | _ => false end) es).
  Definition wakes (g : list (clog E)) : nat := length (filter (fun x => match x with LWake _ => true | _ => false end) g).

  (** [queue q g q']: with [q] waiting, longest first, [g] can happen and leaves
      [q'] waiting.  A notification wakes exactly the one that waits longest,
      and nobody only if nobody waits. *)
  Inductive queue : list nat -> list (clog E) -> list nat -> Prop :=
  | qu_nil q : queue q [] q
  | qu_wait q t g q' : ~ In t q -> queue (q ++ [t]) g q' -> queue q (LWait t :: g) q'
  | qu_wake t q g q' : queue q g q' -> queue (t :: q) (LWake (Some t) :: g) q'
  | qu_wake_nobody g q' : queue [] g q' -> queue [] (LWake None :: g) q'
  | qu_cancel a t b g q' : queue (a ++ b) g q' -> queue (a ++ t :: b) (LCancel t :: g) q'
  | qu_cancel_woken q t g q' : ~ In t q -> queue q g q' -> queue q (LCancel t :: g) q'
  | qu_return q t e g q' : ~ In t q -> queue q g q' -> queue q (LReturn t e :: g) q'
  | qu_raised q t g q' : ~ In t q -> queue q g q' -> queue q (LRaised t :: g) q'.

  (** no task can run *)
  Definition idle (s : cs E) : Prop := forall t, cond_step (CRun t) s = None.
  Definition returned (t : nat) (g : list (clog E)) : Prop := exists e, In (LReturn t e) g.
  (** p holds after h, and as long as h2 goes on *)
  Definition stays_true (p : E -> bool) (e : E) (h2 : list (cevent E)) : Prop :=
    forall a b, h2 = a ++ b -> p (env_after e a) = true.
End Spec.
