(** * What the test loop and the timer should do *)
From Coq Require Import List ZArith Bool.
From Verif Require Import PyBase TimerModel.
Import ListNotations.
Open Scope Z_scope.

(** ** The test loop, on the list of pending entries in order of scheduling *)

(** [earliest l x rest]: [x] is the entry of [l] with the smallest due time,
    and among those the one scheduled first; [rest] are the others, in order *)
Definition earliest (l : list (Z * task)) (x : Z * task) (rest : list (Z * task)) : Prop :=
  exists pre post, l = pre ++ x :: post /\ rest = pre ++ post /\
    (forall y, In y pre -> fst x < fst y) /\ (forall y, In y post -> fst x <= fst y).
Definition scheduled (now : Z) (sp : list (Z * task)) : list (Z * task) := map (fun dt => (now + fst dt, snd dt)) sp.
(** [due_run now l log l']: run entries due at [now], always the earliest, until
    none is left; those run add their own entries at the end *)
Inductive due_run (now : Z) : list (Z * task) -> list (Z * nat) -> list (Z * task) -> Prop :=
| due_done l : (forall x, In x l -> now < fst x) -> due_run now l [] l
| due_next l due id sp rest log l' :
    earliest l (due, Task id sp) rest -> due <= now ->
    due_run now (rest ++ scheduled now sp) log l' ->
    due_run now l ((due, id) :: log) l'.
Inductive spec_run : Z -> list (Z * task) -> list lop -> list (list (Z * nat)) -> Z -> list (Z * task) -> Prop :=
| spec_end now l : spec_run now l [] [] now l
| spec_later now l d t os xs now' l' :
    spec_run now (l ++ [(now + d, t)]) os xs now' l' -> spec_run now l (LLater d t :: os) ([] :: xs) now' l'
| spec_set now l t os xs now' l' :
    spec_run t l os xs now' l' -> spec_run now l (LSetClock t :: os) ([] :: xs) now' l'
| spec_advance now l s log l1 os xs now' l' :
    due_run (now + s) l log l1 -> spec_run (now + s) l1 os xs now' l' ->
    spec_run now l (LAdvance s :: os) (log :: xs) now' l'.

(** ** Timer histories *)
Definition is_start (o : top) : bool := match o with OStart => true | _ => false end.
Definition is_expire (o : top) : bool := match o with OExpire => true | _ => false end.
Definition is_cancel (o : top) : bool := match o with OCancel => true | _ => false end.
Definition is_extend (o : top) : bool := match o with OExtend _ => true | _ => false end.
Definition count (f : top -> bool) (os : list top) : nat := length (filter f os).
(** handles that can still run *)
Definition live (s : timer) : list (nat * Z * bool) := filter (fun h => negb (snd h)) (t_handles s).
(** every start happens while the timer is not armed: never started, or fired
    or cancelled since *)
Fixpoint starts_unarmed (os : list top) (s : timer) : Prop :=
  match os with
  | [] => True
  | o :: r => (o = OStart -> live s = []) /\ forall s', tstep o s = Some s' -> starts_unarmed r s'
  end.
(** no task asks for a negative delay, at any depth *)
Inductive nonneg_task : task -> Prop :=
| NNTask i sp : (forall d t, In (d, t) sp -> 0 <= d /\ nonneg_task t) -> nonneg_task (Task i sp).
Inductive nondecreasing : list Z -> Prop :=
| nd_nil : nondecreasing []
| nd_cons x l : (forall y, In y l -> x <= y) -> nondecreasing l -> nondecreasing (x :: l).
