(** * Model of SimpleCondition, asyncio_lib/SimpleCondition.py (SC), on
    asyncio's Lock and Condition (Python 3.6-3.8, the versions in which
    [with (await condition)] is allowed; asyncio/locks.py of CPython 3.6 is
    cited as AL, by function) *)
From Coq Require Import List ZArith Bool.
From Verif Require Import PyBase.
Import ListNotations.
Open Scope nat_scope.

Section Cond.
  (** what the predicates look at: anything the application changes.  A
      predicate is taken to be a function of it (SC 11 evaluates it again right
      after wait_for has, with nothing run in between) *)
  Context {E : Type}.
  Definition task := nat.
  Definition pred := E -> bool.

  (** what a task does once it has the lock: look at its predicate (SC 9-13,
      AL wait_for), notify (SC 17), or go on raising CancelledError (AL wait:
      the lock is taken again in any case) *)
  Inductive cont := KEval (p : pred) | KNotify | KRaise.
  Inductive pc :=
  | PStart                              (* ensure_future(self.awaitNotify()), not yet run: SC 20 *)
  | PLock (k : cont)                    (* in Lock.acquire, on a future of _waiters *)
  | PWait (p : pred) (cancelled : bool) (* in Condition.wait, on a future of _waiters *)
  | PDone | PCancelled.
  Record cs := Cs {
    c_env : E;
    c_locked : bool;                    (* Lock._locked *)
    c_lockq : list (task * bool);       (* Lock._waiters: is the future done? *)
    c_waitq : list (task * bool);       (* Condition._waiters: is the future done? *)
    c_pc : dict task pc
  }.
  Definition cond_new (e : E) : cs := Cs e false [] [] [].                        (* SC 4-5 *)

  (** t begins to wait; a notify() takes effect and wakes this task or nobody;
      t's awaitCondition returns, seeing this state; t is cancelled; t has
      left awaitCondition with CancelledError *)
  Inductive clog := LWait (t : task) | LWake (o : option task) | LReturn (t : task) (e : E) | LCancel (t : task) | LRaised (t : task).

  (** future.set_result / cancel() on the future of [t] *)
  Fixpoint mark (t : task) (q : list (task * bool)) : list (task * bool) :=
    match q with [] => [] | (u, b) :: r => if eq_dec t u then (u, true) :: r else (u, b) :: mark t r end.
  Fixpoint first_pending (q : list (task * bool)) : option task :=
    match q with [] => None | (u, b) :: r => if b then first_pending r else Some u end.
  Fixpoint drop (t : task) (q : list (task * bool)) : list (task * bool) :=
    match q with [] => [] | (u, b) :: r => if eq_dec t u then r else (u, b) :: drop t r end.
  Definition set_pc (t : task) (x : pc) (s : cs) : cs := Cs (c_env s) (c_locked s) (c_lockq s) (c_waitq s) (dset (c_pc s) t x).

  (** AL Lock.release with _wake_up_first *)
  Definition release (s : cs) : cs :=
    Cs (c_env s) false (match c_lockq s with [] => [] | (u, _) :: r => (u, true) :: r end) (c_waitq s) (c_pc s).
  (** the lock is held: SC 9-13, SC 17 *)
  Definition enter (t : task) (k : cont) (s : cs) : cs * list clog :=
    match k with
    | KEval p =>
        if p (c_env s) then (set_pc t PDone (release s), [LReturn t (c_env s)])   (* SC 11-13, 8 *)
        else (* AL wait: release, then a new future at the end *)
          let s1 := release s in
          (Cs (c_env s1) (c_locked s1) (c_lockq s1) (c_waitq s1 ++ [(t, false)]) (dset (c_pc s1) t (PWait p false)), [LWait t])
    | KNotify =>                                                                   (* AL notify(1) *)
        let o := first_pending (c_waitq s) in
        let q := match o with Some u => mark u (c_waitq s) | None => c_waitq s end in
        (set_pc t PDone (release (Cs (c_env s) (c_locked s) (c_lockq s) q (c_pc s))), [LWake o])
    | KRaise => (set_pc t PCancelled (release s), [LRaised t])
    end.
  (** AL Lock.acquire (nobody waiting for the lock is cancelled: CCancel below) *)
  Definition acquire (t : task) (k : cont) (s : cs) : cs * list clog :=
    if negb (c_locked s) && match c_lockq s with [] => true | _ => false end
    then enter t k (Cs (c_env s) true (c_lockq s) (c_waitq s) (c_pc s))
    else (Cs (c_env s) (c_locked s) (c_lockq s ++ [(t, false)]) (c_waitq s) (dset (c_pc s) t (PLock k)), []).

  (** awaitCondition(p) is called in task t; notify() is called, creating task
      t; the application changes what predicates look at; a task that is ready
      runs; a waiting task is cancelled, as asyncio.wait_for does at its timeout *)
  Inductive cevent := CAwait (t : task) (p : pred) | CNotify (t : task) | CEnv (e : E) | CRun (t : task) | CCancel (t : task).
  (** None: the event cannot happen *)
  Definition cond_step (ev : cevent) (s : cs) : option (cs * list clog) :=
    match ev with
    | CAwait t p => if dhas (c_pc s) t then None else Some (acquire t (KEval p) s)                      (* SC 7-8 *)
    | CNotify t => if dhas (c_pc s) t then None else Some (set_pc t PStart s, [])                       (* SC 19-20 *)
    | CEnv e => Some (Cs e (c_locked s) (c_lockq s) (c_waitq s) (c_pc s), [])
    | CRun t =>
        match dget (c_pc s) t with
        | Some PStart => Some (acquire t KNotify s)                                                     (* SC 15-16 *)
        | Some (PLock k) =>
            match dget (c_lockq s) t with
            | Some true => Some (enter t k (Cs (c_env s) true (drop t (c_lockq s)) (c_waitq s) (c_pc s)))
            | _ => None
            end
        | Some (PWait p cancelled) =>                                                                   (* AL wait *)
            match dget (c_waitq s) t with
            | Some true =>
                Some (acquire t (if cancelled then KRaise else KEval p) (Cs (c_env s) (c_locked s) (c_lockq s) (drop t (c_waitq s)) (c_pc s)))
            | _ => None
            end
        | _ => None
        end
    | CCancel t =>
        match dget (c_pc s) t with
        | Some (PWait p _) =>     (* a pending future is cancelled, so done; else the task raises when it runs *)
            Some (Cs (c_env s) (c_locked s) (c_lockq s) (mark t (c_waitq s)) (dset (c_pc s) t (PWait p true)), [LCancel t])
        | _ => None               (* waiting for the lock is not reached: lock_free in CondProofs *)
        end
    end.
  Fixpoint cond_run (es : list cevent) (s : cs) : option (cs * list clog) :=
    match es with
    | [] => Some (s, [])
    | e :: r => match cond_step e s with
                | None => None
                | Some (s1, g1) => match cond_run r s1 with Some (s2, g2) => Some (s2, g1 ++ g2) | None => None end
                end
    end.
End Cond.
Arguments cs E : clear implicits.
Arguments pred E : clear implicits.
Arguments clog E : clear implicits.
Arguments cevent E : clear implicits.
