(** * Model of common/Timer.py and asyncio_lib/testing/TestLoopEx.py *)
From Coq Require Import List ZArith Bool.
From Verif Require Import PyBase.
Import ListNotations.
Open Scope Z_scope.

(** ** TestLoopEx.  Times are integers (the code uses floats). *)

(** What a scheduled callable does when run, as far as the loop can see: it has
    an identity and calls call_later(d, t) for the listed pairs, in order.
    (call_soon(t) is call_later(0, t), TestLoopEx.py:32-33.)  Simplification:
    the set of callbacks that can ever be scheduled is finite. *)
Inductive task := Task (id : nat) (spawns : list (Z * task)).

(** TestLoopEx.__init__, 5-9: the clock and the schedule *)
Record loop := Loop { l_clock : Z; l_sched : list (Z * task) }.
Definition loop_new : loop := Loop 0 [].

(** list.sort(key=fst), a stable sort (standard library) *)
Fixpoint ins (x : Z * task) (l : list (Z * task)) : list (Z * task) :=
  match l with
  | [] => [x]
  | y :: r => if fst x <=? fst y then x :: l else y :: ins x r
  end.
Fixpoint pysort (l : list (Z * task)) : list (Z * task) :=
  match l with [] => [] | x :: r => ins x (pysort r) end.

(** call_later, 35-39.  It returns None. *)
Definition call_later (d : Z) (t : task) (l : loop) : loop :=
  Loop (l_clock l) (pysort (l_sched l ++ [(l_clock l + d, t)])).
(** running a callable *)
Definition run_task (t : task) (l : loop) : loop :=
  match t with Task _ sp => fold_left (fun l dt => call_later (fst dt) (snd dt) l) sp l end.
(** _test_run_once, 18-21; [fuel] bounds the iterations.  The log lists the
    entries run: due time and identity. *)
Fixpoint run_once (fuel : nat) (l : loop) : loop * list (Z * nat) :=
  match fuel, l_sched l with
  | S f, (due, Task id sp) :: r =>
      if due <=? l_clock l then
        let (l', log) := run_once f (run_task (Task id sp) (Loop (l_clock l) r)) in
        (l', (due, id) :: log)
      else (l, [])
  | _, _ => (l, [])
  end.
(** an upper bound for the number of iterations *)
Fixpoint task_size (t : task) : nat :=
  match t with Task _ sp => S ((fix go sp := match sp with [] => O | (_, t) :: r => task_size t + go r end) sp) end%nat.
Definition sched_size (s : list (Z * task)) : nat := fold_right (fun x n => task_size (snd x) + n)%nat O s.
(** _test_advance_time, 14-16, and _test_set_clock, 11-12 *)
Definition advance (seconds : Z) (l : loop) : loop * list (Z * nat) :=
  let l := Loop (l_clock l + seconds) (l_sched l) in
  run_once (sched_size (l_sched l)) l.
Definition set_clock (t : Z) (l : loop) : loop := Loop t (l_sched l).

(** A client history *)
Inductive lop := LLater (d : Z) (t : task) | LSetClock (t : Z) | LAdvance (s : Z).
Definition lstep (o : lop) (l : loop) : loop * list (Z * nat) :=
  match o with
  | LLater d t => (call_later d t l, [])
  | LSetClock t => (set_clock t l, [])
  | LAdvance s => advance s l
  end.
Fixpoint lrun (os : list lop) (l : loop) : loop * list (list (Z * nat)) :=
  match os with
  | [] => (l, [])
  | o :: r => let (l1, x) := lstep o l in let (l2, xs) := lrun r l1 in (l2, x :: xs)
  end.

(** ** Timer on an asyncio event loop.
    The loop is any loop that runs a handle returned by call_later at some
    moment not before its time, unless it was cancelled (asyncio).  [ORun i] is
    the loop's choice to run handle number [i]; [OTick d] lets time pass. *)
Record timer := Timer_ { t_now : Z; t_delay : Z; t_task : option nat;
                         t_handles : list (nat * Z * bool);   (* number, time, cancelled; not yet run *)
                         t_next : nat;
                         t_fired : list Z }.                  (* when the callback was called *)
(** Timer.__init__, 22-27 *)
Definition timer_new (delay now : Z) : timer := Timer_ now delay None [] 0 [].
(** start, 46-49 *)
Definition t_start (s : timer) : timer :=
  Timer_ (t_now s) 0 (Some (t_next s)) (t_handles s ++ [(t_next s, t_now s + t_delay s, false)]) (S (t_next s)) (t_fired s).
(** the call of the callback *)
Definition t_callback (s : timer) : timer :=
  Timer_ (t_now s) (t_delay s) (t_task s) (t_handles s) (t_next s) (t_fired s ++ [t_now s]).
(** _fireCallback, 29-37 *)
Definition t_fire (s : timer) : timer := if t_delay s =? 0 then t_callback s else t_start s.
(** extend, 39-40 *)
Definition t_extend (d : Z) (s : timer) : timer :=
  Timer_ (t_now s) d (t_task s) (t_handles s) (t_next s) (t_fired s).
(** TimerHandle.cancel (asyncio); a handle that has run is not affected *)
Definition cancel_handle (i : nat) (hs : list (nat * Z * bool)) : list (nat * Z * bool) :=
  map (fun h => if Nat.eqb (fst (fst h)) i then (fst h, true) else h) hs.
(** cancel, 42-43; self._task is None before the first start *)
Definition t_cancel (s : timer) : res timer :=
  match t_task s with
  | None => Raise AttributeError
  | Some i => Ok (Timer_ (t_now s) (t_delay s) (t_task s) (cancel_handle i (t_handles s)) (t_next s) (t_fired s))
  end.
(** expire, 51-53 *)
Definition t_expire (s : timer) : res timer :=
  match t_cancel s with Raise e => Raise e | Ok s => Ok (t_callback s) end.

Inductive top := OTick (d : Z) | ORun (i : nat) | OStart | OExtend (d : Z) | OCancel | OExpire.
(** [None]: the loop cannot do this now.  A call that raises leaves the timer
    as it was. *)
Definition tstep (o : top) (s : timer) : option timer :=
  match o with
  | OTick d => if 0 <=? d then Some (Timer_ (t_now s + d) (t_delay s) (t_task s) (t_handles s) (t_next s) (t_fired s)) else None
  | ORun i =>
      match find (fun h => Nat.eqb (fst (fst h)) i) (t_handles s) with
      | Some (_, when, false) =>
          if when <=? t_now s
          then Some (t_fire (Timer_ (t_now s) (t_delay s) (t_task s)
                               (filter (fun h => negb (Nat.eqb (fst (fst h)) i)) (t_handles s)) (t_next s) (t_fired s)))
          else None
      | _ => None
      end
  | OStart => Some (t_start s)
  | OExtend d => Some (t_extend d s)
  | OCancel => match t_cancel s with Ok s' => Some s' | Raise _ => Some s end
  | OExpire => match t_expire s with Ok s' => Some s' | Raise _ => Some s end
  end.
Fixpoint texec (os : list top) (s : timer) : option timer :=
  match os with
  | [] => Some s
  | o :: r => match tstep o s with Some s' => texec r s' | None => None end
  end.
