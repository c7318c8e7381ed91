(** * Model of LineReceiver, common/io/ui/CLIShell.py 346-486 (LR) *)
From Coq Require Import List ZArith Bool.
From Verif Require Import PyBase.
Import ListNotations.
Open Scope nat_scope.

(** ** bytes.split(delimiter, 1) *)
(** b without the prefix d *)
Fixpoint starts (d b : bytes) : option bytes :=
  match d, b with
  | [], _ => Some b
  | x :: d', y :: b' => if Z.eqb x y then starts d' b' else None
  | _ :: _, [] => None
  end.
Fixpoint split1 (d b : bytes) : option (bytes * bytes) :=
  match starts d b with
  | Some r => Some ([], r)
  | None => match b with
            | [] => None
            | x :: b' => match split1 d b' with Some (l, r) => Some (x :: l, r) | None => None end
            end
  end.
(** LR 393-396: the two-element unpacking, or ValueError; an empty separator is
    a ValueError as well *)
Definition split_line (d b : bytes) : option (bytes * bytes) := match d with [] => None | _ => split1 d b end.

(** What [transport] is when a line has been handled (LR 409-410): None, an
    object with a [disconnecting] attribute (Twisted's), or one without
    (asyncio's and StackingTransport) *)
Inductive trkind := NoTransport | Twisted (disconnecting : bool) | Plain.

Record lr := Lr { r_buf : bytes; r_raw : bool; r_busy : bool; r_tr : trkind }.       (* LR 363-365; not line_mode *)
(** the class attributes at their defaults, transport None until connection_made (Protocol.py 47) *)
Definition lr_new (t : trkind) : lr := Lr [] false false t.
Definition with_buf (s : lr) (b : bytes) : lr := Lr b (r_raw s) (r_busy s) (r_tr s).
Definition with_busy (s : lr) (x : bool) : lr := Lr (r_buf s) (r_raw s) x (r_tr s).

(** The overridable methods: line_received, rawDataReceived, lineLengthExceeded *)
Inductive upcall := ULine (l : bytes) | URaw (b : bytes) | UExceeded (b : bytes).
(** What such a method, and code outside, can do with the receiver: feed data,
    setLineMode(extra), setRawMode(), clearLineBuffer(), lose_connection() of
    the transport *)
Inductive lact := AData (b : bytes) | ALineMode (extra : bytes) | ARawMode | AClear | ALose.
(** ... and how it ends: its return value as a condition, or an exception *)
Inductive hres := HRet (why : bool) | HExc.

(** The record of what happened *)
Inductive llog := LIn (b : bytes) | LUp (u : upcall) | LClear (b : bytes) | LMode (raw : bool).

(** actions while a receive is under way: LR 384-386 (busy), 421-433, 435-441,
    369-376 *)
Definition lr_act (a : lact) (s : lr) : lr * list llog :=
  match a with
  | AData b => (with_buf s (r_buf s ++ b), [LIn b])
  | ALineMode e => (Lr (r_buf s ++ e) false (r_busy s) (r_tr s), [LMode false; LIn e])
  | ARawMode => (Lr (r_buf s) true (r_busy s) (r_tr s), [LMode true])
  | AClear => (with_buf s [], [LClear (r_buf s)])
  | ALose => (Lr (r_buf s) (r_raw s) (r_busy s) (match r_tr s with Twisted _ => Twisted true | t => t end), [])
  end.
Fixpoint lr_acts (l : list lact) (s : lr) : lr * list llog :=
  match l with
  | [] => (s, [])
  | a :: r => let (s1, g1) := lr_act a s in let (s2, g2) := lr_acts r s1 in (s2, g1 ++ g2)
  end.

Section Receiver.
  (** delimiter and MAX_LENGTH, LR 366-367; the subclass with its own state *)
  Context (d : bytes) (max : nat) {U : Type} (handler : U -> upcall -> U * list lact * hres).

  (** One turn of the loop up to the call it makes: LR 391-407, 413-415 *)
  Definition fetch (s : lr) : option (upcall * lr) :=
    match r_buf s with
    | [] => None                                                                    (* 391 *)
    | _ =>
        if r_raw s then Some (URaw (r_buf s), with_buf s [])                         (* 413-415 *)
        else match split_line d (r_buf s) with
             | None => if max <? length (r_buf s) then Some (UExceeded (r_buf s), with_buf s []) else None   (* 396-400 *)
             | Some (l, rest) =>
                 if max <? length l then Some (UExceeded (l ++ d ++ rest), with_buf s [])                   (* 402-406 *)
                 else Some (ULine l, with_buf s rest)                                                       (* 407 *)
             end
    end.
  (** how the call of data_received ended: nothing left to do, told to stop
      (LR 409-411, 416-417), after lineLengthExceeded, with an exception *)
  Inductive lout := OIdle | OStopped | OExceeded | OExc.
  (** LR 399, 406, 409-411, 416-417: after the method returned; None: go round *)
  Definition after (u : upcall) (h : hres) (s : lr) : option lout :=
    match h with
    | HExc => Some OExc
    | HRet why =>
        match u with
        | UExceeded _ => Some OExceeded
        | URaw _ => if why then Some OStopped else None
        | ULine _ => if why then Some OStopped
                     else match r_tr s with
                          | NoTransport | Twisted false => None
                          | Twisted true => Some OStopped
                          | Plain => Some OExc                    (* no attribute 'disconnecting' *)
                          end
        end
    end.
  (** LR 391-417; None: not finished within [fuel] turns *)
  Fixpoint lr_loop (fuel : nat) (u : U) (s : lr) : option (U * lr * list llog * lout) :=
    match fuel with
    | O => None
    | S n =>
        match fetch s with
        | None => Some (u, s, [], OIdle)
        | Some (c, s1) =>
            let '(u2, acts, h) := handler u c in
            let (s2, g) := lr_acts acts s1 in
            match after c h s2 with
            | Some o => Some (u2, s2, LUp c :: g, o)
            | None => match lr_loop n u2 s2 with
                      | Some (u3, s3, g3, o) => Some (u3, s3, LUp c :: g ++ g3, o)
                      | None => None
                      end
            end
        end
    end.
  (** data_received, LR 378-419 *)
  Definition lr_data (fuel : nat) (b : bytes) (u : U) (s : lr) : option (U * lr * list llog * lout) :=
    if r_busy s then Some (u, with_buf s (r_buf s ++ b), [LIn b], OIdle)                (* 384-386 *)
    else match lr_loop fuel u (with_busy (with_buf s (r_buf s ++ b)) true) with          (* 389-390 *)
         | Some (u1, s1, g, o) => Some (u1, with_busy s1 false, LIn b :: g, o)           (* 418-419 *)
         | None => None
         end.
  (** An action from outside *)
  Definition lr_ext (fuel : nat) (a : lact) (u : U) (s : lr) : option (U * lr * list llog * lout) :=
    match a with
    | AData b => lr_data fuel b u s
    | ALineMode e =>                                                                     (* LR 431-433 *)
        let s1 := Lr (r_buf s) false (r_busy s) (r_tr s) in
        match e with
        | [] => Some (u, s1, [LMode false], OIdle)
        | _ => match lr_data fuel e u s1 with Some (u2, s2, g, o) => Some (u2, s2, LMode false :: g, o) | None => None end
        end
    | _ => let (s1, g) := lr_act a s in Some (u, s1, g, OIdle)
    end.
  Fixpoint lr_run (fuel : nat) (l : list lact) (u : U) (s : lr) : option (U * lr * list llog) :=
    match l with
    | [] => Some (u, s, [])
    | a :: r => match lr_ext fuel a u s with
                | None => None
                | Some (u1, s1, g1, _) => match lr_run fuel r u1 s1 with Some (u2, s2, g2) => Some (u2, s2, g1 ++ g2) | None => None end
                end
    end.
End Receiver.
(** sendLine, LR 457-463: what is written *)
Definition send_line (d l : bytes) : bytes := l ++ d.
