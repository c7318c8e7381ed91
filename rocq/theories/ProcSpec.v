(** * Specification of the VNIC process and of what the manager reads of it *)
From Coq Require Import String.
From Coq Require Import List ZArith Bool.
From Verif Require Import PyBase ProcModel.
Import ListNotations.
Open Scope Z_scope.

(** where the process is in its way to the switch *)
Inductive phase :=
| Waits (t : Z)            (* the next attempt is at t *)
| Connects                 (* an attempt is under way *)
| Opens (l : nat)          (* it has reached the switch *)
| Up (l : nat)             (* the link is up *)
| Gone.                    (* nothing is planned *)
(** the timers, the attempts, the links being opened, the links that are up *)
Definition at_phase (p : proc) (x : phase) : Prop :=
  (p_timers p, p_attempts p, p_opening p, p_links p) =
  match x with
  | Waits t => ([t], 0%nat, [], [])
  | Connects => ([], 1%nat, [], [])
  | Opens l => ([], 0%nat, [l], [])
  | Up l => ([], 0%nat, [], [l])
  | Gone => ([], 0%nat, [], [])
  end.
Definition writes_ok (e : pevent) : Prop := match e with PUp _ r | PLost _ r => r = WOk | _ => True end.
Definition losses_written (e : pevent) : Prop := match e with PLost _ r => r = WOk | _ => True end.
Definition no_trouble (e : pevent) : Prop := match e with PFail | PLost _ _ => False | PUp _ r => r = WOk | _ => True end.
Definition ticks (es : list pevent) : Z := fold_right (fun e n => match e with PTick d => Z.of_nat d + n | _ => n end) 0 es.
(** the word is nowhere in the text, whatever the case of the letters A-Z *)
Definition ascii_lower (c : Z) : Z := if (65 <=? c) && (c <=? 90) then c + 32 else c.
Definition without (word : string) (text : pystr) : Prop := forall a b, map ascii_lower text <> a ++ lit word ++ b.

(** what ps prints: a header, then a line for each process *)
Definition line (l : pystr) : Prop := ~ In 10 l.
Definition blank (l : pystr) : Prop := Forall (fun c => 9 <= c <= 13 \/ c = 32) l.
Definition header (l : pystr) : Prop := line l /\ exists sp r, blank sp /\ l = sp ++ lit "PID" ++ r.
Fixpoint unlines (ls : list pystr) : pystr := match ls with [] => [] | l :: r => l ++ 10 :: unlines r end.
(** the attempts begun in a history *)
Fixpoint begun port ip sp sf (p : proc) (es : list pevent) : Z :=
  match es with
  | [] => 0
  | e :: r => let p' := pstep port ip sp sf p e in (if Nat.ltb (p_attempts p) (p_attempts p') then 1 else 0) + begun port ip sp sf p' r
  end.
