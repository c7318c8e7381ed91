(** * Specification of the mock transports: what a history's events must be *)
From Coq Require Import List ZArith Bool.
From Verif Require Import PyBase MockModel.
Import ListNotations.
Open Scope Z_scope.

(** what was written to transport i, what its protocol was given, what its stream was given *)
Definition wrote (i : side) (l : list event) : list (list Z) := flat_map (fun e => match e with EvWrite j d => if Bool.eqb i j then [d] else [] | _ => [] end) l.
Definition got (i : side) (l : list event) : list payload := flat_map (fun e => match e with EvData j _ x => if Bool.eqb i j then [x] else [] | _ => [] end) l.
Definition stored (i : side) (l : list event) : list (list Z) := flat_map (fun e => match e with EvStore j d => if Bool.eqb i j then [d] else [] | _ => [] end) l.
Definition losses (i : side) (l : list event) : list nat := flat_map (fun e => match e with EvLost j p => if Bool.eqb i j then [p] else [] | _ => [] end) l.
(** what transport i has still to deliver *)
Definition waiting (i : side) (w : world) : list (list Z) :=
  flat_map (fun j => match snd j with (s, JWrite d) => if Bool.eqb i s then [d] else [] | _ => [] end) (w_jobs w).

(** the program makes only calls that are ok *)
Inductive only (ok : api -> Prop) : code -> Prop :=
| only_return : only ok Return
| only_raise : only ok Raise
| only_call a k : ok a -> (forall r, only ok (k r)) -> only ok (Call a k).
(** the program never raises *)
Inductive quiet : code -> Prop :=
| quiet_return : quiet Return
| quiet_call a k : (forall r, quiet (k r)) -> quiet (Call a k).
Definition history_only (ok : api -> Prop) (B : behaviour) (hs : list hstep) : Prop :=
  (forall p i cb l, only ok (B p i cb l)) /\ forall c, In (HCode c) hs -> only ok c.
(** the calls: neither setWriteDelay nor setMyProtocol *)
Definition plain (a : api) : Prop := match a with AWrite _ _ | AClose _ => True | _ => False end.
(** connection_lost does not raise *)
Definition lost_quietly (B : behaviour) : Prop := forall p i l, quiet (B p i ConnectionLost l).
(** of jobs due at one time the loop runs the earlier call's first *)
Definition first_of (w : world) (k : nat) : Prop := forall m x y, (m < k)%nat -> nth_error (w_jobs w) m = Some x -> nth_error (w_jobs w) k = Some y -> fst x <> fst y.
Fixpoint fifo (B : behaviour) (n : nat) (w : world) (hs : list hstep) : Prop :=
  match hs with
  | [] => True
  | h :: r => match h with HFire k => is_next w k = true -> first_of w k | _ => True end /\
              match step B n w h with Some w' => fifo B n w' r | None => True end
  end.
Definition prefix {A} (a b : list A) : Prop := exists c, b = a ++ c.
(** what transport i has delivered: to the other's protocol, or to its stream *)
Definition delivered (k : kind) (i : side) (l : list event) : list payload :=
  match k with ToProtocol => got (negb i) l | ToStream => map Bytes (stored i l) end.
