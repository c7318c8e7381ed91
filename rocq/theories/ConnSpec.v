(** * What a user of create_connection and create_server expects *)
From Coq Require Import List ZArith Bool.
From Verif Require Import PyBase ClientModel CallbackModel ConnModel.
Import ListNotations.
Open Scope nat_scope.

(** the call has ended *)
Definition ends (k : call) (x : ylog) : bool :=
  match x with
  | YLReturn k' _ _ | YLServer k' _ _ | YLRaise k' _ => Nat.eqb k' k
  | _ => false
  end.
Definition ended (k : call) (g : list ylog) : Prop := exists x, In x g /\ ends k x = true.
(** TCP connections begun, to any VNIC or to this one *)
Definition tcps (g : list ylog) : list loc := flat_map (fun x => match x with YLTcp _ l => [l] | _ => [] end) g.
(** A connection is only asked for when the ones asked for before have ended. *)
Definition one_at_a_time (es : list yevent) : Prop :=
  forall a k l b s g, es = a ++ VConnect k l :: b -> y_run a sys_new = Some (s, g) ->
    forall k' l', In (VConnect k' l') a -> ended k' g.
(** no call and no task of the condition can run on *)
Definition quiet (s : sys) : Prop := y_step VNotify s = None /\ forall k, y_step (VResume k) s = None.
(** the event is a call, to this VNIC *)
Definition calls_to (l : loc) (e : yevent) : option call :=
  match e with VConnect k l' | VListen k l' => if Nat.eqb l' l then Some k else None | _ => None end.
(** the VNIC has not answered the request (c, id), and can *)
Definition unanswered (c : ctrl) (id : Z) (s : sys) : Prop :=
  exists x, dget (y_ctrl s) c = Some x /\ dget (c_fut x) id = Some FPending.
