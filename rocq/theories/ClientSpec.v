(** * What the control client should do with responses *)
From Coq Require Import List ZArith Bool.
From Verif Require Import PyBase ClientModel.
Import ListNotations.
Open Scope Z_scope.

(** A listen is answered by the first open response; a connect by the first
    failing response or the first spawn notification. *)
Definition answers (k : ckind) (id : Z) (p : cpkt) : option outcome :=
  match p, k with
  | CResp i true _, _ => if Z.eq_dec i id then Some OFailure else None
  | CResp i false port, KListen => if Z.eq_dec i id then Some (OResult id port) else None
  | CSpawn i _ sport, KConnect => if Z.eq_dec i id then Some (OResult id sport) else None
  | _, _ => None
  end.
(** The outcome of a request, given what came after it; none after a timeout *)
Fixpoint outcome_of (k : ckind) (id : Z) (after : list clog) : option outcome :=
  match after with
  | [] => None
  | LCancel i :: r => if Z.eq_dec i id then None else outcome_of k id r
  | LPkt p _ _ _ :: r => match answers k id p with Some o => Some o | None => outcome_of k id r end
  | _ :: r => outcome_of k id r
  end.
Fixpoint cancelled (k : ckind) (id : Z) (after : list clog) : bool :=
  match after with
  | [] => false
  | LCancel i :: r => if Z.eq_dec i id then true else cancelled k id r
  | LPkt p _ _ _ :: r => match answers k id p with Some _ => false | None => cancelled k id r end
  | _ :: r => cancelled k id r
  end.
(** the completions of futures in a log, of one request *)
Definition completions (id : Z) (g : list clog) : list outcome :=
  concat (map (fun x => match x with LPkt _ _ (Some (i, o)) _ => if Z.eq_dec i id then [o] else [] | _ => [] end) g).
Definition requests (g : list clog) : list Z :=
  concat (map (fun x => match x with LReq _ id => [id] | _ => [] end) g).
(** the request of this number in a log *)
Fixpoint request_of (id : Z) (g : list clog) : option ckind :=
  match g with
  | [] => None
  | LReq k i :: r => if Z.eq_dec i id then Some k else request_of id r
  | _ :: r => request_of id r
  end.
(** a connect request for which neither a failure nor a spawn was handled *)
Fixpoint unanswered_connect (id : Z) (g : list clog) (b : bool) : bool :=
  match g with
  | [] => b
  | LReq KConnect i :: r => unanswered_connect id r (if Z.eq_dec i id then true else b)
  | LPkt p _ _ _ :: r => unanswered_connect id r (match answers KConnect id p with Some _ => false | None => b end)
  | _ :: r => unanswered_connect id r b
  end.
(** packets arrived, packets handled *)
Definition arrived (es : list cevent) : list cpkt :=
  concat (map (fun e => match e with EData ps => ps | _ => [] end) es).
Definition handled (g : list clog) : list cpkt :=
  concat (map (fun x => match x with LPkt p _ _ _ => [p] | _ => [] end) g).
