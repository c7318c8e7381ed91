(** * What is expected of the management protocol *)
From Coq Require Import List ZArith Bool.
From Verif Require Import PyBase SpmpModel.
Import ListNotations.

(** A request is authorised: there is no policy, or the policy allows it. *)
Definition authorised {D} (sv : server D) (peer : option pystr) (r : spmp) : bool :=
  match s_security sv with Some pol => pol peer r | None => true end.
Definition knows {D} (sv : server D) (r : spmp) : bool := dhas (s_api sv) (m_request r).

Definition runs (g : list slog) : list (pystr * list pystr) := flat_map (fun e => match e with SRun c a => [(c, a)] | _ => [] end) g.
Definition replies (g : list slog) : list spmp := flat_map (fun e => match e with SSend p => [p] | _ => [] end) g.
Definition closes (g : list slog) : nat := length (filter (fun e => match e with SClose => true | _ => false end) g).
Definition served (g : list mlog) : list slog := flat_map (fun e => match e with MServe s => [s] | _ => [] end) g.
Definition to_main (g : list mlog) : list bytes := flat_map (fun e => match e with MMain b => [b] | _ => [] end) g.

(** ** Client histories *)
Definition queries (es : list qevent) : list (query * Z) := flat_map (fun e => match e with QQuery q id => [(q, id)] | _ => [] end) es.
Definition response_ids (es : list qevent) : list Z := flat_map (fun e => match e with QResponse id _ => [id] | _ => [] end) es.
(** The last response with an id *)
Definition latest (es : list qevent) (id : Z) : option (pystr * option pystr) :=
  fold_left (fun a e => match e with QResponse i v => if Z.eqb i id then Some v else a | _ => a end) es None.
(** The other side answers the requests one after the other, and no request id
    is used twice. *)
Definition answered_in_order (es : list qevent) : Prop :=
  NoDup (map snd (queries es)) /\
  forall p r, es = p ++ r -> exists k, response_ids p = firstn k (map snd (queries p)).
