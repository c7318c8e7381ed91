(** * Specification of the route computation: an undirected graph of locations *)
From Coq Require Import List Bool Arith.
From Verif Require Import PyBase WanModel.
Import ListNotations.

Section Graph.
  Context {P : Type} `{EqDec P}.

  (** the registered locations and the direct connections between them (each
      listed in both directions) *)
  Record graph := Graph { g_nodes : list P; g_edges : list (P * P) }.
  Definition g_new : graph := Graph [] [].

  (** the given connections up to the first unknown location *)
  Fixpoint known (ns ds : list P) : list P :=
    match ds with d :: r => if in_dec eq_dec d ns then d :: known ns r else [] | [] => [] end.

  (** Registering adds a location once.  Setting the direct connections of [r]
      replaces all its connections by the given ones. *)
  Definition g_step (o : wop P) (g : graph) : graph :=
    match o with
    | WReg p => if in_dec eq_dec p (g_nodes g) then g else Graph (g_nodes g ++ [p]) (g_edges g)
    | WSet r ds =>
        if in_dec eq_dec r (g_nodes g)
        then Graph (g_nodes g)
               (filter (fun e => negb (eqb (fst e) r) && negb (eqb (snd e) r)) (g_edges g)
                ++ flat_map (fun d => [(r, d); (d, r)]) (known (g_nodes g) ds))
        else g
    end.
  Fixpoint g_run (os : list (wop P)) (g : graph) : graph :=
    match os with [] => g | o :: r => g_run r (g_step o g) end.

  (** [walk E u p v]: starting at [u], the hops [p] follow direct connections
      and end at [v] *)
  Inductive walk (E : list (P * P)) : P -> list P -> P -> Prop :=
  | walk_one u v : In (u, v) E -> walk E u [v] v
  | walk_cons u w p v : In (u, w) E -> walk E w p v -> walk E u (w :: p) v.

  Definition reachable (E : list (P * P)) (u v : P) : Prop := exists p, walk E u p v.
  Definition shortest (E : list (P * P)) (u : P) (p : list P) (v : P) : Prop :=
    walk E u p v /\ forall q, walk E u q v -> length p <= length q.

  (** following the next hop [n] times *)
  Fixpoint follow (next : P -> P -> option P) (n : nat) (u v : P) : option P :=
    match n with
    | O => Some u
    | S m => match next u v with Some w => follow next m w v | None => None end
    end.
End Graph.
Arguments graph : clear implicits.
