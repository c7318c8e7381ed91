(** * Model of the route computation of
      network/devices/routing/HierarchyWAN.py (abbreviated WAN) *)
From Coq Require Import List ZArith Bool.
From Verif Require Import PyBase.
Import ListNotations.

Section Routes.
  (** the type of router prefixes (any hashable; ints in launch_wan.py) *)
  Context {P : Type} `{EqDec P}.

  (** [_apsp], WAN 21: for each source the known routes, a route being the list
      of hops after the source.  The keys of [_switches] (22) are the same at
      all times (41-42), so membership in both is one test. *)
  Definition routes := dict P (dict P (list P)).
  Definition routes_new : routes := [].

  (** self._apsp[s].get(d, None) *)
  Definition get2 (a : routes) (s d : P) : option (list P) :=
    match dget a s with Some row => dget row d | None => None end.
  (** self._apsp[s][d] = p, for a key s *)
  Definition set2 (a : routes) (s d : P) (p : list P) : routes :=
    match dget a s with Some row => dset a s (dset row d p) | None => a end.

  (** registerLANSwitch, WAN 33-43 *)
  Definition wan_register (p : P) (a : routes) : routes * res unit :=
    if dhas a p then (a, Raise GenericException) else (dset a p [], Ok tt).

  (** WAN 56-66, on the routes of one source *)
  Definition clean_row (r : P) (row : dict P (list P)) : dict P (list P) :=
    let row := if dhas row r then ddel row r else row in              (* 56-58 *)
    filter (fun dp => negb (smem (snd dp) r)) row.                    (* 60-66 *)
  (** WAN 49-66, without the direct links (52-54) *)
  Definition wan_clear (r : P) (a : routes) : routes :=
    map (fun pr => (fst pr, clean_row r (snd pr))) (dset a r []).

  (** WAN 68-76 *)
  Fixpoint wan_add (r : P) (ds : list P) (a : routes) : routes * res unit :=
    match ds with
    | [] => (a, Ok tt)
    | d :: rest =>
        if negb (dhas a d) then (a, Raise GenericException)
        else wan_add r rest (set2 (set2 a r d [d]) d r [r])
    end.

  (** the body of the loops of updateAllPairsShortestPaths, WAN 112-122 *)
  Definition relax (i s d : P) (a : routes) : routes :=
    if eqb i s || eqb i d || eqb s d then a
    else match get2 a s i, get2 a i d with
         | Some (x :: p1), Some (y :: p2) =>
             let checkPath := (x :: p1) ++ (y :: p2) in
             match get2 a s d with
             | None => set2 a s d checkPath
             | Some curPath => if Nat.ltb (length checkPath) (length curPath) then set2 a s d checkPath else a
             end
         | _, _ => a
         end.
  (** the loops, WAN 107-111; assigning to a present key does not change the
      iterated key views *)
  Definition wan_update (a : routes) : routes :=
    let ks := dkeys a in
    fold_left (fun a i => fold_left (fun a s => fold_left (fun a d => relax i s d a) ks a) ks a) ks a.

  (** setDirectConnections, WAN 45-77 (the direct links 52-54 and 79-81 are in
      WanNetModel.v) *)
  Definition wan_set (r : P) (ds : list P) (a : routes) : routes * res unit :=
    if negb (dhas a r) then (a, Raise GenericException)
    else match wan_add r ds (wan_clear r a) with
         | (a', Raise e) => (a', Raise e)
         | (a', Ok _) => (wan_update a', Ok tt)
         end.

  (** getRoute, WAN 136-137; getRoutes, 139-140; nextHop, 142-147; getPrefixes,
      133-134 *)
  Definition wan_route (a : routes) (s d : P) : list P := match get2 a s d with Some p => p | None => [] end.
  Definition wan_routes (a : routes) (s : P) : dict P (list P) := match dget a s with Some row => row | None => [] end.
  Definition wan_next_hop (a : routes) (s d : P) : option P :=
    match get2 a s d with Some (h :: _) => Some h | _ => None end.
  Definition wan_prefixes (a : routes) : list P := dkeys a.

  (** A history of calls; exceptions are caught by the caller *)
  Inductive wop := WReg (p : P) | WSet (r : P) (ds : list P).
  Definition wan_step (o : wop) (a : routes) : routes * res unit :=
    match o with WReg p => wan_register p a | WSet r ds => wan_set r ds a end.
  Fixpoint wan_run (os : list wop) (a : routes) : routes :=
    match os with [] => a | o :: r => wan_run r (fst (wan_step o a)) end.
End Routes.
Arguments routes : clear implicits.
Arguments wop : clear implicits.
