(** * What the WAN is to deliver *)
From Coq Require Import List ZArith Bool.
From Verif Require Import PyBase AddrModel AddrSpec WanModel WanNetModel.
Import ListNotations.
Open Scope Z_scope.

(** A connected device: the address it announced last, the LAN it is at *)
Record seat := Seat { t_addr : option pystr; t_at : option Z }.
(** The plan: the routes (C39), which LANs have a direct link, how many copies a
    packet crossing from one LAN to another makes, the devices *)
Record plan := Plan { pl_routes : routes Z; pl_linked : Z -> Z -> bool; pl_copies : Z -> Z -> nat; pl_seat : nat -> option seat }.
Definition plan_new : plan := Plan [] (fun _ _ => false) (fun _ _ => O) (fun _ => None).
Definition put_seat (pl : plan) (n : nat) (t : option seat) : plan :=
  Plan (pl_routes pl) (pl_linked pl) (pl_copies pl) (fun x => if Nat.eq_dec x n then t else pl_seat pl x).
Definition b2n (b : bool) : nat := if b then 1%nat else 0%nat.
Definition plan_step (o : nop) (pl : plan) : plan :=
  match o with
  | NConnect n => match pl_seat pl n with None => put_seat pl n (Some (Seat None None)) | Some _ => pl end
  (* announcing an address takes the device off its LAN *)
  | NAnnounce n a => match pl_seat pl n with
                     | Some _ => if is_valid_string ClsBlock a then put_seat pl n (Some (Seat (Some a) None)) else pl
                     | None => pl end
  | NLocate n p => match pl_seat pl n with
                   | Some t => put_seat pl n (Some (Seat (t_addr t) (if dhas (pl_routes pl) p then Some p else None)))
                   | None => pl end
  | NLost n => put_seat pl n None
  | NReg p => Plan (fst (wan_register p (pl_routes pl))) (pl_linked pl) (pl_copies pl) (pl_seat pl)
  (* setDirectConnections cuts the links of [r] - one way only: packets leaving
     [r] still cross the old links - and makes new ones to all it can reach *)
  | NSet r ds =>
      if dhas (pl_routes pl) r then
        let (a, o) := wan_set r ds (pl_routes pl) in
        let fresh q := match o with Ok _ => dhas (wan_routes a r) q | Raise _ => false end in
        Plan a (fun u v => if u =? r then fresh v else if v =? r then fresh u else pl_linked pl u v)
               (fun u v => if u =? r then (pl_copies pl u v + b2n (fresh v))%nat
                           else if v =? r then (pl_copies pl u v - b2n (pl_linked pl u v) + b2n (fresh u))%nat
                           else pl_copies pl u v)
               (pl_seat pl)
      else pl
  end.
Definition planned (h : list nop) : plan := fold_left (fun pl o => plan_step o pl) h plan_new.

(** Sensible histories: prefixes are not negative, no LAN is connected to itself *)
Definition sensible (o : nop) : Prop :=
  match o with NReg p => 0 <= p | NSet r ds => ~ In r ds | _ => True end.
(** A device listens to an address if it announced a block (in the usual
    spelling, stars at the end) that contains it *)
Definition listens (t : seat) (a : addr) : Prop :=
  exists b, block_ok b /\ prefix_shaped b /\ covers b a /\ t_addr t = Some (addr_str b).
Definition at_lan (pl : plan) (m : nat) (p : Z) (a : addr) : Prop :=
  exists t, pl_seat pl m = Some t /\ t_at t = Some p /\ listens t a.
Definition gate (p : Z) : addr := Addr (Num p) (Num 0) (Num 0) (Num 0).
Definition is_gate (a : addr) : Prop := exists p, a = gate p.
(** Where a packet for [a] leaving the LAN [p] goes: to the next hop, unless that is the LAN 0 *)
Definition hop (pl : plan) (p : Z) (a : addr) : option Z :=
  match a_zone a with
  | Num q => if q =? p then None
             else match wan_next_hop (pl_routes pl) p q with Some h => if h =? 0 then None else Some h | None => None end
  | Star => None
  end.
Definition times (m : nat) (l : list nat) : nat := count_occ Nat.eq_dec l m.
(** How many times a packet for [a] leaving the LAN [p] crosses to the next hop *)
Definition crosses (lost : nat -> bool) (pl : plan) (p : Z) (a : addr) (c : nat) : Prop :=
  match hop pl p a with
  | None => c = 0%nat
  | Some x => (c <= pl_copies pl p x)%nat /\ ((forall i, lost i = false) -> c = pl_copies pl p x)
  end.
(** On the sender's LAN [p]: those that listen to the address, or to the gateway
    address of the next hop *)
Definition near (pl : plan) (p : Z) (a : addr) (m : nat) : Prop :=
  at_lan pl m p a \/ exists x, hop pl p a = Some x /\ at_lan pl m p (gate x).
Definition far (pl : plan) (p : Z) (a : addr) (m : nat) : Prop := exists x, hop pl p a = Some x /\ at_lan pl m x a.
(** No call of setDirectConnections raised *)
Definition all_ok (h : list nop) : Prop :=
  forall h1 r ds h2, h = h1 ++ NSet r ds :: h2 -> snd (net_set (fun _ => false) r ds (net_run (fun _ => false) h1 net_new)) = Ok tt.
