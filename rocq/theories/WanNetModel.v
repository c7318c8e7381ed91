(** * Model of the delivery of packets in a wide area network:
      network/devices/routing/HierarchyWAN.py (WAN), HierarchyRouter.py (HR), with
      Switch.py (SwitchModel.v), PlaygroundSwitchRxProtocol of
      protocols/switching.py (RX), the routes being those of WanModel.v

    Simplifications: prefixes are integers (launch_wan.py 58-65); every write is
    one whole packet, which the other end reads as it was written (C15-C21, C25);
    [random.random() < lossRate] of the k-th write on a direct link is the k-th
    bit of a sequence; the order in which a set of links is gone through is that
    of a list. *)
From Coq Require Import List ZArith Bool.
From Verif Require Import PyBase AddrModel SwitchModel WanModel.
Import ListNotations.
Open Scope Z_scope.

(** Receiving protocols: of a device's connection, or one end of a direct link *)
Inductive lnk := Dev (n : nat) | End (k : nat) (second : bool).
#[export] Instance EqDec_lnk : EqDec lnk.
Proof. intros x y. unfold EqDec. decide equality; try apply Nat.eq_dec; apply bool_dec. Defined.

(** A device's HierarchyRouter, HR 25-30: the address of its one link, the prefix
    it was given and whether there is a switch *)
Record router := Router { r_addr : option pystr; r_prefix : option Z; r_there : bool }.
Record wnet := WNet {
  n_routes : routes Z;                     (* _apsp, WAN 21 *)
  n_sw : dict Z (switch lnk);              (* _switches, WAN 22 *)
  n_ends : list (Z * Z);                   (* the prefixes of the two ends of each link ever made *)
  n_closed : list lnk;                     (* the ends whose transport is None *)
  n_direct : dict (Z * Z) lnk;             (* _directLinks, WAN 23 *)
  n_conn : dict nat router;                (* _connections, WAN 24 *)
  n_draws : nat                            (* writes on direct links so far *)
}.
Definition net_new : wnet := WNet [] [] [] [] [] [] 0.
Definition with_sw (g : wnet) (p : Z) (s : switch lnk) : wnet :=
  WNet (n_routes g) (dset (n_sw g) p s) (n_ends g) (n_closed g) (n_direct g) (n_conn g) (n_draws g).
Definition with_conn (g : wnet) (n : nat) (r : router) : wnet :=
  WNet (n_routes g) (n_sw g) (n_ends g) (n_closed g) (n_direct g) (dset (n_conn g) n r) (n_draws g).

(** the prefix at which an end is; the other end *)
Definition end_at (g : wnet) (l : lnk) : option Z :=
  match l with
  | Dev _ => None
  | End k b => match nth_error (n_ends g) k with Some (p, q) => Some (if b then q else p) | None => None end
  end.
Definition other_end (l : lnk) : lnk := match l with End k b => End k (negb b) | l => l end.
(** "{}.0.0.0".format(prefix), WAN 88-89, HR 102 *)
Definition gateway (p : Z) : pystr := addr_str (Addr (Num p) (Num 0) (Num 0) (Num 0)).

(** [registerLink]/[unregisterLink] of the switch at a prefix; they do not raise (C10) *)
Definition sw_do (f : switch lnk -> res (switch lnk)) (p : Z) (g : wnet) : wnet :=
  match dget (n_sw g) p with
  | Some s => match f s with Ok s' => with_sw g p s' | Raise _ => g end
  | None => g
  end.

Section Loss.
  Context (lost : nat -> bool).
  (** an AnnounceLinkPacket written on a link, arriving at the end [l]: WAN 14-16,
      RX 42-43 *)
  Definition announce_to (l : lnk) (a : pystr) (g : wnet) : wnet :=
    let g1 := WNet (n_routes g) (n_sw g) (n_ends g) (n_closed g) (n_direct g) (n_conn g) (S (n_draws g)) in
    if lost (n_draws g) then g1
    else match end_at g l with Some p => sw_do (sw_register a l) p g1 | None => g1 end.
  (** createDirectLink, WAN 83-91 *)
  Definition link_create (p q : Z) (g : wnet) : wnet :=
    let k := length (n_ends g) in
    let g1 := WNet (n_routes g) (n_sw g) (n_ends g ++ [(p, q)]) (n_closed g) (n_direct g) (n_conn g) (n_draws g) in
    let g2 := announce_to (End k true) (gateway p) g1 in
    let g3 := announce_to (End k false) (gateway q) g2 in
    WNet (n_routes g3) (n_sw g3) (n_ends g3) (n_closed g3) (dset (dset (n_direct g3) (p, q) (End k false)) (q, p) (End k true)) (n_conn g3) (n_draws g3).
  (** [rx.transport and rx.transport.close()], WAN 17-18, 96, 100, RX 26-28: it is
      the other end whose connection is lost *)
  Definition link_close (l : lnk) (g : wnet) : wnet :=
    if smem (n_closed g) l then g
    else
      let o := other_end l in
      let g1 := WNet (n_routes g) (n_sw g) (n_ends g) (sadd (n_closed g) o) (n_direct g) (n_conn g) (n_draws g) in
      match end_at g o with Some p => sw_do (sw_unregister o) p g1 | None => g1 end.
  (** WAN 94-97, 98-101 *)
  Definition half_destroy (p q : Z) (g : wnet) : wnet :=
    match dget (n_direct g) (p, q) with
    | Some l =>
        let g1 := link_close l g in
        WNet (n_routes g1) (n_sw g1) (n_ends g1) (n_closed g1) (ddel (n_direct g1) (p, q)) (n_conn g1) (n_draws g1)
    | None => g
    end.
  (** destroyDirectLink, WAN 93-101 *)
  Definition link_destroy (p q : Z) (g : wnet) : wnet := half_destroy q p (half_destroy p q g).
  Definition with_routes (g : wnet) (a : routes Z) : wnet :=
    WNet a (n_sw g) (n_ends g) (n_closed g) (n_direct g) (n_conn g) (n_draws g).
  (** registerLANSwitch, WAN 33-43 *)
  Definition net_register (p : Z) (g : wnet) : wnet * res unit :=
    match wan_register p (n_routes g) with
    | (a, Ok u) => (with_sw (with_routes g a) p sw_empty, Ok u)
    | (_, r) => (g, r)
    end.
  (** setDirectConnections, WAN 45-81 *)
  Definition net_set (r : Z) (ds : list Z) (g : wnet) : wnet * res unit :=
    if negb (dhas (n_routes g) r) then (g, Raise GenericException)
    else
      let g1 := fold_left (fun g p => link_destroy r p g) (dkeys (n_routes g)) g in
      let (a, o) := wan_set r ds (n_routes g) in
      match o with
      | Raise e => (with_routes g1 a, Raise e)
      | Ok u => (fold_left (fun g q => link_create r q g) (dkeys (wan_routes a r)) (with_routes g1 a), Ok u)
      end.

  (** setPrefix, HR 32-44 *)
  Definition set_prefix (n : nat) (p : option Z) (there : bool) (g : wnet) : wnet :=
    match dget (n_conn g) n with
    | None => g
    | Some rt =>
        let g1 := match r_there rt, r_prefix rt, r_addr rt with true, Some q, Some _ => sw_do (sw_unregister (Dev n)) q g | _, _, _ => g end in
        let g2 := with_conn g1 n (Router (r_addr rt) p there) in
        match there, p, r_addr rt with true, Some q, Some a => sw_do (sw_register a (Dev n)) q g2 | _, _, _ => g2 end
    end.
  (** ProtocolFactory, WAN 149-153, and connection_made *)
  Definition net_connect (n : nat) (g : wnet) : wnet :=
    if dhas (n_conn g) n then g else with_conn g n (Router None None false).
  (** the device announces an address: HR 64-74 with 46-62 and Switch.py 27-38 *)
  Definition net_announce (n : nat) (a : pystr) (g : wnet) : wnet :=
    if dhas (n_conn g) n && is_valid_string ClsBlock a then
      let g1 := set_prefix n None false g in
      with_conn g1 n (Router (Some a) None false)
    else g.
  (** connection_lost, RX 26-28, HR 46-62, WAN 162-164 *)
  Definition net_lost (n : nat) (g : wnet) : wnet :=
    if dhas (n_conn g) n then
      let g1 := set_prefix n None false g in
      WNet (n_routes g1) (n_sw g1) (n_ends g1) (n_closed g1) (n_direct g1) (ddel (n_conn g1) n) (n_draws g1)
    else g.
  (** setLocation, WAN 158-160; KeyError *)
  Definition net_locate (n : nat) (p : Z) (g : wnet) : wnet * res unit :=
    if dhas (n_conn g) n then (set_prefix n (Some p) (dhas (n_sw g) p) g, Ok tt) else (g, Raise KeyError).

  (** getOutboundLinks of the router, HR 80-105.  A next hop of 0 counts as none (101). *)
  Definition router_outbound (rt : router) (dest : pystr) (g : wnet) : res (list lnk) :=
    if negb (is_valid_string ClsBlock dest) then Ok []
    else match r_there rt, r_prefix rt with
         | true, Some p =>
             match dget (n_sw g) p with
             | None => Ok []
             | Some s =>
                 match from_string ClsBlock dest with
                 | Raise e => Raise e
                 | Ok a =>
                     match sw_outbound dest s with
                     | Raise e => Raise e
                     | Ok ls =>
                         match a_zone a with
                         | Num q =>
                             if q =? p then Ok ls
                             else match wan_next_hop (n_routes g) p q with
                                  | Some h => if h =? 0 then Ok ls
                                              else match sw_outbound (gateway h) s with Ok l2 => Ok (sunion ls l2) | Raise e => Raise e end
                                  | None => Ok ls
                                  end
                         | Star => Ok ls                                     (* no route to "*" *)
                         end
                     end
                 end
             end
         | _, _ => Ok []
         end.
  (** The writes of a packet, RX 44-52, each on a direct link being a data_received
      of the other end (WAN 13-16), which hides exceptions (RX 33-37).  The
      numbers of the devices written to, with the number of link writes so far;
      None: links more than [fuel] deep. *)
  Fixpoint writes (fuel : nat) (g : wnet) (dest : pystr) : nat -> list lnk -> option (nat * list nat) :=
    match fuel with
    | O => fun _ _ => None
    | S f =>
        fix go (k : nat) (ls : list lnk) : option (nat * list nat) :=
          match ls with
          | [] => Some (k, [])
          | l :: r =>
              if smem (n_closed g) l then Some (k, [])                       (* None.write *)
              else match l with
                   | Dev m => match go k r with Some (k', ds) => Some (k', m :: ds) | None => None end
                   | End _ _ =>
                       let there := match end_at g (other_end l) with
                                    | Some p => match dget (n_sw g) p with
                                                | Some s => match sw_outbound dest s with Ok ls' => ls' | Raise _ => [] end
                                                | None => [] end
                                    | None => [] end in
                       if lost k then go (S k) r
                       else match writes f g dest (S k) there with
                            | Some (k1, d1) => match go k1 r with Some (k2, d2) => Some (k2, d1 ++ d2) | None => None end
                            | None => None
                            end
                   end
          end
    end.
  (** a device sends a packet *)
  Definition net_send (fuel : nat) (n : nat) (dest : pystr) (g : wnet) : option (nat * list nat) :=
    match dget (n_conn g) n with
    | None => Some (n_draws g, [])
    | Some rt => match router_outbound rt dest g with Ok ls => writes fuel g dest (n_draws g) ls | Raise _ => Some (n_draws g, []) end
    end.

  (** ** Histories *)
  Inductive nop := NConnect (n : nat) | NAnnounce (n : nat) (a : pystr) | NLocate (n : nat) (p : Z) | NLost (n : nat)
                 | NReg (p : Z) | NSet (r : Z) (ds : list Z).
  Definition net_step (o : nop) (g : wnet) : wnet :=
    match o with
    | NConnect n => net_connect n g
    | NAnnounce n a => net_announce n a g
    | NLocate n p => fst (net_locate n p g)
    | NLost n => net_lost n g
    | NReg p => fst (net_register p g)
    | NSet r ds => fst (net_set r ds g)
    end.
  Definition net_run (h : list nop) (g : wnet) : wnet := fold_left (fun g o => net_step o g) h g.
End Loss.
