(** * What is expected of the network configuration *)
From Coq Require Import String.
From Coq Require Import List ZArith Bool.
From Verif Require Import PyBase PnmsModel.
Import ListNotations.

(** ** The network that a user of pnetworking configures *)
Record net := Net {
  t_dev : pystr -> option (pystr * section);            (* device: its type and its settings *)
  t_conn : pystr -> option pystr;                       (* interface: the access point it is connected to *)
  t_routes : list (pystr * pystr)                       (* route, interface; in order *)
}.
Definition net_eq (a b : net) : Prop :=
  (forall d, t_dev a d = t_dev b d) /\ (forall d, t_conn a d = t_conn b d) /\ t_routes a = t_routes b.
Definition upd {V} (f : pystr -> option V) (k : pystr) (v : option V) : pystr -> option V := fun x => if eq_dec x k then v else f x.
Definition iface (n : net) (d : pystr) : bool := match t_dev n d with Some (t, _) => eqb t (lit "vnic") | None => false end.
Definition access (n : net) (d : pystr) : bool :=
  match t_dev n d with Some (t, _) => eqb t (lit "switch") || eqb t (lit "unreliable_switch") | None => false end.
(** owner of a route *)
Definition owner (n : net) (r : pystr) : option pystr := match find (fun p => eqb (fst p) r) (t_routes n) with Some p => Some (snd p) | None => None end.
Definition without_route (r : pystr) (l : list (pystr * pystr)) := filter (fun p => negb (eqb (fst p) r)) l.
(** give the route to the interface, in its old place if it exists *)
Definition give_route (r d : pystr) (l : list (pystr * pystr)) : list (pystr * pystr) :=
  if existsb (fun p => eqb (fst p) r) l then map (fun p => if eqb (fst p) r then (r, d) else p) l else l ++ [(r, d)].

(** The effect of a command; None: it is refused. *)
Definition effect (k : command) (n : net) : option net :=
  match k with
  | CAdd d t args =>
      match t_dev n d, type_kind t with
      | None, Some kd => match settings kd args with Ok s => Some (Net (upd (t_dev n) d (Some (t, s))) (t_conn n) (t_routes n)) | Raise _ => None end
      | _, _ => None
      end
  | CRemove d =>
      match t_dev n d with
      | None => Some n
      | Some _ => Some (Net (upd (t_dev n) d None)
                            (fun x => if eq_dec x d then None else match t_conn n x with Some y => if eq_dec y d then None else Some y | None => None end)
                            (filter (fun p => negb (eqb (snd p) d)) (t_routes n)))
      end
  | CConnect d a => if iface n d && access n a then Some (Net (t_dev n) (upd (t_conn n) d (Some a)) (t_routes n)) else None
  | CDisconnect d => if iface n d then Some (Net (t_dev n) (upd (t_conn n) d None) (t_routes n)) else None
  | CRouteAdd d r =>
      if iface n d then
        if eqb r (lit "default") then Some (Net (t_dev n) (t_conn n) (give_route (lit "__default__") d (t_routes n)))
        else match owner n r with None => Some (Net (t_dev n) (t_conn n) (t_routes n ++ [(r, d)])) | Some _ => None end
      else None
  | CRouteRemove d r =>
      let r' := if eqb r (lit "default") then lit "__default__" else r in
      if iface n d && eqb (owner n r') (Some d) then Some (Net (t_dev n) (t_conn n) (without_route r' (t_routes n))) else None
  | CLook => Some n
  end.

(** The network a configuration file describes: a connection to a device that
    is not there is none. *)
Definition net_of (c : config) : net :=
  Net (fun d => match dget (g_devices c) d with
                | Some t => Some (t, match dget (g_sections c) d with Some s => s | None => [] end)
                | None => None
                end)
      (fun d => match dget (g_connections c) d with
                | Some a => if dhas (g_devices c) a then Some a else None
                | None => None
                end)
      (g_routes c).

(** Names without capital letters, and not empty *)
Definition plain (s : pystr) : Prop := s <> [] /\ Forall (fun c => ~ (65 <= c <= 90)%Z) s.
Definition plain_command (k : command) : Prop :=
  match k with
  | CAdd d _ _ | CRemove d | CDisconnect d => plain d
  | CConnect d a => plain d /\ plain a
  | CRouteAdd d r | CRouteRemove d r => plain d /\ plain r
  | CLook => True
  end.
(** Every command but the removal of a route other than the default *)
Definition lasting (k : command) : Prop :=
  match k with CRouteRemove _ r => r = lit "default" | _ => True end.

(** ** Route lookup *)
(** [r] is the first route, in order, that has the address in its block *)
Definition first_match (s : section) (in_block : pystr -> Prop) (dev : pystr) : Prop :=
  exists l route r, s = l ++ (route, dev) :: r /\ route <> default_key /\ in_block route /\
    forall p, In p l -> fst p <> default_key -> ~ in_block (fst p).
(** The network after a history of commands, those refused left out *)
Definition net_empty : net := Net (fun _ => None) (fun _ => None) [].
Fixpoint effects (ks : list command) (n : net) : net :=
  match ks with [] => n | k :: r => effects r (match effect k n with Some n' => n' | None => n end) end.

(** ** Settings of a device *)
(** The options of an access point, as words on the command line *)
Inductive apopt := OManual | OAuto | OManaged | ORemote (address port : pystr) | OLocal (port : pystr) | OPublic (port : pystr).
Definition words (o : apopt) : list pystr :=
  match o with
  | OManual => [lit "manual"]
  | OAuto => [lit "auto-enable"]
  | OManaged => [lit "managed"]
  | ORemote a p => [lit "remote"; a; p]
  | OLocal p => [lit "local"; p]
  | OPublic p => [lit "public"; p]
  end.
(** The last option of the kind asked for *)
Definition last_of (f : apopt -> bool) (os : list apopt) : option apopt := find f (rev os).
Definition enabling (o : apopt) : bool := match o with OManual | OAuto => true | _ => false end.
Definition connecting (o : apopt) : bool := negb (enabling o).
Definition ap_meaning (os : list apopt) : section :=
  (lit "auto_enable", match last_of enabling os with Some OManual => lit "false" | _ => lit "true" end) ::
  match last_of connecting os with
  | Some (ORemote a p) => [(lit "physical_connection_type", lit "remote"); (lit "tcp_address", a); (lit "tcp_port", p)]
  | Some (OLocal p) => [(lit "physical_connection_type", lit "local"); (lit "tcp_port", p)]
  | Some (OPublic p) => [(lit "physical_connection_type", lit "public"); (lit "tcp_port", p)]
  | _ => [(lit "physical_connection_type", lit "managed")]
  end.
