(** * Model of the promiscuous level of the VNIC and of its link to the switch:
    network/devices/vnic/VNIC.py 44-119 (VN) and the registration part of
    PlaygroundSwitchTxProtocol, network/protocols/switching.py 93-108, 162-164
    (SW) *)
From Coq Require Import List ZArith Bool.
From Verif Require Import PyBase AddrModel VnicModel.
Import ListNotations.
Open Scope Z_scope.

(** A PlaygroundSwitchTxProtocol (SW 93-98): transport set, and the address it
    announces, as str() gives it (the STRING field applies str) *)
Record link := Link { lk_up : bool; lk_addr : pystr }.
(** VNIC, VN 44-57: the links created so far, numbered; [p_cur] is _linkTx.
    _promiscuousMode is None at first. *)
Record prom := Prom { p_addr : addr; p_level : option Z; p_conn : bool; p_cur : option nat; p_links : list link }.
(** VN 45: PlaygroundAddress.FromString *)
Definition prom_new (s : pystr) : res prom := bind (from_string ClsAddress s) (fun a => Ok (Prom a None false None [])).

(** effects: announcements (link, address); an exception (AttributeError:
    None has no attribute, or TypeError) that leaves the method *)
Inductive peffect := EAnnounce (n : nat) (a : pystr) | EClose (n : nat) | ERaise.

(** changeRegisteredAddress, SW 105-108 *)
Definition set_link (n : nat) (f : link -> link) (s : prom) : prom := Prom (p_addr s) (p_level s) (p_conn s) (p_cur s) (upd n f (p_links s)).
Definition change_address (n : nat) (a : pystr) (s : prom) : prom * list peffect :=
  match nth_error (p_links s) n with
  | Some k => (set_link n (fun k => Link (lk_up k) a) s, if lk_up k then [EAnnounce n a] else [ERaise])
  | None => (s, [ERaise])
  end.
(** the loop of VN 88-90; None stands for the AttributeError of calling
    getParentBlock on None *)
Fixpoint climb (n : nat) (b : addr) : option addr :=
  match n with
  | O => Some b
  | S m => match get_parent_block b with Ok (Some p) => climb m p | _ => None end
  end.
(** _updateRegisteredAddress, VN 84-92 ([p_level] is not None here) *)
Definition update_address (s : prom) : prom * list peffect :=
  if negb (p_conn s) then (s, []) else
  match p_level s, construct ClsBlock (p_addr s) with
  | Some level, Ok b => match climb (Z.to_nat level) b, p_cur s with
                        | Some blk, Some n => change_address n (addr_str blk) s
                        | _, _ => (s, [ERaise])
                        end
  | _, _ => (s, [ERaise])
  end.
(** setPromiscuousLevel, VN 69-82 (None as level is like 0) *)
Definition set_level (level : option Z) (s : prom) : prom * list peffect :=
  let l1 := match level with None => 0 | Some z => if z <? 0 then 0 else z end in
  let l2 := if l1 >? 4 then 4 else l1 in
  if eqb (p_level s) (Some l2) then (s, [])
  else update_address (Prom (p_addr s) (Some l2) (p_conn s) (p_cur s) (p_links s)).
(** promiscuousLevel, VN 65-67 *)
Definition prom_level (s : prom) : Z := match p_level s with None => 0 | Some z => z end.
(** switchConnectionFactory, VN 100-104 *)
Definition new_link (s : prom) : prom * list peffect :=
  (Prom (p_addr s) (p_level s) (p_conn s) (Some (length (p_links s))) (p_links s ++ [Link false (addr_str (p_addr s))]),
   match p_cur s with
   | Some n => match nth_error (p_links s) n with Some k => if lk_up k then [EClose n] else [] | None => [] end
   | None => []
   end).
(** connection_made, SW 100-103, and VNIC.connectionMade, VN 115-119 *)
Definition link_made (n : nat) (s : prom) : prom * list peffect :=
  match nth_error (p_links s) n with
  | None => (s, [])
  | Some k =>
      let s1 := set_link n (fun k => Link true (lk_addr k)) s in
      let s2 := Prom (p_addr s1) (p_level s1) true (p_cur s1) (p_links s1) in
      let (s3, l3) := if prom_level s2 =? 0 then (s2, []) else update_address s2 in
      (s3, EAnnounce n (lk_addr k) :: l3)
  end.
(** connection_lost, SW 162-164, and VNIC.connectionLost, VN 121-124 *)
Definition link_lost (n : nat) (s : prom) : prom * list peffect :=
  let s1 := set_link n (fun k => Link false (lk_addr k)) s in
  (Prom (p_addr s1) (p_level s1) false None (p_links s1), []).

Inductive pevent := PSet (level : option Z) | PNew | PMade (n : nat) | PLost (n : nat).
Definition p_step (e : pevent) (s : prom) : prom * list peffect :=
  match e with
  | PSet l => set_level l s
  | PNew => new_link s
  | PMade n => link_made n s
  | PLost n => link_lost n s
  end.
Fixpoint p_run (es : list pevent) (s : prom) : prom * list peffect :=
  match es with
  | [] => (s, [])
  | e :: r => let (s1, l1) := p_step e s in let (s2, l2) := p_run r s1 in (s2, l1 ++ l2)
  end.
(** VNIC.write, VN 207-211: the link the data goes to, if any *)
Definition p_write (s : prom) : option nat :=
  match p_cur s with
  | Some n => match nth_error (p_links s) n with Some k => if lk_up k then Some n else None | None => None end
  | None => None
  end.
