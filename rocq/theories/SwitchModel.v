(** * Model of network/devices/switch/Switch.py *)
From Coq Require Import List ZArith Bool.
From Verif Require Import PyBase AddrModel.
Import ListNotations.
Open Scope Z_scope.

Section Switch.
  (** [L] is the type of links (protocol objects, compared by identity). *)
  Context {L : Type} `{EqDec L}.

  (** Switch.py:13-18 *)
  Record switch := Switch { sw_addr : dict pystr (list L); sw_link : dict L pystr }.
  Definition sw_empty : switch := Switch [] [].

  (** Switch.py:20-25.  dict lookup and set.remove raise KeyError when the
      address or the link is missing from the table. *)
  Definition sw_unregister (p : L) (s : switch) : res switch :=
    match dget (sw_link s) p with
    | None => Ok s
    | Some old =>
        match dget (sw_addr s) old with
        | None => Raise KeyError
        | Some links =>
            if smem links p
            then Ok (Switch (dset (sw_addr s) old (sremove links p)) (ddel (sw_link s) p))
            else Raise KeyError
        end
    end.

  (** Switch.py:27-38 *)
  Definition sw_register (address : pystr) (p : L) (s : switch) : res switch :=
    if negb (is_valid_string ClsBlock address) then Ok s              (* 28-30 *)
    else
      match sw_unregister p s with
      | Raise e => Raise e
      | Ok s1 =>
          let links := match dget (sw_addr s1) address with
                       | None => [p]                                  (* 33-34 *)
                       | Some ls => sadd ls p                         (* 36 *)
                       end in
          Ok (Switch (dset (sw_addr s1) address links) (dset (sw_link s1) p address))
      end.

  (** Switch.py:45-47, the loop, one unfolding per parent.  [fuel] bounds the
      number of iterations; four parents at most exist, and SwitchProofs shows
      that any fuel of five or more gives the same result. *)
  Fixpoint outbound_loop (fuel : nat) (tbl : dict pystr (list L)) (acc : list L) (a : option addr) : res (list L) :=
    match fuel, a with
    | _, None => Ok acc
    | O, Some _ => Raise GenericException
    | S f, Some b =>
        let acc' := sunion acc (match dget tbl (addr_str b) with Some ls => ls | None => [] end) in
        match get_parent_block b with
        | Raise e => Raise e
        | Ok parent => outbound_loop f tbl acc' parent
        end
    end.
  (** Switch.py:40-48 *)
  Definition sw_outbound (destination : pystr) (s : switch) : res (list L) :=
    if negb (is_valid_string ClsBlock destination) then Ok []
    else match from_string ClsBlock destination with
         | Raise e => Raise e
         | Ok b => outbound_loop 5 (sw_addr s) [] (Some b)
         end.

  (** A history of registrations *)
  Inductive swop := SReg (address : pystr) (p : L) | SUnreg (p : L).
  Definition sw_step (o : swop) (s : switch) : res switch :=
    match o with SReg a p => sw_register a p s | SUnreg p => sw_unregister p s end.
  Fixpoint sw_run (os : list swop) (s : switch) : res switch :=
    match os with [] => Ok s | o :: r => bind (sw_step o s) (sw_run r) end.
End Switch.
Arguments switch : clear implicits.
Arguments swop : clear implicits.
