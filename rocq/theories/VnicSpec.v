(** * Vocabulary for the properties of the VNIC *)
From Coq Require Import List ZArith Bool.
From Verif Require Import PyBase VnicModel.
Import ListNotations.
Open Scope Z_scope.

(** a state the VNIC can be in, with everything observed so far *)
Definition reachable (addr : pystr) (s : vnic) (log : list vlog) : Prop :=
  exists es, v_run es (vnic_new addr) = Some (s, log).

(** the key an observation is about *)
Definition key_of (e : vlog) : option key :=
  match e with
  | LNew k _ | LData k _ | LGone k | LWrite k _ _ | LClose k _ => Some k
  | _ => None
  end.
Definition about (k : key) (l : list vlog) : list vlog := filter (fun e => eqb (key_of e) (Some k)) l.

(** The bytes that arrived for the connection [k] and the writes that were made
    for it since it was created; None if there is no such connection *)
Definition track_step (k : key) (a : option (bytes * list (nat * bytes))) (e : vlog) : option (bytes * list (nat * bytes)) :=
  if eqb (key_of e) (Some k) then
    match e, a with
    | LNew _ _, _ => Some ([], [])
    | LGone _, _ => None
    | LData _ d, Some (arr, wr) => Some (arr ++ d, wr)
    | LWrite _ t d, Some (arr, wr) => Some (arr, wr ++ [(t, d)])
    | _, _ => a
    end
  else a.
Definition track (k : key) (log : list vlog) : option (bytes * list (nat * bytes)) := fold_left (track_step k) log None.

(** a control is open: created and not closed *)
Definition is_open (s : vnic) (c : nat) (x : sctl) : Prop := nth_error (v_ctls s) c = Some x /\ sc_closed x = false.
(** a port is in use *)
Definition port_in_use (s : vnic) (p : Z) : Prop := exists c, dget (v_ports s) p = Some c.
(** all bytes ever written to the reverse connection [t], in order *)
Definition sent (t : nat) (log : list vlog) : bytes :=
  concat (map (fun e => match e with LWrite _ t' d => if Nat.eqb t' t then d else [] | _ => [] end) log).
(** the bytes that arrived for [k] since that connection was created *)
Definition arrived (k : key) (log : list vlog) : bytes := match track k log with Some (arr, _) => arr | None => [] end.
(** what is observed besides the copies for dumpers *)
Definition no_dumps (l : list vlog) : list vlog := filter (fun e => match e with LDump _ _ _ => false | _ => true end) l.
(** anyone with a live control connection can listen on [q], under any
    connection id not in use there *)
Definition can_listen (s : vnic) (q : Z) : Prop := forall p v id, nth_error (v_protos s) p = Some v -> vp_up v = true -> dget (vp_table v) id = None ->
  exists s', v_step (VListen p id q) s = Some (s', [LResp p id (Some q)]) /\ port_in_use s' q.
