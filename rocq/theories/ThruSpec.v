(** * Specification vocabulary for the throughput test (C71) *)
From Coq Require Import String.
From Coq Require Import List ZArith Bool.
From Verif Require Import PyBase AddrModel PacketModel PacketSpec ThruModel.
Import ListNotations.
Open Scope Z_scope.

(** TestMessagePacket is registered as class [c] of [E], found by its name and
    version, and has no registered subclass *)
Definition test_registered (E : env) (c : nat) : Prop :=
  e_cls E c = PCls (lit "testpacket") (lit "1.0") [ (lit "data", FAttr false None, TBuffer) ] /\
  e_lookup E c (lit "testpacket") (Version 1 0) = Ok (Some c) /\
  e_sub E c c = true /\ (forall c', e_sub E c' c = true -> c' = c).
(** Data that a packet can carry *)
Definition sendable_data (b : bytes) : Prop := bytes_ok b /\ zlen b < 2 ^ 63.

(** [f] is connected before the other *)
Definition first_connected (f : bool) (es : list tevent) : Prop :=
  exists a now b, es = a ++ Made f now :: b /\ forall q t, ~ In (Made q t) a.
(** What p sends, f being first: the first list of the configuration is the
    first one's *)
Definition data_sent (f p : bool) (d1 d2 : list bytes) : list bytes := if Bool.eqb p f then d1 else d2.
Definition connects (p : bool) (es : list tevent) : Prop := exists now, In (Made p now) es.
Definition no_loss (es : list tevent) : Prop := forall p, ~ In (Lost p) es.
(** The clock is set, does not go below [t0], and the one call of waitClose is
    not more than 30 seconds after [t0] *)
Definition timely (t0 : Z) (es : list tevent) : Prop :=
  0 < t0 /\
  Forall (fun e => match e with
                   | Made _ now | Arrive _ _ now => t0 <= now
                   | Watch now => now <= t0 + 30
                   | Timer _ | Lost _ => True
                   end) es.

(** The test record: what was sent and what was received by a side *)
Definition told (one : bool) (l : list note) : list (Z * bytes) :=
  flat_map (fun n => match n with NSent o len h => if Bool.eqb o one then [(len, h)] else [] | _ => [] end) l.
Definition heard (one : bool) (l : list note) : list (bytes * bytes) :=
  flat_map (fun n => match n with NGot o h x => if Bool.eqb o one then [(h, x)] else [] | _ => [] end) l.
Definition notes (r : run) : list note := f_notes (y_cfg (n_test r)).
Definition closes_of (p : bool) (r : run) : nat := pr_closes (if p then y_one (n_test r) else y_two (n_test r)).
(** nothing more is going to happen by itself *)
Definition quiet (r : run) : Prop :=
  pr_timers (y_one (n_test r)) = 0%nat /\ pr_timers (y_two (n_test r)) = 0%nat /\ n_to1 r = [] /\ n_to2 r = [].
Fixpoint total (l : list bytes) : Z := match l with [] => 0 | b :: r => zlen b + total r end.
(** p has received all it should receive, and that is something *)
Definition complete (p : bool) (r : run) : Prop := exists n, (0 < n)%nat /\ results p (n_test r) = Some (n, n).
(** The time of the connection of p *)
Fixpoint connect_time (p : bool) (es : list tevent) : option Z :=
  match es with
  | [] => None
  | Made q now :: r => if Bool.eqb q p then Some now else connect_time p r
  | _ :: r => connect_time p r
  end.
(** The call of waitClose came after the first connection *)
Definition watched (es : list tevent) : Prop := exists a p now b t, es = a ++ Made p now :: b /\ In (Watch t) b.
(** nobody receives anything; the clock is set *)
Definition nothing_arrives (es : list tevent) : Prop :=
  Forall (fun e => match e with Arrive _ _ _ => False | Made _ now => 0 < now | _ => True end) es.
