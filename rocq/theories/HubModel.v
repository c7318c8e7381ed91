(** * Model of PlaygroundSwitchRxProtocol, network/protocols/switching.py 17-55
    (abbreviated SW), over the Switch of network/devices/switch/Switch.py *)
From Coq Require Import List ZArith Bool.
From Verif Require Import PyBase AddrModel SwitchModel FragModel.
Import ListNotations.
Open Scope Z_scope.

(** The packets the deserializer of a link hands over, SW 42-54.  The decoding
    itself is PacketModel/FrameModel. *)
Inductive pkt := PAnnounce (address : pystr) | PWire (p : wire) | POther.

Section Hub.
  Context {L : Type} `{EqDec L}.
  (** the switch, the links whose transport is set (SW 30-34) and, for every
      link, the decoded packets its deserializer still holds *)
  Record hub := Hub { h_sw : switch L; h_up : list L; h_queue : dict L (list pkt) }.
  Definition hub_new : hub := Hub sw_empty [] [].
  Definition queue_of (l : L) (s : hub) : list pkt := match dget (h_queue s) l with Some q => q | None => [] end.

  (** what happened, in order: a packet of a link was handled and these writes
      were made; a link was lost *)
  Inductive hlog := GPacket (l : L) (p : pkt) (writes : list (L * wire)) | GLost (l : L).

  (** SW 47-52: one write per destination; a destination without transport
      raises (None has no attribute write).  Serialising again what was decoded
      is PacketModel's business: the packet itself stands for its bytes. *)
  Fixpoint send_all (p : wire) (up : list L) (ls : list L) : list (L * wire) * bool :=
    match ls with
    | [] => ([], true)
    | l :: r => if smem up l then let (ws, ok) := send_all p up r in ((l, p) :: ws, ok) else ([], false)
    end.
  (** SW 42-54; an exception in the body ends the loop (35-39 drop it) and
      leaves the following packets with the deserializer.
      Switch.handleExtensionPacket does nothing (Switch.py 50-54). *)
  Fixpoint hub_loop (l : L) (up : list L) (ps : list pkt) (sw : switch L) : switch L * list hlog * list pkt :=
    match ps with
    | [] => (sw, [], [])
    | PAnnounce a :: r =>
        match sw_register a l sw with
        | Raise _ => (sw, [GPacket l (PAnnounce a) []], r)
        | Ok sw' => let '(s2, log, rest) := hub_loop l up r sw' in (s2, GPacket l (PAnnounce a) [] :: log, rest)
        end
    | PWire p :: r =>
        match sw_outbound (w_dst p) sw with
        | Raise _ => (sw, [GPacket l (PWire p) []], r)
        | Ok ls =>
            let (ws, ok) := send_all p up ls in
            if ok then let '(s2, log, rest) := hub_loop l up r sw in (s2, GPacket l (PWire p) ws :: log, rest)
            else (sw, [GPacket l (PWire p) ws], r)
        end
    | POther :: r => let '(s2, log, rest) := hub_loop l up r sw in (s2, GPacket l POther [] :: log, rest)
    end.

  Inductive hevent := HMade (l : L) | HData (l : L) (ps : list pkt) | HLost (l : L).
  Definition hub_step (e : hevent) (s : hub) : hub * list hlog :=
    match e with
    | HMade l => (Hub (h_sw s) (sadd (h_up s) l) (h_queue s), [])                      (* SW 33-34 *)
    | HData l ps =>                                                                    (* SW 36-54 *)
        let '(sw, log, rest) := hub_loop l (h_up s) (queue_of l s ++ ps) (h_sw s) in
        (Hub sw (h_up s) (dset (h_queue s) l rest), log)
    | HLost l =>                                                                       (* SW 29-31 *)
        let sw := match sw_unregister l (h_sw s) with Ok s' => s' | Raise _ => h_sw s end in
        (Hub sw (sremove (h_up s) l) (h_queue s), [GLost l])
    end.
  Fixpoint hub_run (es : list hevent) (s : hub) : hub * list hlog :=
    match es with
    | [] => (s, [])
    | e :: r => let (s1, g1) := hub_step e s in let (s2, g2) := hub_run r s1 in (s2, g1 ++ g2)
    end.
End Hub.
Arguments hub : clear implicits.
Arguments hlog : clear implicits.
Arguments hevent : clear implicits.
