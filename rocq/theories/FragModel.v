(** * Model of PlaygroundSwitchTxProtocol in network/protocols/switching.py
    (abbreviated SW): fragmentation and reassembly.  Packets are the decoded
    objects; their encoding is PacketModel/FrameModel. *)
From Coq Require Import List ZArith Bool.
From Verif Require Import PyBase StreamModel.
Import ListNotations.
Open Scope Z_scope.

(** packets/switching_packets.py:27-45, WirePacket; [w_frag] is fragData
    (fragId, totalSize, offset), None if not set *)
Record wire := Wire { w_src : pystr; w_sport : Z; w_dst : pystr; w_dport : Z;
                      w_frag : option (Z * Z * Z); w_data : bytes }.

(** SW 58 *)
Definition MAX_MSG_SIZE : Z := 65536.
(** the loop of write, SW 122-135; [fuel] bounds the iterations (one byte at
    least is taken per iteration).  The FragmentData object is shared but
    serialised right after each change. *)
Fixpoint frag_loop (max : Z) (fuel : nat) (mk : option (Z * Z * Z) -> bytes -> wire) (fragId total : Z) (offset : Z) (data : bytes) : list wire :=
  match fuel, data with
  | O, _ | _, [] => []
  | S f, _ =>
      let piece := firstn (Z.to_nat max) data in
      mk (Some (fragId, total, offset)) piece ::
      frag_loop max f mk fragId total (offset + zlen piece) (skipn (Z.to_nat max) data)
  end.
(** write, SW 106-135: the packets handed to the transport, in order.
    [fragId] is random.getrandbits(32); [max] is MAX_MSG_SIZE. *)
Definition tx_write_max (max : Z) (fragId : Z) (source : pystr) (sourcePort : Z) (dest : pystr) (destPort : Z) (data : bytes) : list wire :=
  let mk := Wire source sourcePort dest destPort in
  if zlen data <=? max then [mk None data]
  else frag_loop max (length data) mk fragId (zlen data) 0 data.
Definition tx_write := tx_write_max MAX_MSG_SIZE.

(** FragStorage, SW 60-91.  Its clean-up timer only removes it from the
    container (see [rx_timeout]). *)
Record fstore := FStore { fs_total : Z; fs_received : Z; fs_buf : bio; fs_offsets : list Z }.
Definition fs_new (total : Z) : fstore := FStore total 0 (bio_new []) [].
(** insert, SW 75-81, for offsets BytesIO can seek to *)
Definition fs_insert (off : Z) (data : bytes) (f : fstore) : fstore :=
  if smem (fs_offsets f) off then f
  else FStore (fs_total f) (fs_received f + zlen data)
              (bio_write data (Bio (b_data (fs_buf f)) off)) (sadd (fs_offsets f) off).
(** isComplete, SW 83-84, and getData, 86-87 *)
Definition fs_complete (f : fstore) : bool := fs_received f =? fs_total f.
Definition fs_data (f : fstore) : bytes := b_data (fs_buf f).

Definition storage := dict Z fstore.
(** what reaches demuxer.demux: source, sourcePort, destination,
    destinationPort, data *)
Definition delivery := (pystr * Z * pystr * Z * bytes)%type.
Definition deliver (p : wire) (d : bytes) : delivery := (w_src p, w_sport p, w_dst p, w_dport p, d).
(** one iteration of the loop of _data_received, SW 146-160: new storage and
    new value of the local variable demuxData.  cleanup() (89-91) expires the
    timer, which deletes the entry (71-73). *)
Definition rx_packet (p : wire) (st : storage) (demuxData : option bytes) : storage * option bytes :=
  match w_frag p with
  | Some (fragId, total, off) =>
      let st1 := if dhas st fragId then st else dset st fragId (fs_new total) in
      let f := fs_insert off (w_data p) (match dget st1 fragId with Some f => f | None => fs_new total end) in
      let st2 := dset st1 fragId f in
      if fs_complete f then (ddel st2 fragId, Some (fs_data f)) else (st2, demuxData)
  | None => (st, Some (w_data p))
  end.
(** one call of _data_received that decodes the packets [ps] *)
Fixpoint rx_loop (ps : list wire) (st : storage) (demuxData : option bytes) : storage * list delivery :=
  match ps with
  | [] => (st, [])
  | p :: r =>
      let (st', d) := rx_packet p st demuxData in
      let (st'', out) := rx_loop r st' d in
      (st'', match d with Some x => deliver p x :: out | None => out end)
  end.
Definition rx_call (ps : list wire) (st : storage) : storage * list delivery := rx_loop ps st None.
(** the clean-up timer fires, SW 71-73 *)
Definition rx_timeout (fragId : Z) (st : storage) : storage := if dhas st fragId then ddel st fragId else st.
(** A history of calls *)
Fixpoint rx_calls (cs : list (list wire)) (st : storage) : storage * list (list delivery) :=
  match cs with
  | [] => (st, [])
  | ps :: r => let (st', o) := rx_call ps st in let (st'', os) := rx_calls r st' in (st'', o :: os)
  end.
