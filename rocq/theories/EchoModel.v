(** * The echo programs: src/test/echotest.py and src/test/raw_echotest.py

    Protocols on top of a Deserializer, and what they do with the packets. *)
From Coq Require Import String.
From Coq Require Import List ZArith Bool.
From Verif Require Import PyBase Utf8Model StreamModel AddrModel PacketModel.
Import ListNotations.
Open Scope Z_scope.

(** What a protocol does while it handles a data_received call *)
Inductive act :=
| AWrite (b : bytes)                 (* self.transport.write(b) *)
| AClose                             (* self.transport.close() *)
| ACall (m : option pystr)           (* self.callback(message); None: FIELD_NOT_SET *)
| ASayGot (m : option pystr)         (* print("Got {} from client.") *)
| ASayQuit                           (* print("Client instructed server to quit. Terminating") *)
| ASayDrop                           (* print("Got a ... Dropping") *)
| ARaise (e : exn).                  (* the exception leaves the method *)

(** echotest.py 22-46.  The fields carry no attributes. *)
Definition echo_ident : pystr := lit "test.EchoPacket".
Definition echo_fields : list (pystr * fattr * fty) :=
  [ (lit "original", FAttr false None, TScalar SBool); (lit "message", FAttr false None, TString) ].
Definition echo_cls : pcls := PCls echo_ident (lit "1.0") echo_fields.

(** ** A protocol that runs
      self.deserializer.update(data)
      for p in self.deserializer.nextPackets(): ...
    with a state [S] and a loop body [h] that goes on with the next packet,
    returns from data_received, or raises.  A generator that is left early is
    dropped; the deserializer stays as it was when it yielded the packet. *)
Inductive verdict := Next | Return | Throw (e : exn).
Section Consume.
  Context {S : Type}.
  Variables (E : env) (depth base : nat) (h : S -> val -> S * list act * verdict).
  Fixpoint consume (fuel : nat) (d : dser) (s : S) : dser * S * list act :=
    match fuel with
    | O => (d, s, [])
    | Datatypes.S f =>
        match d_step E depth base d with
        | (d1, None) => (d1, s, [])
        | (d1, Some (EvError _)) => consume f d1 s       (* no errHandler: dropped *)
        | (d1, Some (EvPacket p)) =>
            match h s p with
            | (s1, out, Next) => let '(d2, s2, out2) := consume f d1 s1 in (d2, s2, out ++ out2)
            | (s1, out, Return) => (d1, s1, out)
            | (s1, out, Throw e) => (d1, s1, out ++ [ARaise e])
            end
        end
    end.
  (** C44: that many turns are always enough *)
  Definition data_received (data : bytes) (d : dser) (s : S) : dser * S * list act :=
    let d := d_update data d in consume (Datatypes.S (length (b_data (d_bio d)))) d s.
End Consume.

Section Echo.
  Variable E : env.
  (** the number of the class EchoPacket *)
  Variable c : nat.

  (** An EchoPacket; None: the field is not set *)
  Definition echo_packet (original : option bool) (message : option pystr) : val :=
    VPacket c [option_map (fun b => VScalar (SvBool b)) original; option_map VStr message].
  (** The two attributes of a packet that EchoPacket.Deserializer() yielded.
      Simplification: no subclass of EchoPacket is registered, so that the
      packet is an EchoPacket; other shapes are not delivered (C45). *)
  Definition echo_view (p : val) : option (option bool * option pystr) :=
    match p with
    | VPacket _ [o; m] =>
        match o, m with
        | None, None => Some (None, None)
        | None, Some (VStr s) => Some (None, Some s)
        | Some (VScalar (SvBool b)), None => Some (Some b, None)
        | Some (VScalar (SvBool b)), Some (VStr s) => Some (Some b, Some s)
        | _, _ => None
        end
    | _ => None
    end.
  (** bool(FIELD_NOT_SET) is False (PacketFieldType.py:5) *)
  Definition truthy (o : option bool) : bool := match o with Some b => b | None => false end.
  Definition quit_text : pystr := lit "__QUIT__".

  (** EchoServerProtocol.data_received, the loop body, echotest.py 63-79 *)
  Definition server_handle (u : unit) (p : val) : unit * list act * verdict :=
    match echo_view p with
    | Some (orig, msg) =>
        if truthy orig then                                                       (* 64 *)
          if eqb msg (Some quit_text) then (u, [ASayGot msg; ASayQuit; AClose], Return)  (* 67-70 *)
          else match serialize E (echo_packet (Some false) msg) with              (* 72-76 *)
               | Ok b => (u, [ASayGot msg; AWrite b], Next)
               | Raise e => (u, [ASayGot msg], Throw e)
               end
        else (u, [ASayDrop], Next)                                                (* 78-79 *)
    | None => (u, [], Next)
    end.
  (** EchoClientProtocol.data_received, the loop body, 105-109.
      FIELD_NOT_SET == False is False. *)
  Definition client_handle (u : unit) (p : val) : unit * list act * verdict :=
    match echo_view p with
    | Some (orig, msg) => (u, [if eqb orig (Some false) then ACall msg else ASayDrop], Next)
    | None => (u, [], Next)
    end.
  (** EchoClientProtocol.send, 111-114 *)
  Definition client_send (m : pystr) : res bytes := serialize E (echo_packet (Some true) (Some m)).
  (** EchoClientProtocol.close, 96-97: the name is mangled to
      _EchoClientProtocol__sendMessageActual, which does not exist *)
  Definition client_close : res bytes := Raise AttributeError.
  (** EchoControl.stdinAlert, 136-140, given what readline() returned *)
  Definition stdin_alert (line : pystr) : res bytes :=
    client_send (match rev line with 10 :: r => rev r | _ => line end).

  (** ** A client and a server and the bytes under way between them.  The
      transports are FIFO byte streams; a delivery hands any number of the
      bytes under way to data_received. *)
  Record sys := Sys { y_server : dser; y_client : dser; y_up : bytes; y_down : bytes;
                      y_slog : list act; y_clog : list act }.
  Definition depth1 (depth : nat) : sys := Sys (d_new E depth c) (d_new E depth c) [] [] [] [].
  Inductive sop := Send (m : pystr) | ToServer (n : nat) | ToClient (n : nat).
  Definition written (l : list act) : bytes := flat_map (fun a => match a with AWrite b => b | _ => [] end) l.
  Definition sys_step (depth : nat) (y : sys) (o : sop) : sys :=
    match o with
    | Send m =>
        match client_send m with
        | Ok b => Sys (y_server y) (y_client y) (y_up y ++ b) (y_down y) (y_slog y) (y_clog y)
        | Raise e => Sys (y_server y) (y_client y) (y_up y) (y_down y) (y_slog y) (y_clog y ++ [ARaise e])
        end
    | ToServer n =>
        let '(d, _, out) := data_received E depth c server_handle (firstn n (y_up y)) (y_server y) tt in
        Sys d (y_client y) (skipn n (y_up y)) (y_down y ++ written out) (y_slog y ++ out) (y_clog y)
    | ToClient n =>
        let '(d, _, out) := data_received E depth c client_handle (firstn n (y_down y)) (y_client y) tt in
        Sys (y_server y) d (y_up y) (skipn n (y_down y)) (y_slog y) (y_clog y ++ out)
    end.
  Definition sys_run (depth : nat) (os : list sop) : sys := fold_left (sys_step depth) os (depth1 depth).
End Echo.

(** ** raw_echotest.py *)

(** RawEchoClient, 43-69: received_data, and the number of close() calls.
    _abort (62-65) only prints. *)
Record rclient := RClient { rc_received : option bytes; rc_closes : nat }.
(** data_received, 53-60 *)
Definition raw_received (sent data : bytes) (r : rclient) : rclient :=
  let got := match rc_received r with None => data | Some b => b ++ data end in
  RClient (Some got) (if zlen sent <=? zlen got then Datatypes.S (rc_closes r) else rc_closes r).
(** RawEchoServer.data_received, 75-76 *)
Definition raw_server (data : bytes) : bytes := data.
(** The bytes under way.  asyncio calls data_received with at least one byte. *)
Record rsys := RSys { r_client : rclient; r_up : bytes; r_down : bytes }.
(** connection_made, 48-51 *)
Definition raw_start (sent : bytes) : rsys := RSys (RClient None 0) sent [].
Inductive rop := RToServer (n : nat) | RToClient (n : nat).
Definition raw_step (sent : bytes) (y : rsys) (o : rop) : rsys :=
  match o with
  | RToServer n => RSys (r_client y) (skipn n (r_up y)) (r_down y ++ raw_server (firstn n (r_up y)))
  | RToClient n =>
      match firstn n (r_down y) with
      | [] => y
      | data => RSys (raw_received sent data (r_client y)) (r_up y) (skipn n (r_down y))
      end
  end.
Definition raw_run (sent : bytes) (os : list rop) : rsys := fold_left (raw_step sent) os (raw_start sent).

(** create_compare_data, 3-40.  For long data without a difference the text
    shows the first and last five bytes and the length of each ([shown]). *)
Definition shown (d : bytes) : bytes * Z * bytes := (firstn 5 d, zlen d, skipn (length d - 5) d).
Inductive cmp := CmpText (b : bytes) | CmpLongSame (s1 s2 : bytes * Z * bytes).
(** 9-13: index [i] and the rest of both *)
Fixpoint marks (n : nat) (i : Z) (d1 d2 : bytes) : res bytes :=
  match n with
  | O => Ok []
  | S n' =>
      let m := if (zlen d1 <? i) || (zlen d2 <? i) then Ok 94
               else match nth_error d1 (Z.to_nat i), nth_error d2 (Z.to_nat i) with
                    | Some x, Some y => Ok (if negb (x =? y) then 94 else 32)
                    | _, _ => Raise IndexError
                    end in
      bind m (fun ch => bind (marks n' (i + 1) d1 d2) (fun r => Ok (ch :: r)))
  end.
(** 16-21 *)
Fixpoint error_offsets (i : Z) (d1 d2 : bytes) : list Z :=
  match d1, d2 with
  | x :: r1, y :: r2 => (if negb (x =? y) then [i] else []) ++ error_offsets (i + 1) r1 r2
  | _, _ => []
  end.
(** 24-35: the offsets are relative to the previous one *)
Definition offset_text (o last : Z) : bytes := lit "(" ++ print_int (o - last) ++ lit " bytes)...".
Fixpoint error_line (d : bytes) (last : Z) (os : list Z) : bytes :=
  match os with
  | [] => []
  | o :: r => repeat 46 (length (offset_text o last)) ++ firstn 1 (skipn (Z.to_nat o) d) ++ error_line d o r
  end.
Fixpoint caret_line (last : Z) (os : list Z) : bytes :=
  match os with [] => [] | o :: r => offset_text o last ++ [94] ++ caret_line o r end.
Definition compare_data (d1 d2 : bytes) : res cmp :=
  let n := Z.max (zlen d1) (zlen d2) in
  if n <? 60 then
    bind (marks (Z.to_nat n) 0 d1 d2) (fun m =>
      Ok (CmpText ([9] ++ d1 ++ [10] ++ [9] ++ d2 ++ [10] ++ [9] ++ m ++ [10])))
  else match error_offsets 0 d1 d2 with
       | [] => Ok (CmpLongSame (shown d1) (shown d2))
       | os => Ok (CmpText (([9] ++ error_line d1 0 os) ++ [10] ++ ([9] ++ error_line d2 0 os) ++ [10] ++ [9] ++ caret_line 0 os))
       end.
(** The report at the end, 117-134 *)
Inductive report := RepNever | RepNoErrors (c : cmp) | RepErrors (transmitted correct : Z) (c : cmp).
(** 125-128 *)
Definition correct_bytes (sent received : bytes) : Z :=
  zlen (filter (fun i => (i <? zlen sent) &&
                         match nth_error sent (Z.to_nat i), nth_error received (Z.to_nat i) with
                         | Some x, Some y => x =? y
                         | _, _ => false
                         end) (map Z.of_nat (seq 0 (length received)))).
Definition raw_report (sent : bytes) (received : option bytes) : res report :=
  match received with
  | None => Ok RepNever
  | Some b =>
      bind (compare_data sent b) (fun t =>
      Ok (if eqb sent b then RepNoErrors t else RepErrors (zlen b) (correct_bytes sent b) t))
  end.
