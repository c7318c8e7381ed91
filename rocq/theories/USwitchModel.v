(** * Model of the switch process, entry_points/launch_switch.py (LS), with
    --unreliable: UnreliableSwitch, network/devices/switch/UnreliableSwitch.py (US), behind
    FramedProtocolAdapter, network/protocols/spmp.py 150-173 (SP).
    Simplifications: the adapter hands over one packet at a time (SP 163-169), so a packet
    is an event; time is left out, a delayed write may come at any later moment; log
    levels are [Settings] with any three functions; a delay is a float of any kind, with
    its own parser and printer; the texts of TypeError and ValueError are shortened. *)
From Coq Require Import String.
From Coq Require Import List ZArith QArith Bool.
From Verif Require Import PyBase AddrModel SwitchModel FragModel HubModel ErrModel SpmpModel WanApiModel.
Import ListNotations.
Open Scope Z_scope.

(** random.randint(0, ErrorHorizon), called ErrorsPerHorizon times (US 37-38): ValueError
    for an empty range *)
Definition can_draw (set : Z * Z) : bool := (fst set <=? 0) || (0 <=? snd set).
(** the loop US 50-53 with what is left of bytesToCorrupt when it raises (the position
    is popped first); None: IndexError *)
Fixpoint corrupt2 (index range : Z) (bad : list Z) (data : bytes) : list Z * option bytes :=
  match bad with
  | [] => ([], Some data)
  | b :: r => if b <? range then match flip data (b - index) with Raise _ => (r, None) | Ok d => corrupt2 index range r d end
              else (bad, Some data)
  end.
(** ConstantErrorTransport.write, US 45-58, also when it raises: None.  bytesToCorrupt is
    emptied (US 36) before randint raises, the settings are noted after (US 42). *)
Definition ce_write2 (set : Z * Z) (d1 d2 : list Z) (data : bytes) (c : cet) : cet * option bytes :=
  let go (c : cet) :=
    match corrupt2 (c_index c) (zlen data + c_index c) (c_bad c) data with
    | (bad, None) => (Cet (c_index c) bad (c_set c), None)
    | (bad, Some out) =>
        let index := c_index c + zlen out in
        if snd set <? index
        then if can_draw set then (reset set 0 d2, Some out) else (Cet 0 [] (c_set c), None)
        else (Cet index bad (c_set c), Some out)
    end in
  if eqb (c_set c) set then go c
  else if can_draw set then go (reset set (c_index c) d1) else (Cet (c_index c) [] (c_set c), None).

(** DelayTransport.Rate, US 65 and 93: .01, or the int it was set to *)
Inductive rate := RDefault | RInt (z : Z).
Definition rate_q (r : rate) : Q := match r with RDefault => 1 # 100 | RInt z => inject_Z z end.
(** what is random in one write of one DelayTransport and the error transport under it:
    random.random() and the draws of the two resets *)
Record rand := Rand { r_late : Q; r_d1 : list Z; r_d2 : list Z }.
(** US 69: random.random() < self.Rate *)
Definition late (r : rate) (x : rand) : bool := negb (Qle_bool (rate_q r) (r_late x)).

(** What becomes of a write: it reaches the link's real transport; it waits at the
    DelayTransport with [depth] transports from it on; it is dropped (US 75-78). *)
Inductive outcome := Sent (b : bytes) | Held (depth : nat) (b : bytes) | Dropped.
(** DelayTransport.write over ConstantErrorTransport.write over the layers of earlier
    announcements, US 68-78, 45-58, 96-98; [due]: this write has waited already. *)
Fixpoint pipe (set : Z * Z) (rt : rate) (rnd : nat -> rand) (due : bool) (data : bytes) (ls : list cet) : list cet * outcome :=
  match ls with
  | [] => ([], Sent data)
  | c :: r =>
      if negb due && late rt (rnd (length r)) then (c :: r, Held (length (c :: r)) data)
      else match ce_write2 set (r_d1 (rnd (length r))) (r_d2 (rnd (length r))) data c with
           | (c', None) => (c' :: r, Dropped)
           | (c', Some out) => let (r', o) := pipe set rt rnd false out r in (c' :: r', o)
           end
  end.
(** raw_write at the DelayTransport at [depth], US 74-76 *)
Fixpoint fire (set : Z * Z) (rt : rate) (rnd : nat -> rand) (depth : nat) (data : bytes) (ls : list cet) : list cet * outcome :=
  match ls with
  | [] => ([], Sent data)
  | c :: r => if Nat.eqb (length ls) depth then pipe set rt rnd true data ls
              else let (r', o) := fire set rt rnd depth data r in (c :: r', o)
  end.

Section USwitch.
  Context {L : Type} `{EqDec L} {F Settings : Type}.
  (** packet.__serialize__() *)
  Variable enc : wire -> bytes.
  Variables (parse_float : pystr -> option F) (print_float : F -> pystr).
  (** all-log-levels, get-log-level, set-log-level, LS 38-40 *)
  Variables all_levels get_level set_level : Settings -> list pystr -> Settings * opres.
  Variable name : pystr.

  (** the class attributes of US: (ErrorsPerHorizon, ErrorHorizon), (Rate, Delay) *)
  Definition conf := ((Z * Z) * (rate * F) * Settings)%type.
  Definition print_rate (r : rate) : pystr := match r with RDefault => lit "0.01" | RInt z => print_int z end.
  Definition float_error : pystr := lit "could not convert string to float".
  (** LS 36-48 *)
  Definition op_get_error : operation conf := fun x args =>
    (x, match args with [] => OpValue (lit "Errors per Bytes = (" ++ print_int (fst (fst (fst x))) ++ lit ", " ++ print_int (snd (fst (fst x))) ++ lit ")") | _ => OpRaises argument_error end).
  Definition op_set_error : operation conf := fun x args =>
    match args with
    | [a; b] => match parse_int a, parse_int b with
                | Ok n, Ok h => ((n, h), snd (fst x), snd x, OpValue (lit "None"))
                | _, _ => (x, OpRaises int_error) end
    | _ => (x, OpRaises argument_error)
    end.
  Definition op_get_delay : operation conf := fun x args =>
    (x, match args with [] => OpValue (lit "Every " ++ print_rate (fst (snd (fst x))) ++ lit " packets, delay " ++ print_float (snd (snd (fst x))) ++ lit " second") | _ => OpRaises argument_error end).
  Definition op_set_delay : operation conf := fun x args =>
    match args with
    | [a; b] => match parse_int a with
                | Ok n => match parse_float b with
                          | Some d => (fst (fst x), (RInt n, d), snd x, OpValue (lit "None"))
                          | None => (x, OpRaises float_error) end
                | Raise _ => (x, OpRaises int_error) end
    | _ => (x, OpRaises argument_error)
    end.
  Definition op_setting (f : Settings -> list pystr -> Settings * opres) : operation conf :=
    fun x args => let (s, o) := f (snd x) args in ((fst x, s), o).
  Definition op_verbs (names : list pystr) : operation conf :=
    fun x args => (x, match args with [] => OpValue (commas names) | _ => OpRaises argument_error end).
  (** of every switch, and of an unreliable one *)
  Definition plain_verbs : list pystr := map lit ["verbs"; "all-log-levels"; "get-log-level"; "set-log-level"]%string.
  Definition all_verbs : list pystr := plain_verbs ++ map lit ["get-error-rate"; "set-error-rate"; "get-delay-rate"; "set-delay-rate"]%string.
  Definition plain_api : dict pystr (operation conf) :=
    combine plain_verbs [op_verbs plain_verbs; op_setting all_levels; op_setting get_level; op_setting set_level].
  Definition unreliable_api : dict pystr (operation conf) :=
    combine all_verbs [op_verbs all_verbs; op_setting all_levels; op_setting get_level; op_setting set_level;
                       op_get_error; op_set_error; op_get_delay; op_set_delay].
  (** LS 53: no security policy *)
  Definition plain_server : server conf := Server plain_api None name.
  Definition unreliable_server : server conf := Server unreliable_api None name.

  (** the tables of the switch, the links with a transport, the transports put between
      each link and its own (outermost first), the writes waiting, the settings *)
  Record usw := Usw { u_sw : switch L; u_up : list L; u_layers : dict L (list cet);
                      u_pend : list (L * nat * bytes); u_conf : conf }.
  Definition usw_new (x : conf) : usw := Usw sw_empty [] [] [] x.
  (** a fresh process: US 26-27, 65-66; [d] is 1.0 *)
  Definition conf_new (d : F) (s : Settings) : conf := ((1, 102400), (RDefault, d), s).
  Definition layers_of (ly : dict L (list cet)) (l : L) : list cet := match dget ly l with Some x => x | None => [] end.

  (** what is seen: a packet of a link was dispatched to links; bytes were written to the
      real transport of a link; a management reply was *)
  Inductive ulog := UPacket (l : L) (p : pkt) (tos : list L) | USent (l : L) (b : bytes) | UReply (l : L) (g : slog).

  Definition settle (l : L) (o : outcome) (pend : list (L * nat * bytes)) : list (L * nat * bytes) * list ulog :=
    match o with Sent b => (pend, [USent l b]) | Held k b => (pend ++ [(l, k, b)], []) | Dropped => (pend, []) end.
  (** SW 47-52: one write for each destination *)
  Fixpoint write_each (set : Z * Z) (rt : rate) (rnd : L -> nat -> rand) (data : bytes) (tos : list L)
      (ly : dict L (list cet)) (pend : list (L * nat * bytes)) : dict L (list cet) * list (L * nat * bytes) * list ulog :=
    match tos with
    | [] => (ly, pend, [])
    | l :: r =>
        let (ls, o) := pipe set rt (rnd l) false data (layers_of ly l) in
        let (pend1, g1) := settle l o pend in
        let '(ly2, pend2, g2) := write_each set rt rnd data r (dset ly l ls) pend1 in
        (ly2, pend2, g1 ++ g2)
    end.

  Inductive uevent :=
  | UMade (l : L)                                       (* connection_made *)
  | UData (l : L) (p : pkt) (rnd : L -> nat -> rand)    (* a packet of the switching protocol *)
  | URequest (l : L) (r : spmp)                         (* a management packet *)
  | UFire (n : nat) (rnd : nat -> rand)                 (* the timer of the n-th waiting write *)
  | ULost (l : L).                                      (* connection_lost *)
  Definition u_step (e : uevent) (s : usw) : usw * list ulog :=
    let set := fst (fst (u_conf s)) in
    let rt := fst (snd (fst (u_conf s))) in
    match e with
    | UMade l => (Usw (u_sw s) (sadd (u_up s) l) (u_layers s) (u_pend s) (u_conf s), [])
    | UData l p rnd =>
        match p with
        | PAnnounce a =>                                                              (* US 96-98, SW 44-45 *)
            if can_draw set
            then let ly := layers_of (u_layers s) l in
                 let sw := match sw_register a l (u_sw s) with Ok s' => s' | Raise _ => u_sw s end in
                 (Usw sw (u_up s) (dset (u_layers s) l (reset set 0 (r_d1 (rnd l (length ly))) :: ly)) (u_pend s) (u_conf s), [UPacket l p []])
            else (s, [UPacket l p []])
        | PWire w =>                                                                  (* SW 46-52 *)
            match sw_outbound (w_dst w) (u_sw s) with
            | Raise _ => (s, [UPacket l p []])
            | Ok ls =>
                let tos := map fst (fst (send_all w (u_up s) ls)) in
                let '(ly, pend, g) := write_each set rt rnd (enc w) tos (u_layers s) (u_pend s) in
                (Usw (u_sw s) (u_up s) ly pend (u_conf s), UPacket l p tos :: g)
            end
        | POther => (s, [UPacket l p []])
        end
    | URequest l r =>                                                                 (* SP 164-166, 94-116 *)
        let (x, g) := process unreliable_server None r (u_conf s) in
        (Usw (u_sw s) (u_up s) (u_layers s) (u_pend s) x, map (UReply l) g)
    | UFire n rnd =>                                                                  (* US 70, 74-78 *)
        match nth_error (u_pend s) n with
        | None => (s, [])
        | Some (l, k, b) =>
            let (ls, o) := fire set rt rnd k b (layers_of (u_layers s) l) in
            let (pend, g) := settle l o (firstn n (u_pend s) ++ skipn (S n) (u_pend s)) in
            (Usw (u_sw s) (u_up s) (dset (u_layers s) l ls) pend (u_conf s), g)
        end
    | ULost l =>
        (* SW 29-31; asyncio discards what is written to the transport afterwards, so
           the waiting writes of the link have no effect: they are left out at once *)
        let sw := match sw_unregister l (u_sw s) with Ok s' => s' | Raise _ => u_sw s end in
        (Usw sw (sremove (u_up s) l) (dset (u_layers s) l []) (filter (fun q => negb (eqb (fst (fst q)) l)) (u_pend s)) (u_conf s), [])
    end.
  Fixpoint u_run (es : list uevent) (s : usw) : usw * list ulog :=
    match es with
    | [] => (s, [])
    | e :: r => let (s1, g1) := u_step e s in let (s2, g2) := u_run r s1 in (s2, g1 ++ g2)
    end.
End USwitch.
Arguments uevent : clear implicits.
Arguments ulog : clear implicits.
Arguments usw : clear implicits.
Arguments conf : clear implicits.

(** ** One error transport by itself: a history of writes under unchanged settings, each
    with its draws; what was passed on, None for a write that raised *)
Fixpoint ce_writes2 (set : Z * Z) (ws : list (bytes * (list Z * list Z))) (c : cet) : cet * list (option bytes) :=
  match ws with
  | [] => (c, [])
  | (data, (d1, d2)) :: r => let (c1, o) := ce_write2 set d1 d2 data c in let (c2, os) := ce_writes2 set r c1 in (c2, o :: os)
  end.
