(** * What an unreliable switch should do *)
From Coq Require Import String.
From Coq Require Import List ZArith QArith Bool Permutation.
From Verif Require Import PyBase SwitchModel FragModel HubModel ErrSpec SpmpModel USwitchModel.
Import ListNotations.
Open Scope Z_scope.

(** every byte kept or complemented *)
Definition altered (a b : bytes) : Prop := Forall2 (fun x y => y = x \/ y = Z.lxor x 255) a b.
(** the second list is the first in some order, each element altered at most *)
Definition same_but_errors (xs ys : list bytes) : Prop := exists zs, Permutation xs zs /\ Forall2 altered zs ys.
(** settings with which an error position can be drawn *)
Definition drawable (set : Z * Z) : Prop := fst set <= 0 \/ 0 <= snd set.

Section USpec.
  Context {L : Type} `{EqDec L} {F : Type}.
  Variable parse_float : pystr -> option F.

  (** ** The settings: the last request that set them with good arguments counts, on
      whatever link it came *)
  Definition error_after (e : uevent L) (set : Z * Z) : Z * Z :=
    match e with
    | URequest _ r =>
        if eqb (m_request r) (lit "set-error-rate") then
          match m_args r with
          | [a; b] => match parse_int a, parse_int b with Ok n, Ok h => (n, h) | _, _ => set end
          | _ => set end
        else set
    | _ => set
    end.
  Definition error_setting (set : Z * Z) (es : list (uevent L)) : Z * Z := fold_left (fun x e => error_after e x) es set.
  Definition delay_after (e : uevent L) (set : rate * F) : rate * F :=
    match e with
    | URequest _ r =>
        if eqb (m_request r) (lit "set-delay-rate") then
          match m_args r with
          | [a; b] => match parse_int a, parse_float b with Ok n, Some d => (RInt n, d) | _, _ => set end
          | _ => set end
        else set
    | _ => set
    end.
  Definition delay_setting (set : rate * F) (es : list (uevent L)) : rate * F := fold_left (fun x e => delay_after e x) es set.

  (** ** What asyncio and random guarantee *)
  Fixpoint connected (up : L -> bool) (es : list (uevent L)) : Prop :=
    match es with
    | [] => True
    | UMade l :: r => up l = false /\ connected (fun x => if eq_dec x l then true else up x) r
    | UData l _ _ :: r => up l = true /\ connected up r
    | URequest l _ :: r => up l = true /\ connected up r
    | UFire _ _ :: r => connected up r
    | ULost l :: r => up l = true /\ connected (fun x => if eq_dec x l then false else up x) r
    end.
  Definition nobody : L -> bool := fun _ => false.
  (** random.random() is in [0, 1), random.randint(0, h) in 0..h *)
  Definition rand_ok (set : Z * Z) (x : rand) : Prop :=
    (0 <= r_late x /\ r_late x < 1)%Q /\ (drawable set -> draws_ok set (r_d1 x) /\ draws_ok set (r_d2 x)).
  Definition event_fair (set : Z * Z) (e : uevent L) : Prop :=
    match e with
    | UData _ _ rnd => forall l n, rand_ok set (rnd l n)
    | UFire _ rnd => forall n, rand_ok set (rnd n)
    | _ => True
    end.
  Fixpoint fair (set : Z * Z) (es : list (uevent L)) : Prop :=
    match es with [] => True | e :: r => event_fair set e /\ fair (error_after e set) r end.

  (** ** The registrations of a history: an announcement counts unless an error position
      cannot be drawn at that moment *)
  Fixpoint announced (set : Z * Z) (es : list (uevent L)) : list (swop L) :=
    match es with
    | [] => []
    | e :: r =>
        match e with
        | UData l (PAnnounce a) _ => if (fst set <=? 0) || (0 <=? snd set) then [SReg a l] else []
        | ULost l => [SUnreg l]
        | _ => []
        end ++ announced (error_after e set) r
    end.

  (** ** Reading a log: the wire packets dispatched to a link, what the link got *)
  Variable enc : wire -> bytes.
  Definition dispatched (l : L) (g : list (ulog L)) : list bytes :=
    concat (map (fun x => match x with UPacket _ (PWire w) tos => if in_dec eq_dec l tos then [enc w] else [] | _ => [] end) g).
  Definition got (l : L) (g : list (ulog L)) : list bytes :=
    concat (map (fun x => match x with USent l' b => if eq_dec l' l then [b] else [] | _ => [] end) g).
End USpec.
(** the writes to a link that wait for a timer *)
Definition waiting {L F Settings : Type} `{EqDec L} (l : L) (s : usw L F Settings) : list bytes :=
  map snd (filter (fun q => eqb (fst (fst q)) l) (u_pend s)).

(** ** A management request and the answer *)
Definition ask (id : Z) (verb : string) (args : list pystr) : spmp := Spmp id (lit verb) args [] None.
Definition answers {L : Type} (l : L) (id : Z) (verb : string) (args : list pystr) (text : pystr) : list (ulog L) :=
  [UReply l (SRun (lit verb) args); UReply l (SSend (Spmp id (lit verb) args text None))].
