(** * C42: line input *)
From Coq Require Import String.
From Coq Require Import List ZArith Bool Lia.
From Verif Require Import PyBase LineModel LineSpec LineProofs.
Import ListNotations.
Open Scope nat_scope.

(** Whatever the subclass does in its methods (change the mode, feed data, clear
    the buffer, stop, raise) and whatever is done from outside, no byte is lost,
    made up or moved: at every moment the bytes handed out so far, with the
    delimiters, are the first of the bytes that came in, and the rest is in the
    buffer. *)
Theorem C42_no_bytes_lost : forall (d : bytes) (max : nat) (U : Type) (handler : U -> upcall -> U * list lact * hres)
    (fuel : nat) (ops : list lact) (u u' : U) (t : trkind) (s' : lr) (g : list llog),
  lr_run d max handler fuel ops u (lr_new t) = Some (u', s', g) ->
  given g = used d g ++ r_buf s' /\
  forall g1 g2, g = g1 ++ g2 -> exists pending, given g1 = used d g1 ++ pending.
Proof.
  intros d max U handler fuel ops u u' t s' g E. apply run_flows in E. split; [exact (flows_balance _ _ _ _ _ _ _ E)|].
  intros g1 g2 G. destruct (flows_split _ _ _ _ _ _ _ E g1 g2 G) as (b1 & F & _). exists b1. exact (flows_balance _ _ _ _ _ _ _ F).
Qed.
Print Assumptions C42_no_bytes_lost.

(** The bytes that came in are those of the calls, in order, if the subclass
    feeds none itself. *)
Definition op_data (a : lact) : bytes := match a with AData b | ALineMode b => b | _ => [] end.
Lemma given_acts l : forall s, Forall feeds_nothing l -> given (snd (lr_acts l s)) = [].
Proof.
  induction l as [|a l IH]; intros s F; cbn; [reflexivity|]. inversion F as [|? ? Fa Fl]; subst.
  destruct (lr_act a s) as [s1 g1] eqn:E. specialize (IH s1 Fl). destruct (lr_acts l s1) as [s2 g2]. cbn [fst snd] in *.
  rewrite given_app, IH, app_nil_r. destruct a; cbn in E, Fa; injection E as _ <-; subst; reflexivity.
Qed.
Lemma given_loop d max U (handler : U -> upcall -> U * list lact * hres) : no_feedback handler -> forall fuel u s u' s' g o,
  lr_loop d max handler fuel u s = Some (u', s', g, o) -> given g = [].
Proof.
  intros NF. induction fuel as [|n IH]; intros u s u' s' g o; cbn [lr_loop]; [discriminate|].
  destruct (fetch d max s) as [[c s1]|]; [|intros [= _ _ <- _]; reflexivity].
  pose proof (NF u c) as F. destruct (handler u c) as [[u2 acts] h]. cbn in F. pose proof (given_acts acts s1 F) as A.
  destruct (lr_acts acts s1) as [s2 g2]. cbn [snd] in A. destruct (after c h s2).
  - intros [= _ _ <- _]. exact A.
  - destruct (lr_loop d max handler n u2 s2) as [[[[u3 s3] g3] o3]|] eqn:E; [|discriminate]. intros [= _ _ <- _].
    change (given (LUp c :: g2 ++ g3)) with (given (g2 ++ g3)). rewrite given_app, A. eapply IH; eauto.
Qed.
Theorem C42_input_recorded : forall (d : bytes) (max : nat) (U : Type) (handler : U -> upcall -> U * list lact * hres)
    (fuel : nat) (ops : list lact) (u u' : U) (t : trkind) (s' : lr) (g : list llog),
  no_feedback handler -> lr_run d max handler fuel ops u (lr_new t) = Some (u', s', g) -> given g = concat (map op_data ops).
Proof.
  intros d max U handler fuel ops u u' t s' g NF. generalize (lr_new t) as s. revert u g.
  assert (D : forall b u s u' s' g o, lr_data d max handler fuel b u s = Some (u', s', g, o) -> given g = b).
  { intros b u s u0 s0 g o. unfold lr_data. destruct (r_busy s).
    - intros [= _ _ <- _]. cbn. apply app_nil_r.
    - destruct (lr_loop _ _ _ _ _ _) as [[[[u1 s1] g1] o1]|] eqn:E; [|discriminate]. intros [= _ _ <- _].
      apply (given_loop d max U handler NF) in E. change (given (LIn b :: g1)) with (b ++ given g1). rewrite E. apply app_nil_r. }
  induction ops as [|a ops IH]; intros u g s; cbn [lr_run map concat]; [intros [= _ _ <-]; reflexivity|].
  destruct (lr_ext d max handler fuel a u s) as [[[[u1 s1] g1] o1]|] eqn:E; [|discriminate].
  destruct (lr_run d max handler fuel ops u1 s1) as [[[u2 s2] g2]|] eqn:R; [|discriminate]. intros [= -> -> <-].
  rewrite given_app, (IH _ _ _ R). f_equal. destruct a as [b|e| | |]; cbn [lr_ext] in E; try (injection E as _ _ <- _; reflexivity).
  - now apply D in E.
  - destruct e as [|x e]; [injection E as _ _ <- _; reflexivity|].
    destruct (lr_data d max handler fuel (x :: e) u _) as [[[[u3 s3] g3] o3]|] eqn:X; [|discriminate]. injection E as _ _ <- _.
    change (given (LMode false :: g3)) with (given g3). now apply D in X.
Qed.
Print Assumptions C42_input_recorded.

(** line_received is called in line mode only, with the bytes up to the next
    delimiter and at most MAX_LENGTH of them; rawDataReceived in raw mode only,
    with everything that is pending; lineLengthExceeded in line mode only, with
    everything that is pending, which is more than MAX_LENGTH bytes. *)
Theorem C42_upcalls : forall (d : bytes) (max : nat) (U : Type) (handler : U -> upcall -> U * list lact * hres)
    (fuel : nat) (ops : list lact) (u u' : U) (t : trkind) (s' : lr) (g1 g2 : list llog) (c : upcall),
  lr_run d max handler fuel ops u (lr_new t) = Some (u', s', g1 ++ LUp c :: g2) ->
  match c with
  | ULine l => raw_after false g1 = false /\ is_line d l /\ length l <= max
  | URaw b => raw_after false g1 = true /\ given g1 = used d g1 ++ b
  | UExceeded b => raw_after false g1 = false /\ given g1 = used d g1 ++ b /\ max < length b
  end.
Proof.
  intros d max U handler fuel ops u u' t s' g1 g2 c E. apply run_flows in E. 
  destruct (flows_split _ _ _ _ _ _ _ E g1 _ eq_refl) as (b1 & F & G). apply flows_balance in F. cbn [r_raw r_buf lr_new app] in *.
  inversion G; subst; auto.
Qed.
Print Assumptions C42_upcalls.

(** When a call of data_received ends without being told to stop, nothing that
    could be delivered is held back. *)
Theorem C42_nothing_held_back : forall (d : bytes) (max : nat) (U : Type) (handler : U -> upcall -> U * list lact * hres)
    (fuel : nat) (b : bytes) (u u' : U) (s s' : lr) (g : list llog),
  d <> [] -> r_busy s = false -> lr_data d max handler fuel b u s = Some (u', s', g, OIdle) ->
  r_buf s' = [] \/ (r_raw s' = false /\ ~ occurs d (r_buf s') /\ length (r_buf s') <= max).
Proof.
  intros d max U handler fuel b u u' s s' g N B. unfold lr_data. rewrite B.
  destruct (lr_loop _ _ _ _ _ _) as [[[[u1 s1] g1] o1]|] eqn:E; [|discriminate]. intros [= <- <- <- ->].
  apply loop_idle, fetch_none in E; auto.
Qed.
Print Assumptions C42_nothing_held_back.

(** data_received returns, unless the subclass keeps feeding it. *)
Theorem C42_terminates : forall (d : bytes) (max : nat) (U : Type) (handler : U -> upcall -> U * list lact * hres) (b : bytes) (u : U) (s : lr),
  no_feedback handler -> exists fuel, lr_data d max handler fuel b u s <> None.
Proof.
  intros d max U handler b u s NF. exists (S (length (r_buf s ++ b))). unfold lr_data. destruct (r_busy s); [discriminate|].
  assert (L := loop_ends d max handler NF (S (length (r_buf s ++ b))) u (with_busy (with_buf s (r_buf s ++ b)) true)).
  cbn [with_busy with_buf r_buf] in L. specialize (L (Nat.lt_succ_diag_r _)).
  destruct (lr_loop _ _ _ _ _ _) as [[[[]]]|]; [discriminate|contradiction].
Qed.
Print Assumptions C42_terminates.

(** Chunk boundaries do not matter: if the bytes that come in are the lines [ls]
    and an unfinished line [rest], exactly [ls] are delivered, in order, and
    [rest] is kept, however the bytes are cut.  Lines must leave room for an
    unfinished delimiter: with CR LF, they must be shorter than MAX_LENGTH. *)
Theorem C42_chunk_independent : forall (d : bytes) (max : nat) (U : Type) (handler : U -> upcall -> U * list lact * hres)
    (fuel : nat) (chunks : list bytes) (u : U) (t : trkind) (ls : list bytes) (rest : bytes),
  d <> [] -> consumer handler -> t = NoTransport \/ t = Twisted false ->
  concat chunks = stream_of d ls rest ->
  Forall (fun l => is_line d l /\ length l + length d <= S max) ls -> ~ occurs d rest -> length rest <= max ->
  length ls < fuel ->
  exists u' s' g, lr_run d max handler fuel (map AData chunks) u (lr_new t) = Some (u', s', g) /\
    upcalls g = map ULine ls /\ r_buf s' = rest.
Proof.
  intros d max U handler fuel chunks u t ls rest N C Q E F O L G.
  destruct (run_lines d max handler N C fuel chunks u (lr_new t) ls rest eq_refl eq_refl Q E F O L) as (u' & g & R & X); [|cbn; lia|exact G|].
  - intros (p & q & P). destruct p; [|discriminate]. cbn in P. destruct d; [contradiction|discriminate].
  - exists u', (with_buf (lr_new t) rest), g. auto.
Qed.
Print Assumptions C42_chunk_independent.

(** A line that is longer than MAX_LENGTH, whatever is still to come, is never
    delivered: after the lines before it, lineLengthExceeded is called. *)
Theorem C42_long_line : forall (d : bytes) (max : nat) (U : Type) (handler : U -> upcall -> U * list lact * hres)
    (fuel : nat) (chunks : list bytes) (u u' : U) (t : trkind) (ls : list bytes) (l tail : bytes) (s' : lr) (g : list llog),
  d <> [] -> consumer handler -> t = NoTransport \/ t = Twisted false ->
  concat chunks = stream_of d ls (l ++ tail) ->
  Forall (fun l => is_line d l /\ length l + length d <= S max) ls -> ~ occurs d l -> max + length d <= length l ->
  length ls < fuel ->
  lr_run d max handler fuel (map AData chunks) u (lr_new t) = Some (u', s', g) ->
  exists b more, upcalls g = map ULine ls ++ UExceeded b :: more.
Proof.
  intros d max U handler fuel chunks u u' t ls l tail s' g N C Q E F O L G R.
  eapply (run_long d max handler N C fuel chunks u (lr_new t) ls l tail); eauto.
  - intros (p & q & P). destruct p; [|discriminate]. cbn in P. destruct d; [contradiction|discriminate].
  - cbn. lia.
Qed.
Print Assumptions C42_long_line.

(** Which call is the last one: data_received goes on after a call exactly if the
    method returned nothing, it was not lineLengthExceeded, and, after a line, the
    transport is not disconnecting; how it ends tells which of these it was. *)
Definition tr_after {U} (t : trkind) (h : U -> upcall -> U * list lact * hres) (u : U) (cs : list upcall) : trkind :=
  match t with Twisted _ => Twisted (disconnects t h u cs) | t => t end.
Lemma acts_facts l : forall s, r_tr (fst (lr_acts l s)) = (match r_tr s with Twisted b => Twisted (b || existsb is_lose l) | t => t end) /\ upcalls (snd (lr_acts l s)) = [].
Proof.
  induction l as [|a l IH]; intros s; cbn [lr_acts existsb]; [split; [cbn [fst]; destruct (r_tr s) as [|[]|]; reflexivity|reflexivity]|].
  destruct (lr_act a s) as [s1 g1] eqn:E. specialize (IH s1). destruct (lr_acts l s1) as [s2 g2]. cbn [fst snd] in *. destruct IH as [A B]. unfold upcalls in *. rewrite A, map_app, concat_app, B, app_nil_r.
  destruct a; cbn in E; injection E as <- <-; cbn; destruct (r_tr s) as [|[]|]; split; reflexivity.
Qed.
Lemma upcalls_app a b : upcalls (a ++ b) = upcalls a ++ upcalls b.
Proof. unfold upcalls. now rewrite map_app, concat_app. Qed.
Lemma tr_step U t (h : U -> upcall -> U * list lact * hres) u c cs : 
  disconnects (match t with Twisted b => Twisted (b || existsb is_lose (snd (fst (h u c)))) | t => t end) h (fst (fst (h u c))) cs = disconnects t h u (c :: cs).
Proof. unfold disconnects. destruct t; try reflexivity. cbn [has_lost]. now rewrite orb_assoc. Qed.
Definition goes_on (t : trkind) (r : hres) (c : upcall) (gone : bool) : Prop := r = HRet false /\ exceeded_call c = false /\ gone = false /\ (line_call c = true -> t <> Plain).
Definition ends_so (t : trkind) (r : hres) (c : upcall) (gone : bool) (o : lout) : Prop :=
  match o with
  | OIdle => goes_on t r c gone
  | OStopped => (r = HRet true /\ exceeded_call c = false) \/ (r = HRet false /\ gone = true)
  | OExceeded => r <> HExc /\ exceeded_call c = true
  | OExc => r = HExc \/ (r = HRet false /\ line_call c = true /\ t = Plain)
  end.
Lemma loop_turns d max U (h : U -> upcall -> U * list lact * hres) : forall fuel u s u' s' g o,
  lr_loop d max h fuel u s = Some (u', s', g, o) ->
  u' = after_calls h u (upcalls g) /\ (upcalls g = [] -> o = OIdle) /\
  forall cs c cs', upcalls g = cs ++ c :: cs' ->
    let r := snd (h (after_calls h u cs) c) in let gone := (line_call c && disconnects (r_tr s) h u (cs ++ [c]))%bool in
    (cs' <> [] -> goes_on (r_tr s) r c gone) /\ (cs' = [] -> ends_so (r_tr s) r c gone o).
Proof.
  induction fuel as [|k IH]; intros u s u' s' g o; cbn [lr_loop]; [discriminate|].
  destruct (fetch d max s) as [[c0 s1]|] eqn:F.
  2:{ intros [= <- <- <- <-]. cbn. repeat split; auto; destruct cs; discriminate. }
  assert (T1 : r_tr s1 = r_tr s). { unfold fetch in F. destruct (r_buf s); [discriminate|]. destruct (r_raw s); [injection F as _ <-; reflexivity|].
    destruct (split_line d (z :: b)) as [[l rest]|]; destruct (max <? _); try discriminate; injection F as _ <-; reflexivity. }
  destruct (h u c0) as [[u2 acts] r0] eqn:H0. destruct (acts_facts acts s1) as [A B]. destruct (lr_acts acts s1) as [s2 g2]. cbn [fst snd] in A, B. rewrite T1 in A.
  assert (First : let gone := (line_call c0 && disconnects (r_tr s) h u [c0])%bool in
     match after c0 r0 s2 with None => goes_on (r_tr s) r0 c0 gone | Some o => ends_so (r_tr s) r0 c0 gone o /\ o <> OIdle end).
  { cbn zeta. unfold disconnects. cbn [has_lost]. rewrite H0. cbn [fst snd]. rewrite orb_false_r. unfold after, ends_so, goes_on. rewrite A.
    destruct r0 as [[]|], c0; cbn [line_call exceeded_call andb]; destruct (r_tr s) as [|b0|]; cbn;
      try destruct (b0 || existsb is_lose acts)%bool; repeat split; auto; try discriminate; right; repeat split; auto. }
  destruct (after c0 r0 s2) as [o0|] eqn:Af.
  - intros [= <- <- <- <-]. replace (upcalls (LUp c0 :: g2)) with [c0] by (change (LUp c0 :: g2) with ([LUp c0] ++ g2); rewrite upcalls_app, B; reflexivity).
    split; [cbn; now rewrite H0|]. split; [discriminate|]. intros cs c cs' E. destruct cs as [|x cs]; [|destruct cs; discriminate]. injection E as <- <-.
    cbn [after_calls app]. rewrite H0. cbn [fst snd]. split; [congruence|]. intros _. apply First.
  - destruct (lr_loop d max h k u2 s2) as [[[[u3 s3] g3] o3]|] eqn:L; [|discriminate]. intros [= <- <- <- <-].
    replace (upcalls (LUp c0 :: g2 ++ g3)) with (c0 :: upcalls g3) by (change (LUp c0 :: g2 ++ g3) with ([LUp c0] ++ g2 ++ g3); rewrite !upcalls_app, B; reflexivity).
    destruct (IH _ _ _ _ _ _ L) as (I1 & I2 & I3). cbn [after_calls]. rewrite H0. cbn [fst snd]. split; [exact I1|]. split; [discriminate|].
    intros cs c cs' E. destruct cs as [|x cs].
    + injection E as <- E. cbn [after_calls app]. rewrite H0. cbn [fst snd]. split; [intros _; exact First|]. intros ->. rewrite (I2 E). exact First.
    + injection E as <- E. cbn [after_calls app]. rewrite H0. cbn [fst snd]. specialize (I3 cs c cs' E). cbn zeta in I3.
      assert (D : disconnects (r_tr s2) h u2 (cs ++ [c]) = disconnects (r_tr s) h u (c0 :: cs ++ [c])).
      { pose proof (tr_step U (r_tr s) h u c0 (cs ++ [c])) as X. rewrite H0 in X. cbn [fst snd] in X. rewrite <- X, A. now destruct (r_tr s). }
      rewrite <- D. assert (P : r_tr s2 = Plain <-> r_tr s = Plain) by (rewrite A; destruct (r_tr s); split; congruence).
      unfold ends_so, goes_on in *. destruct I3 as [J1 J2]. split; [intros X; specialize (J1 X); tauto|]. intros X. specialize (J2 X). destruct o3; tauto.
Qed.
Theorem C42_when_it_ends : forall (d : bytes) (max : nat) (U : Type) (h : U -> upcall -> U * list lact * hres)
    (fuel : nat) (b : bytes) (u u' : U) (s s' : lr) (g : list llog) (o : lout),
  r_busy s = false -> lr_data d max h fuel b u s = Some (u', s', g, o) ->
  u' = after_calls h u (upcalls g) /\ (upcalls g = [] -> o = OIdle) /\
  forall cs c cs', upcalls g = cs ++ c :: cs' ->
    let r := snd (h (after_calls h u cs) c) in                                        (* how the method ended *)
    let gone := (line_call c && disconnects (r_tr s) h u (cs ++ [c]))%bool in          (* after a line, transport.disconnecting *)
    (cs' <> [] -> r = HRet false /\ exceeded_call c = false /\ gone = false /\ (line_call c = true -> r_tr s <> Plain)) /\
    (cs' = [] -> match o with
       | OIdle => r = HRet false /\ exceeded_call c = false /\ gone = false /\ (line_call c = true -> r_tr s <> Plain)
       | OStopped => (r = HRet true /\ exceeded_call c = false) \/ (r = HRet false /\ gone = true)
       | OExceeded => r <> HExc /\ exceeded_call c = true
       | OExc => r = HExc \/ (r = HRet false /\ line_call c = true /\ r_tr s = Plain)
       end).
Proof.
  intros d max U h fuel b u u' s s' g o B. unfold lr_data. rewrite B. destruct (lr_loop _ _ _ _ _ _) as [[[[u1 s1] g1] o1]|] eqn:L; [|discriminate]. intros [= <- <- <- <-].
  apply loop_turns in L. exact L.
Qed.
Print Assumptions C42_when_it_ends.

(** ** Refuted variants *)
Definition crlf : bytes := [13; 10]%Z.
Definition sink : unit -> upcall -> unit * list lact * hres := fun u _ => (u, [], HRet false).
Definition seen (r : option (unit * lr * list llog)) : list upcall := match r with Some (_, _, g) => upcalls g | None => [] end.

(** A line of exactly MAX_LENGTH bytes is delivered if it comes with its
    delimiter, and drops the connection if the delimiter is cut. *)
Theorem C42_chunks_at_limit_refuted : exists l : bytes, length l = Nat.pow 2 14 /\ is_line crlf l /\
  seen (lr_run crlf (Nat.pow 2 14) sink 5 [AData (l ++ crlf)] tt (lr_new NoTransport)) = [ULine l] /\
  seen (lr_run crlf (Nat.pow 2 14) sink 5 (map AData [l ++ [13%Z]; [10%Z]]) tt (lr_new NoTransport)) = [UExceeded (l ++ [13%Z])].
Proof.
  exists (repeat 65%Z (Nat.pow 2 14)). rewrite repeat_length. split; [reflexivity|]. split; [|split; vm_compute; reflexivity].
  intros p q E. generalize dependent (Nat.pow 2 14). intros n. revert p. induction n as [|n IH]; intros p E.
  - destruct p as [|x [|y p]]; [reflexivity| |]; cbn in E; [discriminate|]. apply (f_equal (@length Z)) in E. cbn in E. rewrite app_length in E. cbn in E. lia.
  - destruct p as [|x p]; [discriminate|]. cbn in E. injection E as <- E. cbn. f_equal. now apply IH.
Qed.
Print Assumptions C42_chunks_at_limit_refuted.

(** On an asyncio transport the shell's receiver delivers one line and raises;
    the other complete lines stay in the buffer until more data comes. *)
Theorem C42_asyncio_one_line_per_call : forall (d : bytes) (max : nat) (U : Type) (handler : U -> upcall -> U * list lact * hres)
    (fuel : nat) (b l rest : bytes) (u : U) (s : lr),
  d <> [] -> consumer handler -> r_busy s = false -> r_raw s = false -> r_tr s = Plain -> 0 < fuel ->
  r_buf s ++ b = l ++ d ++ rest -> is_line d l -> length l <= max ->
  exists u', lr_data d max handler fuel b u s = Some (u', with_buf s rest, [LIn b; LUp (ULine l)], OExc).
Proof. intros. apply data_plain; auto. Qed.
Print Assumptions C42_asyncio_one_line_per_call.
Theorem C42_asyncio_all_lines_refuted : exists b l1 l2, b = l1 ++ crlf ++ l2 ++ crlf /\
  seen (lr_run crlf (Nat.pow 2 14) sink 5 [AData b] tt (lr_new Plain)) = [ULine l1] /\
  seen (lr_run crlf (Nat.pow 2 14) sink 5 [AData b] tt (lr_new (Twisted false))) = [ULine l1; ULine l2].
Proof. exists (lit "ab" ++ crlf ++ lit "c" ++ crlf), (lit "ab"), (lit "c"). vm_compute. repeat split. Qed.
Print Assumptions C42_asyncio_all_lines_refuted.

(** ** Examples *)
(** a subclass that switches to raw mode on "DATA" and back on the first raw data *)
Definition switcher : unit -> upcall -> unit * list lact * hres := fun u c =>
  match c with
  | ULine l => (u, if eqb l (lit "DATA") then [ARawMode] else [], HRet false)
  | URaw b => (u, [ALineMode (skipn 2 b)], HRet false)
  | UExceeded _ => (u, [ALose], HRet false)
  end.
Example switcher_example :
  seen (lr_run crlf 10 switcher 20 (map AData [lit "x"; crlf ++ lit "DATA" ++ crlf ++ lit "..yy"; crlf ++ lit "0123456789ab"; lit "zz"]) tt (lr_new (Twisted false)))
  = [ULine (lit "x"); ULine (lit "DATA"); URaw (lit "..yy"); ULine (lit "yy"); UExceeded (lit "0123456789ab")].
Proof. vm_compute. reflexivity. Qed.
Example chunk_example : concat [lit "ab"; [13%Z]; 10%Z :: lit "c"; lit "d" ++ crlf ++ lit "e"] = stream_of crlf [lit "ab"; lit "cd"] (lit "e") /\
  seen (lr_run crlf (Nat.pow 2 14) sink 5 (map AData [lit "ab"; [13%Z]; 10%Z :: lit "c"; lit "d" ++ crlf ++ lit "e"]) tt (lr_new NoTransport)) = [ULine (lit "ab"); ULine (lit "cd")] /\
  is_line crlf (lit "ab") /\ consumer sink.
Proof.
  split; [vm_compute; reflexivity|]. split; [vm_compute; reflexivity|]. split; [|intros u c; auto].
  intros p q E. assert (L : length p <= 2). { apply (f_equal (@length Z)) in E. rewrite !app_length in E. cbn in E. lia. }
  destruct p as [|a [|b [|c p]]]; cbn in E, L; try lia; try discriminate E. injection E as E1 E2 _. subst. reflexivity.
Qed.

(** a subclass that loses the connection on "BYE" *)
Definition leaver : unit -> upcall -> unit * list lact * hres := fun u c => match c with ULine l => (u, if eqb l (lit "BYE") then [ALose] else [], HRet false) | _ => (u, [], HRet false) end.
Example leaver_example :
  seen (lr_run crlf 10 leaver 20 [AData (lit "x" ++ crlf ++ lit "BYE" ++ crlf ++ lit "z" ++ crlf)] tt (lr_new (Twisted false))) = [ULine (lit "x"); ULine (lit "BYE")] /\
  seen (lr_run crlf 10 leaver 20 [AData (lit "x" ++ crlf ++ lit "BYE" ++ crlf ++ lit "z" ++ crlf)] tt (lr_new NoTransport)) = [ULine (lit "x"); ULine (lit "BYE"); ULine (lit "z")].
Proof. vm_compute. split; reflexivity. Qed.
