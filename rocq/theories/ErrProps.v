(** * C30: the unreliable transport *)
From Coq Require Import List ZArith Bool Lia Permutation.
From Verif Require Import PyBase PyLemmas StreamProofs ErrModel ErrSpec ErrProofs.
Import ListNotations.
Open Scope Z_scope.

(** For every sequence of writes and every outcome of the random choices, with
    settings that do not change: no write fails and the bytes passed on are the
    bytes written, complemented exactly at the positions drawn. *)
Theorem C30_exactly_the_drawn_bytes : forall set d0 ws, draws_ok set d0 -> Forall (fun w => draws_ok set (snd (snd w))) ws ->
  exists c', ce_writes set ws (reset set 0 d0) = Ok (c', windows (snd set) d0 0 (map (fun w => (fst w, snd (snd w))) ws)).
Proof. intros set d0 ws D F. apply writes_inv; [apply inv_reset; exact D|exact F]. Qed.
(** In particular every write passes on as many bytes as it was given, each
    unchanged or complemented. *)
Theorem C30_length_preserved : forall set d0 ws c outs, draws_ok set d0 -> Forall (fun w => draws_ok set (snd (snd w))) ws ->
  ce_writes set ws (reset set 0 d0) = Ok (c, outs) ->
  Forall2 (fun w out => Forall2 (fun b b' => b' = b \/ b' = Z.lxor b 255) (fst w) out) ws outs.
Proof.
  intros set d0 ws c outs D F E. destruct (C30_exactly_the_drawn_bytes set d0 ws D F) as (c' & E'). rewrite E in E'. injection E' as _ ->. clear.
  generalize 0 at 1. intros p. revert d0 p. induction ws as [|[data [d1 d2]] ws IH]; intros d0 p; cbn [map windows fst snd]; constructor.
  - cbn [fst]. clear. revert p. induction data as [|b data IH]; intros p; cbn [flipped]; constructor; [destruct (smem d0 p); auto|apply IH].
  - destruct (snd set <? p + zlen data); apply IH.
Qed.
(** The rate: in a complete window (the writes up to and including the first
    that takes it beyond the horizon) as many bytes are altered as different
    positions were drawn, at most ErrorsPerHorizon. *)
Theorem C30_rate : forall set drawn ws last next, draws_ok set drawn ->
  zlen (concat (map fst ws)) <= snd set -> snd set < zlen (concat (map fst ws) ++ last) ->
  let outs := windows (snd set) drawn 0 (ws ++ [(last, next)]) in
  differences (concat (map fst ws) ++ last) (concat outs) = length (distinct drawn) /\
  Z.of_nat (length (distinct drawn)) <= Z.max 0 (fst set).
Proof.
  intros set drawn ws last next (DL & DF) H1 H2 outs.
  assert (E : concat outs = flipped drawn 0 (concat (map fst ws) ++ last)).
  { unfold outs. clear outs DL H2. rewrite Forall_forall in DF.
    assert (G : forall p, p + zlen (concat (map fst ws)) <= snd set -> concat (windows (snd set) drawn p (ws ++ [(last, next)])) = flipped drawn p (concat (map fst ws) ++ last)).
    { clear H1. induction ws as [|[data nx] ws IH]; intros p Hp; cbn [app windows map concat fst].
      - destruct (snd set <? p + zlen last); cbn [concat windows]; apply app_nil_r.
      - cbn [map concat fst] in Hp. rewrite zlen_app in Hp. pose proof (zlen_nonneg (concat (map fst ws))).
        destruct (Z.ltb_spec (snd set) (p + zlen data)); [lia|]. rewrite IH by lia. rewrite <- app_assoc. symmetry. apply flipped_app. }
    apply G. lia. }
  rewrite E. split.
  - apply differences_all. intros k Hk. rewrite Forall_forall in DF. specialize (DF _ Hk). lia.
  - destruct (distinct_spec drawn) as (_ & _ & L). unfold zlen in DL. lia.
Qed.
(** ** Delays *)
(** Every write is passed on at most once, as it was written; what is not yet
    passed on waits. *)
Definition written (os : list dop) : list bytes := concat (map (fun o => match o with DWrite d _ => [d] | DFire _ => [] end) os).
Theorem C30_delay_keeps_writes : forall os pend pend' out, d_run os pend = (pend', out) ->
  Permutation (pend ++ written os) (out ++ pend').
Proof.
  induction os as [|o os IH]; intros pend pend' out E; cbn [d_run] in E.
  - injection E as <- <-. unfold written. cbn. rewrite app_nil_r. reflexivity.
  - destruct (d_step o pend) as [p1 o1] eqn:E1. destruct (d_run os p1) as [p2 o2] eqn:E2. injection E as <- <-. specialize (IH _ _ _ E2).
    rewrite <- app_assoc, <- IH. unfold written in *. cbn [map concat]. destruct o as [d late|n]; cbn [d_step] in E1.
    + destruct late; injection E1 as <- <-.
      * rewrite <- app_assoc. reflexivity.
      * cbn [app]. rewrite <- Permutation_middle. reflexivity.
    + destruct (nth_error pend n) as [d|] eqn:N; injection E1 as <- <-; [|reflexivity].
      cbn [app]. apply nth_error_split in N. destruct N as (l1 & l2 & -> & <-). 
      assert (S1 : firstn (length l1) (l1 ++ d :: l2) = l1) by (rewrite firstn_app, firstn_all, Nat.sub_diag; apply app_nil_r).
      assert (S2 : skipn (S (length l1)) (l1 ++ d :: l2) = l2) by (clear; induction l1 as [|x l1 IH]; [reflexivity|exact IH]).
      cbn [firstn skipn] in S1, S2 |- *. rewrite S1, S2.
      rewrite <- app_assoc. cbn [app]. rewrite <- Permutation_middle, <- app_assoc. reflexivity.
Qed.
(** but not in the order written. *)
Theorem C30_refuted_delay_order : exists os, d_run os [] = ([], [[2]; [1]]) /\ written os = [[1]; [2]].
Proof. exists [DWrite [1] true; DWrite [2] false; DFire 0]. split; reflexivity. Qed.

(** ** What does not hold *)
(** When the settings are changed after some bytes were written, a position
    drawn may lie behind: a write may then pass on more bytes than it was given, *)
Theorem C30_refuted_changed_settings : exists set set' c data out c', draws_ok set [10] /\ draws_ok set' [0] /\
  ce_writes set [([7], ([], []))] (reset set 0 [10]) = Ok (c, [[7]]) /\
  ce_write set' [0] [] data c = Ok (c', out) /\ zlen out = 2 * zlen data.
Proof.
  exists (1, 10), (1, 20), (Cet 1 [10] (1, 10)), [1; 2; 3], [1; 2; 252; 1; 2; 3]. eexists.
  split; [split; [reflexivity|repeat constructor; discriminate]|]. split; [split; [reflexivity|repeat constructor; discriminate]|].
  split; [vm_compute; reflexivity|]. split; vm_compute; reflexivity.
Qed.
(** or fail. *)
Theorem C30_refuted_changed_settings_raise : exists set set' c data, draws_ok set [10] /\ draws_ok set' [0] /\
  ce_writes set [([7; 8; 9; 10], ([], []))] (reset set 0 [10]) = Ok (c, [[7; 8; 9; 10]]) /\
  ce_write set' [0] [] data c = Raise IndexError.
Proof.
  exists (1, 10), (1, 20), (Cet 4 [10] (1, 10)), [1; 2; 3].
  split; [split; [reflexivity|repeat constructor; discriminate]|]. split; [split; [reflexivity|repeat constructor; discriminate]|].
  split; [vm_compute; reflexivity|]. vm_compute. reflexivity.
Qed.
(** On an unreliable switch every announcement of a link adds an error
    transport of its own: a link that announces n times has n of them, *)
Theorem C30_layers_length : forall set rnd data layers, (forall n, draws_ok set (snd (rnd n))) ->
  Forall (fun c => exists drawn pos, inv set drawn pos c) layers ->
  exists layers' out, us_write set rnd data layers = Ok (layers', out) /\ length out = length data /\ length layers' = length layers /\
    Forall (fun c => exists drawn pos, inv set drawn pos c) layers'.
Proof.
  intros set rnd data layers D. revert data. induction layers as [|c layers IH]; intros data F; cbn [us_write]; [eauto 10|].
  inversion F as [|? ? (drawn & pos & I) F2]; subst. destruct (write_inv set (fst (rnd (length layers))) _ drawn pos c data I (D (length layers))) as (c' & E & I').
  rewrite E. destruct (IH (flipped drawn pos data) F2) as (l' & out & E2 & L2 & L3 & F3). rewrite E2.
  eexists _, _. split; [reflexivity|]. rewrite flipped_length in L2. split; [exact L2|]. split; [cbn [length]; congruence|]. constructor; [|exact F3].
  destruct (snd set <? pos + zlen data); eauto.
Qed.
(** so that with one error per horizon configured, a link that announced twice
    sees two. *)
Theorem C30_refuted_rate_after_reannounce : exists set d1 d2 layers out, fst set = 1 /\ draws_ok set d1 /\ draws_ok set d2 /\
  us_write set (fun _ => ([], [0])) [1; 2; 3; 4] (us_announce set d2 (us_announce set d1 [])) = Ok (layers, out) /\
  differences [1; 2; 3; 4] out = 2%nat.
Proof.
  exists (1, 3), [0], [2]. eexists _, _. split; [reflexivity|]. split; [split; [reflexivity|repeat constructor; discriminate]|].
  split; [split; [reflexivity|repeat constructor; discriminate]|]. split; vm_compute; reflexivity.
Qed.
(** ** A concrete case: rate 2, horizon 4; the second write ends the window. *)
Example C30_ex : draws_ok (2, 4) [3; 1] /\ draws_ok (2, 4) [0; 0] /\ exists c,
  ce_writes (2, 4) [([10; 11; 12], ([], [0; 0])); ([13; 14], ([], [0; 0])); ([15; 16], ([], [0; 0]))] (reset (2, 4) 0 [3; 1]) =
  Ok (c, [[10; 244; 12]; [242; 14]; [240; 16]]).
Proof.
  split; [split; [reflexivity|repeat constructor; discriminate]|]. split; [split; [reflexivity|repeat constructor; discriminate]|].
  eexists. vm_compute. reflexivity.
Qed.
Print Assumptions C30_exactly_the_drawn_bytes.
Print Assumptions C30_rate.
Print Assumptions C30_layers_length.
