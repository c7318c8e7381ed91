(** * C28: fragmentation and reassembly *)
From Coq Require Import List ZArith Bool Lia Permutation.
From Verif Require Import PyBase PyLemmas StreamModel FragModel FragSpec FragProofs.
Import ListNotations.
Open Scope Z_scope.

(** ** Sending *)
(** Data up to the maximum goes out as one packet that is not a fragment. *)
Theorem C28_small_is_one_packet : forall max id s sp d dp data, zlen data <= max ->
  tx_write_max max id s sp d dp data = [Wire s sp d dp None data].
Proof. intros max id s sp d dp data H. unfold tx_write_max. destruct (Z.leb_spec (zlen data) max); [reflexivity|lia]. Qed.
(** Longer data is cut into consecutive pieces, none empty and none longer
    than the maximum, each sent with the total length, its own offset, the
    same id and the same addresses. *)
Theorem C28_large_is_cut : forall max id s sp d dp data, 0 < max -> max < zlen data ->
  exists cs, concat cs = data /\ Forall (fun c => 0 < zlen c <= max) cs /\
    tx_write_max max id s sp d dp data =
    map (fun oc => Wire s sp d dp (Some (id, zlen data, fst oc)) (snd oc)) (with_offsets 0 cs).
Proof.
  intros max id s sp d dp data M H. exists (cut max (length data) data). split; [apply cut_concat; [exact M|lia]|]. split; [apply cut_sizes; exact M|].
  unfold tx_write_max. destruct (Z.leb_spec (zlen data) max); [lia|]. apply frag_loop_cut.
Qed.
(** With the maximum of the code, every packet written carries at most 65536
    bytes and their data, in order, is the data written. *)
Theorem C28_write_sizes : forall id s sp d dp data,
  concat (map w_data (tx_write id s sp d dp data)) = data /\
  Forall (fun p => zlen (w_data p) <= 65536 /\ w_src p = s /\ w_sport p = sp /\ w_dst p = d /\ w_dport p = dp) (tx_write id s sp d dp data).
Proof.
  intros id s sp d dp data. unfold tx_write. destruct (Z.le_gt_cases (zlen data) MAX_MSG_SIZE) as [H|H].
  - rewrite C28_small_is_one_packet by exact H. cbn [map concat w_data]. rewrite app_nil_r. split; [reflexivity|].
    constructor; [|constructor]. cbn [w_data w_src w_sport w_dst w_dport]. unfold MAX_MSG_SIZE in H. auto.
  - destruct (C28_large_is_cut MAX_MSG_SIZE id s sp d dp data ltac:(reflexivity) H) as (cs & C & F & ->). split.
    + rewrite map_map. cbn [w_data]. rewrite <- C. f_equal. clear. generalize 0. induction cs as [|c cs IH]; intros o; [reflexivity|].
      cbn [with_offsets map snd]. f_equal. apply IH.
    + apply Forall_forall. intros p Hp. apply in_map_iff in Hp. destruct Hp as ([o c] & <- & Hin). cbn [w_data w_src w_sport w_dst w_dport snd].
      split; [|auto]. destruct (with_offsets_split _ _ _ _ Hin) as (pre & post & -> & _). rewrite Forall_app in F. destruct F as [_ F]. inversion F; subst.
      unfold MAX_MSG_SIZE in *. lia.
Qed.

(** ** Receiving, one packet per call.
    The packets come from a sender as above; packets with other ids and
    unfragmented ones, and time-outs of other ids, may come between them in
    any number and order. *)
Definition sent_as (max id : Z) s sp d dp data (sent : list wire) : Prop :=
  0 < max /\ max < zlen data /\ sent = tx_write_max max id s sp d dp data.
(** every fragment with this id that arrives is one of those sent *)
Definition genuine (id : Z) (sent : list wire) (h : list rev) : Prop :=
  forall p, In (RPkt p) h -> pkt_id p = Some id -> In p sent.

Lemma sent_frags max id s sp d dp data sent : sent_as max id s sp d dp data sent ->
  exists cs, concat cs = data /\ Forall (fun c => 0 < zlen c) cs /\ cs <> [] /\ sent = frags_of id cs s sp d dp.
Proof.
  intros (M & L & ->). destruct (C28_large_is_cut max id s sp d dp data M L) as (cs & C & F & E). exists cs. split; [exact C|]. split; [|split].
  - apply Forall_impl with (2 := F). intros; lia.
  - intros ->. cbn in C. subst data. cbn in L. lia.
  - rewrite E. unfold frags_of, fragment. rewrite C. reflexivity.
Qed.
(** A message of which some fragment never arrives is never delivered, not
    even in part, however often the others arrive. *)
Theorem C28_incomplete_never_delivered : forall max id s sp d dp data sent missing h st,
  sent_as max id s sp d dp data sent -> NoDup (dkeys st) -> dget st id = None ->
  genuine id sent h -> In missing sent -> ~ In (RPkt missing) h ->
  delivered_by id (snd (rx_events h st)) = [].
Proof.
  intros max id s sp d dp data sent missing h st HS N G Hh Hm Hn. destruct (sent_frags _ _ _ _ _ _ _ _ HS) as (cs & C & F & Hne & ->).
  unfold frags_of in Hm. apply in_map_iff in Hm. destruct Hm as (oc & <- & Hoc).
  destruct (incomplete_run cs id s sp d dp h F Hne [] st (tracked_start _ _ _ Hne N G) Hh) as (st' & out & S' & E & D & _).
  { exists oc. auto. }
  rewrite E. exact D.
Qed.
(** As soon as the last missing fragment arrives the whole data is delivered,
    once, with the addresses it was sent with, whatever the order of the
    fragments and however often the earlier ones came; nothing was delivered
    before, and what comes after delivers nothing more, unless every one of
    the fragments comes again. *)
Theorem C28_delivered_once_when_complete : forall max id s sp d dp data sent last before after st,
  sent_as max id s sp d dp data sent -> NoDup (dkeys st) -> dget st id = None ->
  genuine id sent (before ++ RPkt last :: after) ->
  ~ In (RTimeout id) before ->
  In last sent -> ~ In (RPkt last) before ->
  (forall p, In p sent -> p <> last -> In (RPkt p) before) ->
  (exists p, In p sent /\ ~ In (RPkt p) after) ->
  exists o1 o2, snd (rx_events (before ++ RPkt last :: after) st) = o1 ++ (RPkt last, [(s, sp, d, dp, data)]) :: o2 /\
    length o1 = length before /\ delivered_by id o1 = [] /\ delivered_by id o2 = [].
Proof.
  intros max id s sp d dp data sent last before after st HS N G Hh NT Hl Nl All (p' & P1 & P2).
  destruct (sent_frags _ _ _ _ _ _ _ _ HS) as (cs & C & F & Hne & ->).
  unfold frags_of in *. apply in_map_iff in Hl. destruct Hl as (oc & <- & Hoc). apply in_map_iff in P1. destruct P1 as (oc' & <- & Hoc').
  destruct (complete_run cs id s sp d dp before oc after st F Hne N G Hh) as (st' & o1 & o2 & E & L & D1 & D2); auto.
  { intros x Hx ->. exact (NT Hx). }
  { intros x Hx Nx. apply All; [apply in_map; exact Hx|]. intros E. apply Nx. eapply fragment_inj; eauto. }
  { exists oc'. auto. }
  exists o1, o2. rewrite E. cbn [snd]. unfold deliver, fragment at 2 3 4 5. cbn [w_src w_sport w_dst w_dport]. rewrite C. auto.
Qed.
(** In particular, any permutation of the fragments, alone, to a receiver that
    holds nothing, delivers the data exactly once, with the last of them. *)
Theorem C28_any_order : forall max id s sp d dp data sent order,
  sent_as max id s sp d dp data sent -> Permutation sent order ->
  concat (map snd (snd (rx_events (map RPkt order) []))) = [(s, sp, d, dp, data)].
Proof.
  intros max id s sp d dp data sent order HS P.
  assert (Hs : NoDup sent /\ (forall p, In p sent -> pkt_id p = Some id) /\ sent <> []).
  { destruct (sent_frags _ _ _ _ _ _ _ _ HS) as (cs & C & F & Hne & ->). split; [|split].
    - unfold frags_of. apply FinFun.Injective_map_NoDup; [intros a b; apply fragment_inj|]. apply (NoDup_map_inv fst). apply with_offsets_nodup. exact F.
    - intros p Hp. apply in_map_iff in Hp. destruct Hp as (oc & <- & _). reflexivity.
    - destruct cs; [congruence|discriminate]. }
  destruct Hs as (ND & Hid & Hne).
  assert (No : NoDup order) by (eapply Permutation_NoDup; eauto).
  destruct (@exists_last _ order) as (before & last & E).
  { intros ->. apply Permutation_sym, Permutation_nil in P. contradiction. }
  assert (Hin : forall p, In p sent <-> In p order) by (intros p; split; apply Permutation_in; [|apply Permutation_sym]; exact P).
  subst order. apply NoDup_remove in No. rewrite app_nil_r in No. destruct No as [_ Nl].
  destruct (C28_delivered_once_when_complete max id s sp d dp data sent last (map RPkt before) [] [] HS) as (o1 & o2 & E & L & D1 & D2).
  - constructor.
  - reflexivity.
  - intros p Hp _. apply Hin. rewrite in_app_iff in Hp. apply in_or_app. destruct Hp as [Hp|[Hp|[]]]; [left|right; left; congruence].
    apply in_map_iff in Hp. destruct Hp as (q & Eq & Hq). congruence.
  - intros C. apply in_map_iff in C. destruct C as (q & Eq & _). discriminate.
  - apply Hin. apply in_or_app. right. left. reflexivity.
  - intros C. apply in_map_iff in C. destruct C as (q & Eq & Hq). congruence.
  - intros p Hp Np. apply in_map. apply Hin in Hp. apply in_app_or in Hp. destruct Hp as [Hp|[Hp|[]]]; [exact Hp|congruence].
  - exists last. split; [apply Hin, in_or_app; right; left; reflexivity|intros []].
  - rewrite map_app. cbn [map]. 
    assert (K : forall out, (forall e o, In (e, o) out -> of_id id e = true) -> concat (map snd out) = delivered_by id out).
    { intros out H. unfold delivered_by. f_equal. f_equal. symmetry. clear -H. induction out as [|[e o] out IH]; [reflexivity|].
      cbn [filter fst]. rewrite (H e o) by (left; reflexivity). f_equal. apply IH. intros e' o' H'. apply (H e' o'). right. exact H'. }
    rewrite K.
    + rewrite E, delivered_app, delivered_cons, D1, D2. cbn [of_id app].
      assert (X : eqb (pkt_id last) (Some id) = true).
      { unfold eqb. rewrite (Hid last) by (apply Hin, in_or_app; right; left; reflexivity). destruct (eq_dec (Some id) (Some id)); congruence. }
      rewrite X. reflexivity.
    + intros e o He.
      assert (M : forall h st, map fst (snd (rx_events h st)) = h).
      { clear. induction h as [|e h IH]; intros st; [reflexivity|]. cbn [rx_events]. destruct (rx_event e st) as [st1 o1]. specialize (IH st1).
        destruct (rx_events h st1) as [st2 o2]. cbn [snd map fst] in *. congruence. }
      assert (He' : In e (map RPkt before ++ [RPkt last])). { rewrite <- (M (map RPkt before ++ [RPkt last]) []). apply in_map_iff. exists (e, o). auto. }
      assert (X : exists p, e = RPkt p /\ In p (before ++ [last])).
      { apply in_app_or in He'. destruct He' as [H|[H|[]]]; [apply in_map_iff in H; destruct H as (p & <- & H)|subst e]; eexists; (split; [reflexivity|]); apply in_or_app; [left; exact H|right; left; reflexivity]. }
      destruct X as (p & -> & Hp). cbn [of_id]. unfold eqb. rewrite (Hid p) by (apply Hin; exact Hp). destruct (eq_dec (Some id) (Some id)); congruence.
Qed.
(** A packet that is not a fragment is delivered as it is. *)
Theorem C28_unfragmented_delivered : forall p st, w_frag p = None ->
  rx_call [p] st = (st, [(w_src p, w_sport p, w_dst p, w_dport p, w_data p)]).
Proof. intros p st H. rewrite rx_single. unfold rx_packet. rewrite H. reflexivity. Qed.

(** ** Several packets in one call of data_received *)
(** What is held for incomplete messages does not depend on how the packets
    are distributed over calls; and if, in the call, no packet that completes
    nothing follows one that completes something, neither do the deliveries.
    In general such a packet repeats the last delivery with its own addresses. *)
Theorem C28_batches : forall ps st,
  let single := rx_events (map RPkt ps) st in
  fst (rx_call ps st) = fst single /\
  snd (rx_call ps st) = repeated None (snd single) /\
  (quiet_first (snd single) -> snd (rx_call ps st) = concat (map snd (snd single))).
Proof.
  intros ps st single. unfold rx_call. rewrite rx_loop_repeated. cbn [fst snd]. split; [reflexivity|]. split; [reflexivity|]. apply repeated_quiet.
Qed.

(** ** What does not hold *)
(** An unfragmented packet followed, in the same call, by a fragment that
    completes nothing is delivered twice, the second time with the addresses of
    the fragment. *)
Theorem C28_refuted_stale_delivery : exists p q,
  w_frag p = None /\ w_dst p <> w_dst q /\ snd (rx_events [RPkt p; RPkt q] []) = [(RPkt p, [deliver p (w_data p)]); (RPkt q, [])] /\
  snd (rx_call [p; q] []) = [deliver p (w_data p); (w_src q, w_sport q, w_dst q, w_dport q, w_data p)].
Proof.
  exists (Wire [65] 1 [66] 2 None [1; 2]), (Wire [67] 3 [68] 4 (Some (9, 10, 0)) [7]).
  split; [reflexivity|]. split; [discriminate|]. split; vm_compute; reflexivity.
Qed.
(** When all the fragments come again (a duplicated transmission) the data is
    delivered again. *)
Theorem C28_refuted_full_duplicate : exists sent, sent_as 2 7 [65] 1 [66] 2 [1; 2; 3] sent /\
  concat (map snd (snd (rx_events (map RPkt (sent ++ sent)) []))) = [([65], 1, [66], 2, [1; 2; 3]); ([65], 1, [66], 2, [1; 2; 3])].
Proof. eexists. split; [split; [reflexivity|split; [reflexivity|reflexivity]]|]. vm_compute. reflexivity. Qed.
(** Messages are told apart by their id alone: two different senders that draw
    the same id corrupt each other's messages; one of them is delivered in
    full length with foreign bytes under the address of the other. *)
Theorem C28_refuted_id_collision : exists sent1 sent2 got,
  sent_as 2 7 [65] 1 [66] 2 [1; 2; 3; 4] sent1 /\ sent_as 2 7 [67] 1 [66] 2 [5; 6; 7; 8] sent2 /\
  (exists a b c d, sent1 = [a; b] /\ sent2 = [c; d] /\
     concat (map snd (snd (rx_events [RPkt a; RPkt c; RPkt d; RPkt b] []))) = [([67], 1, [66], 2, got)]) /\
  got <> [1; 2; 3; 4] /\ got <> [5; 6; 7; 8].
Proof.
  eexists _, _, _. split; [split; [reflexivity|split; [reflexivity|reflexivity]]|]. split; [split; [reflexivity|split; [reflexivity|reflexivity]]|].
  split; [eexists _, _, _, _; split; [reflexivity|]; split; [reflexivity|]; vm_compute; reflexivity|]. split; discriminate.
Qed.

(** ** The hypotheses can be met *)
Example C28_ex_order : concat (map snd (snd (rx_events (map RPkt (List.rev (tx_write_max 2 7 [65] 1 [66] 2 [1; 2; 3; 4; 5]))) []))) = [([65], 1, [66], 2, [1; 2; 3; 4; 5])].
Proof. apply (C28_any_order 2 7 [65] 1 [66] 2 [1; 2; 3; 4; 5] _ _ (conj eq_refl (conj eq_refl eq_refl))). apply Permutation_rev. Qed.
(** duplicates and foreign traffic in between, and a repeated part afterwards *)
Example C28_ex_duplicates : exists a b c x,
  tx_write_max 2 7 [65] 1 [66] 2 [1; 2; 3; 4; 5] = [a; b; c] /\ w_frag x = None /\
  delivered_by 7 (snd (rx_events [RPkt c; RPkt x; RPkt c; RPkt a; RTimeout 8; RPkt a; RPkt b; RPkt b; RPkt x; RPkt c; RTimeout 7] [])) = [([65], 1, [66], 2, [1; 2; 3; 4; 5])].
Proof. eexists _, _, _, (Wire [70] 1 [71] 2 None [9]). split; [reflexivity|]. split; [reflexivity|]. vm_compute. reflexivity. Qed.
Print Assumptions C28_any_order.
Print Assumptions C28_delivered_once_when_complete.
Print Assumptions C28_incomplete_never_delivered.
Print Assumptions C28_batches.
