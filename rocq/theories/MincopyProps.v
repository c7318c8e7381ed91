(** * C14: MinimumCopyingStreamIO, every call, seekable or not *)
From Coq Require Import String.
From Coq Require Import List ZArith Bool Lia.
From Verif Require Import PyBase StreamModel StreamProofs MincopyModel MincopySpec MincopyProofs.
Import ListNotations.
Open Scope Z_scope.

(** C14. Every call of every history returns exactly what MincopySpec.a_step
    says; so does the state reached (what available() says next). *)
Theorem C14_mincopy_exact :
  forall (init : option bytes) (seekable : bool) (os : list mop), Forall sized os ->
  snd (mst_run os (mst_new init seekable)) = snd (a_run seekable os (a_new init)).
Proof. intros i sk os F. now apply (agree_run sk os _ _ (agree_new i sk)). Qed.
Print Assumptions C14_mincopy_exact.

(** C14. After any history the next read(n)/peek(n): nothing ('') if there is
    no byte at the position; otherwise exactly the right number of bytes, and
    the right bytes (those of the stream, in order) if n = -1 or the request
    stays in the chunk the position is in. *)
Theorem C14_mincopy_next_get :
  forall (init : option bytes) (seekable : bool) (os : list mop) (n : Z),
  Forall sized os -> -1 <= n ->
  let s := fst (mst_run os (mst_new init seekable)) in
  let a := fst (a_run seekable os (a_new init)) in
  let r := snd (mst_step (MRead n) s) in
  r = snd (mst_step (MPeek n) s) /\
  (a_in a = false -> r = MStr) /\
  (a_in a = true -> exists d, r = MBytes d /\
      zlen d = (if n =? -1 then a_avail a else want n (a_avail a)) /\
      (n = -1 \/ want n (a_avail a) <= a_left a -> d = a_good n a) /\
      (n <> -1 -> a_left a < want n (a_avail a) ->
         d = firstn (Z.to_nat (a_left a)) (a_rest a)
               ++ firstn (Z.to_nat (want n (a_avail a) - a_left a)) (a_all a))).
Proof.
  intros i sk os n F N s a r. destruct (agree_run sk os _ _ (agree_new i sk) F) as [G _]. fold s a in G.
  assert (E : r = a_get n a).
  { unfold r. destruct (agree_step sk s a (MRead n) G N) as [_ E]. exact E. }
  assert (E2 : snd (mst_step (MPeek n) s) = a_get n a) by (destruct (agree_step sk s a (MPeek n) G N) as [_ E2]; exact E2).
  split; [congruence|]. split.
  - intros I. rewrite E. unfold a_get. now rewrite I.
  - intros I. destruct (a_get_len n a I N) as (d & D & L). exists d. split; [congruence|]. split; auto. split.
    + intros H. rewrite (a_get_within n a I) in D; [now inversion D|]. destruct H; auto.
      destruct (Z.eq_dec n (-1)); auto. right. split; auto; lia.
    + intros N1 H. destruct (a_get_cross n a I ltac:(lia) H) as (d2 & t & D2 & -> & ->). congruence.
Qed.
Print Assumptions C14_mincopy_next_get.

(** C14. Plain readers (no seek, no close), any sizes, any chunks: available()
    is the number of bytes put minus the number of bytes got; so the number of
    bytes is always right even when the bytes are not. *)
Theorem C14_mincopy_counts :
  forall (init : option bytes) (seekable : bool) (os : list mop),
  Forall plain os -> Forall sized os ->
  let (s, rets) := mst_run os (mst_new init seekable) in
  snd (mst_step MAvail s) =
    MInt (zlen (match init with Some b => b | None => [] end) + zlen (m_put os) - zlen (m_got os rets)) /\
  zlen (m_got os rets) <= zlen (match init with Some b => b | None => [] end) + zlen (m_put os).
Proof.
  intros i sk os P F. destruct (agree_run sk os _ _ (agree_new i sk) F) as [G E].
  destruct (mst_run os (mst_new i sk)) as [s rets]. simpl in G, E.
  assert (L0 : lined (a_new i) 0 (zlen (match i with Some b => b | None => [] end))).
  { unfold lined, a_new, a_end, a_all. destruct i; simpl; rewrite ?app_nil_r; rewrite ?zlen_nil; pose proof (@zlen_nonneg Z); repeat split; auto; try lia. }
  pose proof (lined_run sk os _ _ _ L0 P F) as (B & Q & R). rewrite <- E in *. cbn [mst_step snd].
  unfold mcs_available. rewrite (ag_end _ _ _ G), (ag_pos _ _ _ G), Q, R. split; [f_equal; lia|lia].
Qed.
Print Assumptions C14_mincopy_counts.

(** C14. A seekable stream keeps everything: after any history without close(),
    seek(p) and read() return the bytes put from p on ('' if there are none),
    and tell() then says the end. *)
Theorem C14_mincopy_seek_rereads :
  forall (init : option bytes) (os : list mop) (p : Z),
  ~ In MClose os -> Forall sized os -> 0 <= p ->
  let all := match init with Some b => b | None => [] end ++ m_put os in
  snd (mst_run [MSeek p 0; MRead (-1); MTell] (fst (mst_run os (mst_new init true)))) =
    [MNone; (if p <? zlen all then MBytes (skipn (Z.to_nat p) all) else MStr); MInt (Z.max p (zlen all))].
Proof.
  intros i os p NC F Hp all. destruct (agree_run true os _ _ (agree_new i true) F) as [G _].
  assert (F2 : Forall sized [MSeek p 0; MRead (-1); MTell]) by (repeat constructor; simpl; lia).
  destruct (agree_run true _ _ _ G F2) as [_ E]. rewrite E. clear E F2 G.
  assert (H := held_run os (a_new i)). destruct H as (A & B & C).
  { apply Forall_forall. intros o I. destruct o; simpl; eauto. }
  set (a := fst (a_run true os (a_new i))) in *. cbn [a_run a_step snd].
  rewrite C. cbn [a_new a_closed negb]. simpl (0 =? 0). destruct (Z.ltb_spec p 0); [lia|]. cbn [fst snd].
  set (b := a_goto p a). assert (Al : a_all b = all).
  { unfold b, a_goto. unfold a_all in *. cbn [a_held]. rewrite B. unfold all, a_new. destruct i; simpl; now rewrite ?app_nil_r. }
  assert (St : a_start b = 0) by (unfold b; simpl; now rewrite A).
  assert (I : a_in b = (p <? zlen all)).
  { unfold a_in, a_end. rewrite Al, St. unfold b; simpl. destruct (Z.leb_spec 0 p); [|lia]. reflexivity. }
  assert (Gt : a_get (-1) b = if p <? zlen all then MBytes (skipn (Z.to_nat p) all) else MStr).
  { unfold a_get. rewrite I. destruct (p <? zlen all); auto. simpl. unfold a_rest. rewrite Al, St. unfold b; simpl. do 3 f_equal. lia. }
  rewrite Gt. f_equal. f_equal. f_equal. f_equal. unfold b; cbn [a_goto a_move a_pos].
  destruct (Z.ltb_spec p (zlen all)); cbn [got]; [|lia]. unfold zlen in *. rewrite skipn_length. lia.
Qed.
Print Assumptions C14_mincopy_seek_rereads.

(** C14, finding: close() does not close.  update() is still accepted after it,
    but if unread bytes were thrown away by close() no later read returns a
    byte, whatever is put in and whatever calls are made; available() goes on
    counting the lost bytes. *)
Theorem C14_mincopy_closed_reads_nothing :
  forall (init : option bytes) (seekable : bool) (os os' : list mop),
  Forall sized os -> Forall sized os' ->
  let s := fst (mst_run os (mst_new init seekable)) in
  mcs_available (k_io s) > 0 ->
  let (s', rets) := mst_run os' (fst (mst_step MClose s)) in
  m_got os' rets = [] /\ mcs_available (k_io s') > 0 /\ snd (mst_step MClosed s') = MBool true.
Proof.
  intros i sk os os' F F' s Av. destruct (agree_run sk os _ _ (agree_new i sk) F) as [G _]. fold s in G.
  set (a := fst (a_run sk os (a_new i))) in *.
  destruct (agree_step sk s a MClose G I) as [G1 _].
  set (a1 := fst (a_step sk MClose a)) in *.
  assert (St : stuck a1).
  { unfold stuck, a1. simpl. unfold mcs_available in Av. rewrite (ag_end _ _ _ G), (ag_pos _ _ _ G) in Av. lia. }
  destruct (agree_run sk os' _ _ G1 F') as [G2 E2].
  destruct (mst_run os' (fst (mst_step MClose s))) as [s' rets]. cbn [fst snd] in *. rewrite E2.
  destruct (stuck_run sk os' a1 St eq_refl) as (S2 & M2 & P2). split; auto.
  assert (C2 : a_closed (fst (a_run sk os' a1)) = true).
  { assert (X : forall l b, a_closed b = true -> a_closed (fst (a_run sk l b)) = true).
    { induction l as [|o l IH]; intros b Hb; auto. cbn [a_run].
      assert (Hb1 : a_closed (fst (a_step sk o b)) = true).
      { destruct o; cbn [a_step]; rewrite ?Hb; auto. cbn [fst]. destruct sk; auto. unfold a_release, a_move. cbn [a_pos a_start a_held a_closed].
        destruct (_ <? _); auto. destruct (forget _ _ _); auto. }
      destruct (a_step sk o b) as [b1 x]. cbn [fst] in Hb1. specialize (IH b1 Hb1). destruct (a_run sk l b1); auto. }
    apply X. reflexivity. }
  split.
  - unfold mcs_available. rewrite (ag_end _ _ _ G2), (ag_pos _ _ _ G2). unfold stuck in S2. unfold a_end.
    pose proof (zlen_nonneg (a_all (fst (a_run sk os' a1)))). lia.
  - simpl. rewrite (ag_closed _ _ _ G2). now rewrite C2.
Qed.
Print Assumptions C14_mincopy_closed_reads_nothing.

(** C14 refuted, further findings: seek relative to the position ignores the
    offset; memsize() raises whenever a chunk is held; a bounded read from a
    seekable stream repeats the beginning of the stream even when everything
    before the position has been read. *)
Theorem C14_mincopy_seek_cur_refuted :
  exists d, snd (mst_run [MSeek 3 SEEK_CUR; MTell; MSeek 0 SEEK_CUR; MTell] (mst_new (Some d) true))
            = [MNone; MInt 1; MNone; MInt 2].
Proof. exists (lit "abcdef"). reflexivity. Qed.
Print Assumptions C14_mincopy_seek_cur_refuted.
Theorem C14_mincopy_memsize_refuted :
  forall d, exists e, snd (mst_run [MMemsize] (mst_new (Some d) false)) = [MErr e].
Proof. intros [|x [|y d]]; eexists; reflexivity. Qed.
Print Assumptions C14_mincopy_memsize_refuted.
Theorem C14_mincopy_seekable_cross_refuted :
  snd (mst_run [MUpdate (lit "ab"); MUpdate (lit "cd"); MUpdate (lit "ef"); MRead 2; MRead 3] (mst_new None true))
  = [MNone; MNone; MNone; MBytes (lit "ab"); MBytes (lit "cda")].
Proof. reflexivity. Qed.
Print Assumptions C14_mincopy_seekable_cross_refuted.

(** non-vacuity: a history with all calls, and its results *)
Example mincopy_all_calls :
  snd (mst_run [MUpdate (lit "abc"); MUpdate (lit "de"); MRead 2; MAvail; MPeek 0; MSeek 4 0; MRead (-1);
                MSeek (-2) 2; MTell; MMemsize; MSeek (-1) 0; MClose; MSeek 0 0; MUpdate (lit "f"); MRead 1; MAvail]
       (mst_new None true))
  = [MNone; MNone; MBytes (lit "ab"); MInt 3; MBytes (lit "cab"); MNone; MBytes (lit "e"); MNone; MInt 3;
     MErr EType; MErr EValue; MNone; MErr EValue; MNone; MStr; MInt 3].
Proof. reflexivity. Qed.
Example mincopy_counts_case :
  snd (mst_run [MUpdate (lit "abc"); MUpdate (lit "de"); MRead 4; MAvail] (mst_new (Some (lit "xy")) false))
  = [MNone; MNone; MBytes (lit "xyxy"); MInt 3].
Proof. reflexivity. Qed.
