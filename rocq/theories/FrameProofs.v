(** * Proofs about the framing stream *)
From Coq Require Import List ZArith Bool Lia.
From Verif Require Import PyBase PyLemmas StreamModel StreamProofs FrameModel FrameSpec.
Import ListNotations.
Open Scope Z_scope.

Lemma adler_app d e s : adler32 (d ++ e) s = adler32 e (adler32 d s).
Proof. apply fold_left_app. Qed.
Lemma adler_step_range s x : 0 <= adler_step s x < 2 ^ 32.
Proof.
  unfold adler_step, adler_mod.
  set (a := (s mod 65536 + x) mod 65521). set (b := (s / 65536 + a) mod 65521).
  assert (0 <= a < 65521) by (apply Z.mod_pos_bound; lia).
  assert (0 <= b < 65521) by (apply Z.mod_pos_bound; lia). lia.
Qed.
Lemma adler_range d : 0 <= adler32 d 1 < 2 ^ 32.
Proof.
  destruct d as [|x d] using rev_ind; [cbn; lia|]. rewrite adler_app. apply adler_step_range.
Qed.
Fixpoint bsum (d : bytes) : Z := match d with [] => 0 | x :: r => x + bsum r end.
Lemma bsum_app d e : bsum (d ++ e) = bsum d + bsum e.
Proof. induction d; cbn [app bsum]; lia. Qed.
Lemma adler_low d s : (s mod 65536) mod 65521 = s mod 65536 ->
  (adler32 d s) mod 65536 = (s mod 65536 + bsum d) mod 65521.
Proof.
  revert s. induction d as [|x d IH]; intros s H; cbn [adler32 fold_left bsum].
  - rewrite Z.add_0_r. symmetry. exact H.
  - fold (adler32 d (adler_step s x)).
    assert (E : adler_step s x mod 65536 = (s mod 65536 + x) mod 65521).
    { unfold adler_step, adler_mod. set (a := (s mod 65536 + x) mod 65521).
      assert (0 <= a < 65521) by (apply Z.mod_pos_bound; lia).
      rewrite Z.add_comm, Z.mod_add by lia. apply Z.mod_small. lia. }
    rewrite IH; rewrite E.
    + rewrite Zplus_mod_idemp_l. f_equal. lia.
    + apply Zmod_mod.
Qed.
Lemma adler_low1 d : (adler32 d 1) mod 65536 = (1 + bsum d) mod 65521.
Proof. rewrite adler_low by reflexivity. reflexivity. Qed.

(** ** lists and streams *)
Lemma firstn_app_exact {A} (l r : list A) n : n = length l -> firstn n (l ++ r) = l.
Proof. intros ->. rewrite firstn_app, Nat.sub_diag, firstn_all, firstn_O. apply app_nil_r. Qed.
Lemma skipn_app_exact {A} (l r : list A) n : n = length l -> skipn n (l ++ r) = r.
Proof. intros ->. rewrite skipn_app, Nat.sub_diag, skipn_all. reflexivity. Qed.
Lemma zlen_be n v : zlen (be_enc n v) = Z.of_nat n.
Proof. unfold zlen. rewrite be_enc_length. reflexivity. Qed.
Lemma zlen_skipn {A} (l : list A) n : zlen (skipn n l) = Z.max 0 (zlen l - Z.of_nat n).
Proof. unfold zlen. rewrite skipn_length. lia. Qed.
Lemma zlen_firstn {A} (l : list A) n : zlen (firstn n l) = Z.min (Z.of_nat n) (zlen l).
Proof. unfold zlen. rewrite firstn_length. lia. Qed.
Lemma skipn_plus {A} (l : list A) a b : skipn a (skipn b l) = skipn (b + a) l.
Proof. rewrite skipn_skipn. f_equal. lia. Qed.

Lemma zlen_unread b : stream_ok b -> zlen (unread b) = raw_available b.
Proof.
  intros [H _]. unfold unread, raw_available. rewrite zlen_skipn. lia.
Qed.
Lemma peek_unread n b : stream_ok b -> 0 < n -> ubio_peek n b = firstn (Z.to_nat n) (unread b).
Proof.
  intros [H _] Hn. unfold ubio_peek.
  destruct (Z.eqb_spec n 0); [lia|]. destruct (Z.ltb_spec n 0); [lia|]. cbn [orb].
  rewrite pyslice_nn by lia. unfold unread. f_equal. lia.
Qed.
Lemma read_unread n b : stream_ok b -> 0 <= n -> n <= raw_available b ->
  bio_read n b = (firstn (Z.to_nat n) (unread b), Bio (b_data b) (b_pos b + n)).
Proof.
  intros S Hn Ha. pose proof (zlen_unread b S) as U. unfold bio_read. fold (unread b).
  destruct (Z.ltb_spec n 0); [lia|]. rewrite zlen_firstn. f_equal. f_equal. lia.
Qed.
Lemma stream_at b p : stream_ok b -> 0 <= p <= zlen (b_data b) -> stream_ok (at_pos b p).
Proof. intros [_ B] H. split; [exact H|exact B]. Qed.
Lemma stream_adv b n : stream_ok b -> 0 <= n <= raw_available b -> stream_ok (Bio (b_data b) (b_pos b + n)).
Proof. intros [A B] H. unfold raw_available in H. split; [cbn; lia|exact B]. Qed.
Lemma unread_adv b n : stream_ok b -> 0 <= n -> unread (Bio (b_data b) (b_pos b + n)) = skipn (Z.to_nat n) (unread b).
Proof. intros [A _] H. unfold unread. cbn [b_data b_pos]. rewrite skipn_plus. f_equal. lia. Qed.
Lemma unread_at b p : 0 <= b_pos b <= p -> unread (at_pos b p) = skipn (Z.to_nat (p - b_pos b)) (unread b).
Proof. intros H. unfold unread, at_pos. cbn [b_data b_pos]. rewrite skipn_plus. f_equal. lia. Qed.

Lemma eqb_spec' {A} `{EqDec A} (x y : A) : (x = y /\ eqb x y = true) \/ (x <> y /\ eqb x y = false).
Proof. unfold eqb. destruct (eq_dec x y); auto. Qed.
Ltac eqcase E := match goal with |- context [@eqb ?A ?H ?x ?y] => destruct (@eqb_spec' A H x y) as [[E ->]|[E ->]] end; cbn [negb].
Lemma bio_same b : b = Bio (b_data b) (b_pos b + Z.of_nat 0).
Proof. destruct b as [bd bp]. cbn [b_data b_pos]. change (Z.of_nat 0) with 0. rewrite Z.add_0_r. reflexivity. Qed.

(** ** the loop of _fail *)
Lemma skip_magic_spec fuel b : stream_ok b -> (Z.to_nat (raw_available b) <= fuel)%nat ->
  exists k, first_magic (unread b) k /\ skip_to_magic fuel b = Bio (b_data b) (b_pos b + Z.of_nat k) /\
            Z.of_nat k <= raw_available b.
Proof.
  revert b. induction fuel as [|fuel IH]; intros b S F; cbn [skip_to_magic].
  - exists 0%nat. pose proof (zlen_unread b S). pose proof S as [A _]. unfold raw_available in *.
    split; [split; [right; cbn [skipn]; lia|lia]|]. split; [apply bio_same|unfold raw_available in *; lia].
  - pose proof (zlen_unread b S) as U. pose proof S as [A _].
    rewrite peek_unread by (try assumption; lia). change (Z.to_nat 4) with 4%nat.
    destruct (Z.leb_spec 4 (raw_available b)) as [L|L]; cbn [andb].
    + eqcase E.
      * exists 0%nat. split; [split; [left; exact E|lia]|]. split; [apply bio_same|unfold raw_available in *; lia].
      * rewrite read_unread by (try assumption; lia). cbn [snd].
        destruct (IH (Bio (b_data b) (b_pos b + 1))) as (k & [K1 K2] & Ek & Lk).
        { apply stream_adv; [exact S|lia]. }
        { unfold raw_available in *. cbn [b_data b_pos]. lia. }
        exists (Datatypes.S k). rewrite unread_adv in K1, K2 by (try assumption; lia).
        change (Z.to_nat 1) with 1%nat in *. split; [split|].
        -- rewrite skipn_plus in K1. exact K1.
        -- intros j Hj. destruct j as [|j].
           ++ cbn [skipn]. split; [exact E|lia].
           ++ specialize (K2 j ltac:(lia)). rewrite skipn_plus in K2. exact K2.
        -- split; [rewrite Ek; cbn [b_data b_pos]; f_equal; lia|].
           unfold raw_available in *. cbn [b_data b_pos] in Lk. lia.
    + exists 0%nat. split; [split; [right; cbn [skipn]; lia|lia]|].
      split; [apply bio_same|unfold raw_available in *; lia].
Qed.
Lemma fail_spec {A} a : stream_ok (fa_stream a) ->
  exists k, first_magic (unread (fa_stream a)) k /\
    @fail A a = (with_stream a (Bio (b_data (fa_stream a)) (b_pos (fa_stream a) + Z.of_nat k)), Raise FramingError).
Proof.
  intros S. destruct (skip_magic_spec _ _ S (le_n _)) as (k & F & E & _).
  exists k. split; [exact F|]. unfold fail. rewrite E. reflexivity.
Qed.

(** ** header check *)
Lemma unpack4_ok b : zlen b = 4 -> unpack4 b = Ok (be_dec b).
Proof. intros H. unfold unpack4. rewrite H. reflexivity. Qed.
Lemma len_zlen {A} (l : list A) n : zlen l = Z.of_nat n -> length l = n.
Proof. unfold zlen. lia. Qed.
Lemma split4 (h : bytes) : zlen h = 12 -> exists a b c, h = a ++ b ++ c /\ zlen a = 4 /\ zlen b = 4 /\ zlen c = 4.
Proof.
  intros H. exists (firstn 4 h), (firstn 4 (skipn 4 h)), (skipn 8 h).
  repeat split.
  - rewrite <- (firstn_skipn 4 h) at 1. f_equal. rewrite <- (firstn_skipn 4 (skipn 4 h)) at 1. f_equal. rewrite skipn_plus. reflexivity.
  - rewrite zlen_firstn. lia.
  - rewrite zlen_firstn, zlen_skipn. lia.
  - rewrite zlen_skipn. lia.
Qed.
Lemma pyslice_12 (a b c : bytes) : zlen a = 4 -> zlen b = 4 -> zlen c = 4 ->
  pyslice (a ++ b ++ c) 0 4 = a /\ pyslice (a ++ b ++ c) 4 8 = b /\ pyslice (a ++ b ++ c) 8 12 = c.
Proof.
  intros A B C. assert (length a = 4%nat /\ length b = 4%nat /\ length c = 4%nat) as (La & Lb & Lc) by (unfold zlen in *; lia).
  rewrite !pyslice_nn by lia. change (Z.to_nat 0) with 0%nat. change (Z.to_nat (4 - 0)) with 4%nat. change (Z.to_nat 4) with 4%nat.
  change (Z.to_nat (8 - 4)) with 4%nat. change (Z.to_nat 8) with 8%nat. change (Z.to_nat (12 - 8)) with 4%nat.
  split; [|split].
  - cbn [skipn]. apply firstn_app_exact. lia.
  - rewrite skipn_app_exact by lia. apply firstn_app_exact. lia.
  - rewrite app_assoc, skipn_app_exact by (rewrite app_length; lia). rewrite <- Lc. apply firstn_all.
Qed.

Definition is_size (n : Z) : Prop := 0 <= n < 2 ^ 32.
Lemma frame_header_len n : zlen (frame_header n) = 12.
Proof. unfold frame_header. rewrite !zlen_app, !zlen_be. reflexivity. Qed.
Lemma frame_trailer_len n : zlen (frame_trailer n) = 12.
Proof. unfold frame_trailer. rewrite !zlen_app, !zlen_be. reflexivity. Qed.
Lemma app4_inj {A} (a b c d : list A) : length a = length c -> a ++ b = c ++ d -> a = c /\ b = d.
Proof.
  revert c. induction a as [|x a IH]; intros [|y c] L E; cbn in *; try lia; auto.
  injection E as <- E. destruct (IH c ltac:(lia) E) as [-> ->]. auto.
Qed.
Lemma be4_inj n m : is_size n -> is_size m -> be_enc 4 n = be_enc 4 m -> n = m.
Proof. unfold is_size. intros A B. apply be_enc_inj; cbn; lia. Qed.
Lemma frame_header_inj n m : is_size n -> is_size m -> frame_header n = frame_header m -> n = m.
Proof.
  intros A B E. unfold frame_header in E. apply app4_inj in E; [|reflexivity]. destruct E as [_ E].
  apply app4_inj in E; [|rewrite !be_enc_length; reflexivity]. apply be4_inj; tauto.
Qed.
Lemma be_dec4 b : zlen b = 4 -> bytes_ok b -> is_size (be_dec b) /\ be_enc 4 (be_dec b) = b.
Proof.
  intros L B. pose proof (be_dec_range b B) as R. rewrite L in R. split; [exact R|].
  pose proof (be_enc_dec b B) as E. apply len_zlen with (n := 4%nat) in L. rewrite L in E. exact E.
Qed.

(** the state after a successful header check *)
Definition started (b : bio) (p n : Z) (e : bool) : adapter := Adapter (Bio (b_data b) (p + 12)) p (Some n) true e.

Lemma check_start_new b p : 0 <= p <= zlen (b_data b) -> bytes_ok (b_data b) ->
  forall q sz, let a := Adapter (Bio (b_data b) q) p sz false false in
  let rest := skipn (Z.to_nat p) (b_data b) in
  (zlen rest < 12 /\ check_start a = (Adapter (Bio (b_data b) p) p None false false, Ok tt)) \/
  (12 <= zlen rest /\ exists n, is_size n /\ firstn 12 rest = frame_header n /\
     check_start a = (started b p n false, Ok tt)) \/
  (12 <= zlen rest /\ (forall n, is_size n -> firstn 12 rest <> frame_header n) /\
     exists k, first_magic rest k /\
       check_start a = (Adapter (Bio (b_data b) (p + Z.of_nat k)) p sz false false, Raise FramingError)).
Proof.
  intros Hp B q sz a rest.
  assert (S : stream_ok (Bio (b_data b) p)) by (split; [cbn; lia|exact B]).
  assert (U : unread (Bio (b_data b) p) = rest) by reflexivity.
  pose proof (zlen_unread _ S) as ZU. rewrite U in ZU.
  unfold check_start, a. cbn [fa_startChecked fa_start fa_stream with_stream at_pos fa_size fa_endChecked b_data].
  unfold PREFIX_SIZE. unfold at_pos. cbn [b_data].
  destruct (Z.ltb_spec (raw_available (Bio (b_data b) p)) 12) as [L|L].
  { left. split; [lia|reflexivity]. }
  right.
  rewrite peek_unread by (try assumption; lia). rewrite U. change (Z.to_nat 12) with 12%nat.
  assert (Fl : zlen (firstn 12 rest) = 12) by (rewrite zlen_firstn; lia).
  assert (Fb : bytes_ok (firstn 12 rest)) by (apply Forall_firstn, Forall_skipn; exact B).
  destruct (split4 _ Fl) as (x & y & z & E & Lx & Ly & Lz). rewrite E in Fb |- *.
  unfold bytes_ok in Fb. apply Forall_app in Fb. destruct Fb as [_ Fb]. apply Forall_app in Fb. destruct Fb as [By Bz].
  destruct (be_dec4 y Ly By) as [Sy Ey]. destruct (be_dec4 z Lz Bz) as [Sz Ez].
  destruct (pyslice_12 x y z Lx Ly Lz) as (P1 & P2 & P3). rewrite P1, P2, P3.
  rewrite (unpack4_ok y Ly), (unpack4_ok z Lz).
  assert (Failing : (forall n, is_size n -> x ++ y ++ z <> frame_header n) ->
    12 <= zlen rest /\ (forall n, is_size n -> x ++ y ++ z <> frame_header n) /\
     exists k, first_magic rest k /\
       @fail unit (with_stream (Adapter (Bio (b_data b) q) p sz false false) (Bio (b_data b) p)) =
         (Adapter (Bio (b_data b) (p + Z.of_nat k)) p sz false false, Raise FramingError)).
  { intros N. split; [lia|]. split; [exact N|].
    destruct (fail_spec (A := unit) (with_stream (Adapter (Bio (b_data b) q) p sz false false) (Bio (b_data b) p)) S) as (k & F & Ef).
    exists k. split; [exact F|exact Ef]. }
  eqcase Nx; [subst x|].
  2:{ right. apply Failing. intros n _ C. unfold frame_header in C. apply app4_inj in C; [|unfold zlen in Lx; cbn; lia].
      apply Nx. apply C. }
  rewrite <- adler_app.
  destruct (Z.eqb_spec (be_dec z) (adler32 (MAGIC ++ y) 1)) as [Ec|Ec]; cbn [negb].
  - left. split; [lia|]. exists (be_dec y). split; [exact Sy|]. split.
    + unfold frame_header. rewrite Ey. fold MAGIC. rewrite <- Ec, Ez. reflexivity.
    + unfold bio_read. cbn [snd]. unfold started. fold rest. change (12 <? 0) with false. cbn [b_data b_pos].
      fold rest. change (Z.to_nat 12) with 12%nat. rewrite zlen_firstn. do 4 f_equal. lia.
  - right. apply Failing. intros n Sn C. unfold frame_header in C. fold MAGIC in C.
    apply app4_inj in C; [|reflexivity]. destruct C as [_ C].
    apply app4_inj in C; [|rewrite be_enc_length; unfold zlen in Ly; lia]. destruct C as [Cy Cz].
    apply Ec. rewrite Cy, Cz. apply be_dec_enc. apply adler_range.
Qed.

(** ** trailer check *)
Lemma check_end_spec b p n q : 0 <= p -> bytes_ok (b_data b) -> is_size n ->
  p + 12 <= zlen (b_data b) ->
  let rest := skipn (Z.to_nat p) (b_data b) in
  let a := Adapter (Bio (b_data b) q) p (Some n) true false in
  (zlen rest < 24 + n /\ check_end a = (a, Ok tt)) \/
  (24 + n <= zlen rest /\ firstn 12 (skipn (Z.to_nat (12 + n)) rest) = frame_trailer n /\
     check_end a = (Adapter (Bio (b_data b) q) p (Some n) true true, Ok tt)) \/
  (24 + n <= zlen rest /\ firstn 12 (skipn (Z.to_nat (12 + n)) rest) <> frame_trailer n /\
     exists f k, (f = p + 12 + n + 8 \/ f = p + 12 + n + 12) /\
       first_magic (skipn (Z.to_nat f) (b_data b)) k /\
       check_end a = (Adapter (Bio (b_data b) (f + Z.of_nat k)) p (Some n) true false, Raise FramingError)).
Proof.
  intros Hp B Sn Hl rest a. unfold check_end, a. cbn [fa_size fa_endChecked].
  unfold raw_size, PREFIX_SIZE, SUFFIX_SIZE. cbn [fa_stream fa_start b_data b_pos]. unfold is_size in Sn.
  assert (Zr : zlen rest = zlen (b_data b) - p) by (unfold rest; rewrite zlen_skipn; lia).
  destruct (Z.leb_spec (12 + n + 12) (zlen (b_data b) - p)) as [L|L].
  2:{ left. split; [lia|reflexivity]. }
  right. set (e := p + 12 + n).
  assert (S0 : stream_ok (Bio (b_data b) e)) by (split; [cbn; lia|exact B]).
  unfold at_pos. cbn [b_data].
  rewrite read_unread; [|exact S0|lia|unfold raw_available; cbn; lia].
  cbn [b_data b_pos].
  set (t := firstn 12 (skipn (Z.to_nat (12 + n)) rest)).
  assert (Ut : unread (Bio (b_data b) e) = skipn (Z.to_nat (12 + n)) rest).
  { unfold unread, rest. cbn [b_data b_pos]. rewrite skipn_plus. f_equal. lia. }
  assert (Tl : zlen t = 12) by (unfold t; rewrite zlen_firstn, zlen_skipn; lia).
  assert (Tb : bytes_ok t) by (apply Forall_firstn, Forall_skipn, Forall_skipn; exact B).
  destruct (split4 _ Tl) as (x & y & z & E & Lx & Ly & Lz).
  assert (Ue : exists post, unread (Bio (b_data b) e) = x ++ y ++ z ++ post).
  { exists (skipn 12 (unread (Bio (b_data b) e))). rewrite Ut. rewrite <- (firstn_skipn 12 (skipn (Z.to_nat (12 + n)) rest)) at 1.
    fold t. rewrite E, <- !app_assoc. reflexivity. }
  destruct Ue as [post Ue]. clear Ut.
  assert (length x = 4%nat /\ length y = 4%nat /\ length z = 4%nat) as (Lx' & Ly' & Lz') by (unfold zlen in *; lia).
  rewrite E in Tb. unfold bytes_ok in Tb. apply Forall_app in Tb. destruct Tb as [Bx Tb]. apply Forall_app in Tb. destruct Tb as [By Bz].
  destruct (be_dec4 y Ly By) as [Sy Ey]. destruct (be_dec4 x Lx Bx) as [Sx Ex].
  rewrite Ue. change (Z.to_nat 4) with 4%nat. rewrite firstn_app_exact by lia. rewrite (unpack4_ok x Lx).
  assert (S1 : stream_ok (Bio (b_data b) (e + 4))) by (split; [cbn; lia|exact B]).
  assert (U1 : unread (Bio (b_data b) (e + 4)) = y ++ z ++ post).
  { change (Bio (b_data b) (e + 4)) with (Bio (b_data (Bio (b_data b) e)) (b_pos (Bio (b_data b) e) + 4)).
    rewrite unread_adv by (try assumption; lia). rewrite Ue. apply skipn_app_exact. lia. }
  rewrite read_unread; [|exact S1|lia|unfold raw_available; cbn; lia].
  cbn [b_data b_pos]. rewrite U1. change (Z.to_nat 4) with 4%nat. rewrite firstn_app_exact by lia. rewrite (unpack4_ok y Ly).
  assert (S2 : stream_ok (Bio (b_data b) (e + 4 + 4))) by (split; [cbn; lia|exact B]).
  assert (U2 : unread (Bio (b_data b) (e + 4 + 4)) = z ++ post).
  { change (Bio (b_data b) (e + 4 + 4)) with (Bio (b_data (Bio (b_data b) (e + 4))) (b_pos (Bio (b_data b) (e + 4)) + 4)).
    rewrite unread_adv by (try assumption; lia). rewrite U1. apply skipn_app_exact. lia. }
  assert (S3 : stream_ok (Bio (b_data b) (e + 4 + 4 + 4))) by (split; [cbn; lia|exact B]).
  assert (Failing : forall f, stream_ok (Bio (b_data b) f) -> f = e + 8 \/ f = e + 12 ->
     t <> frame_trailer n ->
     24 + n <= zlen rest /\ t <> frame_trailer n /\
     exists f' k, (f' = p + 12 + n + 8 \/ f' = p + 12 + n + 12) /\
       first_magic (skipn (Z.to_nat f') (b_data b)) k /\
       @fail unit (with_stream (Adapter (Bio (b_data b) q) p (Some n) true false) (Bio (b_data b) f)) =
         (Adapter (Bio (b_data b) (f' + Z.of_nat k)) p (Some n) true false, Raise FramingError)).
  { intros f Sf Hf N. split; [lia|]. split; [exact N|].
    destruct (fail_spec (A := unit) (with_stream (Adapter (Bio (b_data b) q) p (Some n) true false) (Bio (b_data b) f)) Sf) as (k & F & Ef).
    exists f, k. split; [unfold e in Hf; lia|]. split; [exact F|exact Ef]. }
  destruct (Z.eqb_spec (be_dec y) n) as [En|En]; cbn [negb].
  2:{ right. apply Failing; [exact S2|lia|]. rewrite E. unfold frame_trailer. intros C.
      apply app4_inj in C; [|rewrite be_enc_length; lia]. destruct C as [_ C].
      apply app4_inj in C; [|rewrite be_enc_length; lia]. destruct C as [C _]. apply En. rewrite C. apply be_dec_enc. cbn; lia. }
  rewrite read_unread; [|exact S2|lia|unfold raw_available; cbn; lia].
  cbn [b_data b_pos]. rewrite U2. change (Z.to_nat 4) with 4%nat. rewrite firstn_app_exact by lia.
  eqcase Nz; [subst z|].
  2:{ right. apply Failing; [exact S3|lia|]. rewrite E. unfold frame_trailer. intros C.
      apply app4_inj in C; [|rewrite be_enc_length; lia]. destruct C as [_ C].
      apply app4_inj in C; [|rewrite be_enc_length; lia]. destruct C as [_ C]. apply Nz. exact C. }
  rewrite <- adler_app.
  destruct (Z.eqb_spec (be_dec x) (adler32 (y ++ REV_MAGIC) 1)) as [Ec|Ec]; cbn [negb].
  - left. split; [lia|]. split; [|reflexivity]. rewrite E. unfold frame_trailer. fold REV_MAGIC.
    rewrite En in Ey. rewrite Ey, <- Ec, Ex. reflexivity.
  - right. apply Failing; [exact S3|lia|]. rewrite E. unfold frame_trailer. fold REV_MAGIC. intros C.
    apply app4_inj in C; [|rewrite be_enc_length; lia]. destruct C as [C _]. apply Ec. rewrite C.
    rewrite En in Ey. rewrite Ey. apply be_dec_enc. apply adler_range.
Qed.

(** ** opening an adapter *)
Lemma adapter_new_cases b : stream_ok b ->
  let rest := unread b in let p := b_pos b in
  (zlen rest < 12 /\ adapter_new b = (Adapter b p None false false, Ok tt)) \/
  (12 <= zlen rest /\ exists n, is_size n /\ firstn 12 rest = frame_header n /\
    ((zlen rest < 24 + n /\ adapter_new b = (started b p n false, Ok tt)) \/
     (24 + n <= zlen rest /\ firstn 12 (skipn (Z.to_nat (12 + n)) rest) = frame_trailer n /\
        adapter_new b = (started b p n true, Ok tt)) \/
     (24 + n <= zlen rest /\ firstn 12 (skipn (Z.to_nat (12 + n)) rest) <> frame_trailer n /\
        exists f k, (f = p + 12 + n + 8 \/ f = p + 12 + n + 12) /\
          first_magic (skipn (Z.to_nat f) (b_data b)) k /\
          adapter_new b = (Adapter (Bio (b_data b) (f + Z.of_nat k)) p (Some n) true false, Raise FramingError)))) \/
  (12 <= zlen rest /\ (forall n, is_size n -> firstn 12 rest <> frame_header n) /\
    exists k, first_magic rest k /\
      adapter_new b = (Adapter (Bio (b_data b) (p + Z.of_nat k)) p None false false, Raise FramingError)).
Proof.
  destruct b as [d p]. intros [Hp B]. cbn [b_data b_pos] in *.
  unfold adapter_new. cbn [b_pos].
  destruct (check_start_new (Bio d p) p Hp B p None) as [[L E]|[(L & n & Sn & F & E)|(L & N & k & F & E)]]; cbn [b_data] in *.
  - left. rewrite E. split; [exact L|reflexivity].
  - right. left. rewrite E. split; [exact L|]. exists n. split; [exact Sn|]. split; [exact F|].
    assert (Hl : p + 12 <= zlen d) by (rewrite zlen_skipn in L; lia).
    destruct (check_end_spec (Bio d p) p n (p + 12) ltac:(lia) B Sn Hl) as [H|[H|H]]; cbn [b_data] in H.
    + left. exact H.
    + right. left. exact H.
    + right. right. exact H.
  - right. right. rewrite E. split; [exact L|]. split; [exact N|]. exists k. split; [exact F|reflexivity].
Qed.

Lemma skipn_app_z (l r : bytes) : skipn (Z.to_nat (zlen l)) (l ++ r) = r.
Proof. apply skipn_app_exact. unfold zlen. lia. Qed.
Lemma firstn_app_z (l r : bytes) n : zlen l = Z.of_nat n -> firstn n (l ++ r) = l.
Proof. intros H. apply firstn_app_exact. unfold zlen in H. lia. Qed.

Lemma bytes_ok_app a b : bytes_ok (a ++ b) <-> bytes_ok a /\ bytes_ok b.
Proof. unfold bytes_ok. apply Forall_app. Qed.
Lemma frame_header_ok n : bytes_ok (frame_header n).
Proof.
  unfold frame_header. rewrite !bytes_ok_app. repeat split; try apply be_enc_ok. repeat constructor; lia.
Qed.
Lemma frame_trailer_ok n : bytes_ok (frame_trailer n).
Proof.
  unfold frame_trailer. rewrite !bytes_ok_app. repeat split; try apply be_enc_ok. repeat constructor; lia.
Qed.

(** opening at the start of a frame *)
Lemma adapter_new_frame pre data post : bytes_ok pre -> bytes_ok data -> bytes_ok post -> zlen data < 2 ^ 32 ->
  let b := Bio (pre ++ frame data ++ post) (zlen pre) in
  adapter_new b = (started b (zlen pre) (zlen data) true, Ok tt).
Proof.
  intros Bp Bd Bq L b. pose proof (zlen_nonneg pre). pose proof (zlen_nonneg data). pose proof (zlen_nonneg post).
  assert (U : unread b = frame data ++ post) by (unfold unread, b; cbn [b_data b_pos]; apply skipn_app_z).
  assert (ZF : zlen (frame data) = 24 + zlen data)
    by (unfold frame; rewrite !zlen_app, frame_header_len, frame_trailer_len; lia).
  assert (S : stream_ok b).
  { split; [unfold b; cbn [b_data b_pos]; rewrite !zlen_app; lia|].
    unfold b; cbn [b_data]. rewrite !bytes_ok_app. unfold frame. rewrite !bytes_ok_app.
    repeat split; auto using frame_header_ok, frame_trailer_ok. }
  assert (Fh : firstn 12 (unread b) = frame_header (zlen data)).
  { rewrite U. unfold frame. rewrite <- app_assoc. apply firstn_app_z. apply frame_header_len. }
  assert (Ft : firstn 12 (skipn (Z.to_nat (12 + zlen data)) (unread b)) = frame_trailer (zlen data)).
  { rewrite U. unfold frame. rewrite (app_assoc (frame_header _)), <- app_assoc.
    rewrite skipn_app_exact. 2:{ rewrite app_length. pose proof (frame_header_len (zlen data)). unfold zlen in *. lia. }
    apply firstn_app_z. apply frame_trailer_len. }
  assert (ZU : zlen (unread b) = 24 + zlen data + zlen post) by (rewrite U, zlen_app, ZF; lia).
  destruct (adapter_new_cases b S) as [[C _]|[(_ & n & Sn & F & C)|(_ & N & _)]].
  - lia.
  - rewrite Fh in F. apply frame_header_inj in F; [|unfold is_size; lia|exact Sn]. subst n.
    destruct C as [[C _]|[(_ & _ & C)|(_ & C & _)]]; [lia|exact C|contradiction].
  - exfalso. apply (N (zlen data)); [unfold is_size; lia|exact Fh].
Qed.

(** ** reading *)
Definition reading (d : bytes) (p n off : Z) : adapter := Adapter (Bio d (p + 12 + off)) p (Some n) true true.
Lemma fa_read_frame pre data post off c : 0 <= off -> 0 <= c -> off + c <= zlen data ->
  let d := pre ++ frame data ++ post in
  fa_read c (reading d (zlen pre) (zlen data) off) =
    (reading d (zlen pre) (zlen data) (off + c), Ok (firstn (Z.to_nat c) (skipn (Z.to_nat off) data))).
Proof.
  intros Ho Hc Hs d. pose proof (zlen_nonneg pre). pose proof (zlen_nonneg post).
  assert (ZD : zlen d = zlen pre + 24 + zlen data + zlen post).
  { unfold d, frame. rewrite !zlen_app, frame_header_len, frame_trailer_len. lia. }
  unfold fa_read, check_start, check_end, reading. cbn [fa_startChecked fa_size fa_endChecked negb fa_stream fa_start b_pos].
  unfold PREFIX_SIZE.
  destruct (Z.ltb_spec (zlen pre + 12 + off) (zlen pre + 12)); [lia|].
  destruct (Z.ltb_spec (zlen pre + 12 + zlen data) (zlen pre + 12 + off)); [lia|]. cbn [orb].
  unfold fa_available, raw_size, PREFIX_SIZE, SUFFIX_SIZE. cbn [fa_stream fa_start b_pos b_data].
  destruct (Z.leb_spec (12 + 12) (zlen d - zlen pre)); [|lia].
  destruct (Z.ltb_spec (Z.max 0 (zlen d - 12) - (zlen pre + 12 + off)) c); [lia|].
  assert (E : skipn (Z.to_nat (zlen pre + 12 + off)) d = skipn (Z.to_nat off) data ++ frame_trailer (zlen data) ++ post).
  { unfold d, frame. rewrite <- !app_assoc, !app_assoc. rewrite <- (app_assoc (pre ++ frame_header (zlen data))).
    rewrite <- (app_assoc (pre ++ frame_header (zlen data))).
    assert (LL : length (pre ++ frame_header (zlen data)) = Z.to_nat (zlen pre + 12)).
    { rewrite app_length. pose proof (frame_header_len (zlen data)). unfold zlen in *. lia. }
    replace (Z.to_nat (zlen pre + 12 + off)) with (length (pre ++ frame_header (zlen data)) + Z.to_nat off)%nat by lia.
    rewrite <- skipn_plus, skipn_app_exact by reflexivity.
    rewrite <- !app_assoc, skipn_app. replace (Z.to_nat off - length data)%nat with 0%nat by (unfold zlen in *; lia). reflexivity. }
  unfold bio_read. cbn [b_data b_pos]. rewrite E. destruct (Z.ltb_spec c 0); [lia|].
  assert (F : firstn (Z.to_nat c) (skipn (Z.to_nat off) data ++ frame_trailer (zlen data) ++ post) =
              firstn (Z.to_nat c) (skipn (Z.to_nat off) data)).
  { rewrite firstn_app. replace (Z.to_nat c - length (skipn (Z.to_nat off) data))%nat with 0%nat
      by (rewrite skipn_length; unfold zlen in *; lia). rewrite firstn_O. apply app_nil_r. }
  rewrite F. unfold with_stream. cbn [fa_start fa_size fa_startChecked fa_endChecked]. f_equal. f_equal.
  f_equal. rewrite zlen_firstn, zlen_skipn. lia.
Qed.
Lemma read_all_frame pre data post ns : forall off, 0 <= off -> Forall (fun n => 0 <= n) ns -> off + zsum ns <= zlen data ->
  let d := pre ++ frame data ++ post in
  read_all ns (reading d (zlen pre) (zlen data) off) =
    (reading d (zlen pre) (zlen data) (off + zsum ns), Ok (pieces ns (skipn (Z.to_nat off) data))).
Proof.
  induction ns as [|n ns IH]; intros off Ho F L d; cbn [read_all zsum pieces].
  - rewrite Z.add_0_r. reflexivity.
  - cbn [zsum] in L. inversion F as [|? ? Hn F']; subst.
    assert (0 <= zsum ns) by (clear -F'; induction F'; cbn [zsum]; lia).
    unfold d. rewrite fa_read_frame by lia. rewrite (IH (off + n)) by (auto; lia). fold d.
    rewrite skipn_plus. replace (off + n + zsum ns) with (off + (n + zsum ns)) by lia.
    replace (Z.to_nat off + Z.to_nat n)%nat with (Z.to_nat (off + n)) by lia. reflexivity.
Qed.

(** ** writing *)
Lemma bio_write_end pre d : bio_write d (Bio pre (zlen pre)) = Bio (pre ++ d) (zlen pre + zlen d).
Proof.
  destruct d as [|x d].
  - cbn [bio_write]. rewrite app_nil_r. change (zlen (@nil Z)) with 0. rewrite Z.add_0_r. reflexivity.
  - unfold bio_write. cbn [b_data b_pos]. unfold zlen at 1 2 3. rewrite Nat2Z.id, firstn_all, Nat.sub_diag. cbn [repeat].
    rewrite app_nil_r. rewrite skipn_all2 by lia. rewrite app_nil_r. reflexivity.
Qed.
Lemma bio_write_over pre old d post : length old = length d ->
  bio_write d (Bio (pre ++ old ++ post) (zlen pre)) = Bio (pre ++ d ++ post) (zlen pre + zlen d).
Proof.
  intros L. destruct d as [|x d].
  - destruct old; [|discriminate]. cbn [bio_write app]. change (zlen (@nil Z)) with 0. rewrite Z.add_0_r. reflexivity.
  - unfold bio_write. cbn [b_data b_pos].
    assert (EQ : Z.to_nat (zlen pre) = length pre) by (unfold zlen; lia). rewrite EQ.
    rewrite firstn_app_exact by reflexivity. rewrite app_length.
    replace (length pre - (length pre + length (old ++ post)))%nat with 0%nat by lia. cbn [repeat]. rewrite app_nil_r.
    f_equal. f_equal. f_equal.
    rewrite <- L, app_assoc. apply skipn_app_exact. rewrite app_length. reflexivity.
Qed.

Definition writing (pre data : bytes) : adapter :=
  Adapter (Bio (pre ++ (MAGIC ++ MAGIC ++ MAGIC) ++ data) (zlen pre + 12 + zlen data)) (zlen pre) (Some (zlen data)) true false.
Lemma fa_write_more pre data d : fa_write d (writing pre data) = (writing pre (data ++ d), Ok tt).
Proof.
  pose proof (zlen_nonneg d). pose proof (zlen_nonneg data).
  unfold fa_write, writing. cbn [fa_endChecked fa_startChecked fa_size fa_stream fa_start].
  set (all := pre ++ (MAGIC ++ MAGIC ++ MAGIC) ++ data).
  assert (EA : zlen pre + 12 + zlen data = zlen all) by (unfold all; rewrite !zlen_app; change (zlen MAGIC) with 4; lia).
  rewrite EA, bio_write_end. cbn [b_pos]. unfold PREFIX_SIZE. unfold all. rewrite <- !app_assoc. rewrite !zlen_app. change (zlen MAGIC) with 4.
  f_equal. f_equal.
  - f_equal. lia.
  - f_equal. destruct (Z.ltb_spec (zlen data) (zlen pre + (4 + (4 + (4 + zlen data))) + zlen d - zlen pre - 12)); lia.
Qed.
Lemma fa_write_first pre d : fa_write d (Adapter (Bio pre (zlen pre)) (zlen pre) None false false) = (writing pre d, Ok tt).
Proof.
  pose proof (zlen_nonneg d). pose proof (zlen_nonneg pre).
  unfold fa_write. cbn [fa_endChecked fa_startChecked fa_size fa_stream fa_start b_pos]. unfold PREFIX_SIZE.
  destruct (Z.ltb_spec (zlen pre + 12) (zlen pre)); [lia|].
  unfold at_pos. cbn [b_data]. rewrite bio_write_end.
  replace (zlen pre + zlen MAGIC) with (zlen (pre ++ MAGIC)) by (rewrite zlen_app; reflexivity). rewrite bio_write_end.
  replace (zlen (pre ++ MAGIC) + zlen MAGIC) with (zlen ((pre ++ MAGIC) ++ MAGIC)) by (rewrite !zlen_app; reflexivity). rewrite bio_write_end.
  replace (zlen ((pre ++ MAGIC) ++ MAGIC) + zlen MAGIC) with (zlen (((pre ++ MAGIC) ++ MAGIC) ++ MAGIC)) by (rewrite !zlen_app; reflexivity). rewrite bio_write_end.
  cbn [b_pos]. unfold writing.
  assert (ZZ : zlen (((pre ++ MAGIC) ++ MAGIC) ++ MAGIC) = zlen pre + 12) by (rewrite !zlen_app; change (zlen MAGIC) with 4; lia).
  rewrite ZZ. rewrite <- !app_assoc.
  assert (EE : (if 0 <? zlen pre + 12 + zlen d - zlen pre - 12 then zlen pre + 12 + zlen d - zlen pre - 12 else 0) = zlen d)
    by (destruct (Z.ltb_spec 0 (zlen pre + 12 + zlen d - zlen pre - 12)); lia).
  rewrite EE. reflexivity.
Qed.
Lemma write_all_more ds : forall pre data, write_all ds (writing pre data) = (writing pre (data ++ concat ds), Ok tt).
Proof.
  induction ds as [|d ds IH]; intros pre data; cbn [write_all concat].
  - rewrite app_nil_r. reflexivity.
  - rewrite fa_write_more, IH, app_assoc. reflexivity.
Qed.
Lemma pack_u4 n : is_size n -> pack_u 4 n = Ok (be_enc 4 n).
Proof. intros H. unfold pack_u. unfold is_size in H. destruct (Z.leb_spec 0 n); [|lia]. destruct (Z.ltb_spec n (256 ^ Z.of_nat 4)); [reflexivity|]. cbn in *. lia. Qed.
Lemma fa_write_frame_writing pre data : zlen data < 2 ^ 32 ->
  fa_write_frame (writing pre data) =
    (Adapter (Bio (pre ++ frame data) (zlen (pre ++ frame data))) (zlen pre) (Some (zlen data)) true true, Ok tt).
Proof.
  intros L. pose proof (zlen_nonneg data). pose proof (zlen_nonneg pre).
  unfold fa_write_frame, writing. cbn [fa_endChecked fa_startChecked fa_size fa_stream fa_start].
  rewrite pack_u4 by (unfold is_size; lia). unfold at_pos. cbn [b_data].
  replace (pre ++ (MAGIC ++ MAGIC ++ MAGIC) ++ data) with ((pre ++ MAGIC) ++ MAGIC ++ MAGIC ++ data) by (rewrite <- !app_assoc; reflexivity).
  replace (zlen pre + 4) with (zlen (pre ++ MAGIC)) by (rewrite zlen_app; reflexivity).
  rewrite bio_write_over by (rewrite be_enc_length; reflexivity).
  replace (zlen (pre ++ MAGIC) + zlen (be_enc 4 (zlen data))) with (zlen ((pre ++ MAGIC) ++ be_enc 4 (zlen data))) by (rewrite (zlen_app (pre ++ MAGIC)); reflexivity).
  rewrite (app_assoc (pre ++ MAGIC)). rewrite bio_write_over by (rewrite be_enc_length; reflexivity).
  cbn [b_data]. unfold PREFIX_SIZE. rewrite <- !adler_app.
  replace (((pre ++ MAGIC) ++ be_enc 4 (zlen data)) ++ be_enc 4 (adler32 (MAGIC ++ be_enc 4 (zlen data)) 1) ++ data)
    with (pre ++ frame_header (zlen data) ++ data) by (unfold frame_header; fold MAGIC; rewrite <- !app_assoc; reflexivity).
  assert (Zh : zlen (pre ++ frame_header (zlen data) ++ data) = zlen pre + 12 + zlen data) by (rewrite !zlen_app, frame_header_len; lia).
  rewrite <- Zh. rewrite bio_write_end. rewrite <- zlen_app, bio_write_end. rewrite <- zlen_app, bio_write_end. rewrite <- zlen_app.
  unfold frame, frame_trailer. fold REV_MAGIC. rewrite <- !app_assoc. reflexivity.
Qed.

(** ** corruption of one byte *)
Lemma one_byte_app a a' : length a = length a' -> forall b b', one_byte_changed (a ++ b) (a' ++ b') ->
  (one_byte_changed a a' /\ b = b') \/ (a = a' /\ one_byte_changed b b').
Proof.
  revert a'. induction a as [|u a IH]; intros [|u' a'] L b b' H; cbn [length] in L; try lia.
  - right. split; [reflexivity|exact H].
  - destruct H as (pre & x & y & post & E1 & E2 & N). destruct pre as [|v pre]; cbn [app] in E1, E2.
    + injection E1 as Eu Er. injection E2 as Eu' Er'. subst u u'.
      rewrite <- Er' in Er. apply app4_inj in Er; [|lia]. destruct Er as [-> ->].
      left. split; [|reflexivity]. exists [], x, y, a'. repeat split; auto.
    + injection E1 as Eu Er. injection E2 as Eu' Er'. subst u u'.
      destruct (IH a' ltac:(lia) b b') as [[(p & x' & y' & q & A1 & A2 & A3) Eb]|[-> Hb]].
      * exists pre, x, y, post. auto.
      * left. split; [|exact Eb]. exists (v :: p), x', y', q. subst a a'. repeat split; auto.
      * right. split; [reflexivity|exact Hb].
Qed.
Lemma one_byte_irrefl a : ~ one_byte_changed a a.
Proof.
  intros (p & x & y & q & E1 & E2 & N). rewrite E1 in E2. apply app4_inj in E2; [|reflexivity]. destruct E2 as [_ E2].
  injection E2. auto.
Qed.
Lemma one_byte_bsum a b : one_byte_changed a b -> bsum a <> bsum b.
Proof. intros (p & x & y & q & -> & -> & N). rewrite !bsum_app. cbn [bsum]. lia. Qed.
Lemma bsum_bound d : bytes_ok d -> 0 <= bsum d <= 255 * zlen d.
Proof.
  induction d as [|x d IH]; intros B; [cbn; lia|]. apply Forall_cons_iff in B. destruct B as [Bx B]. unfold byte_ok in Bx. specialize (IH B).
  cbn [bsum]. rewrite zlen_cons. lia.
Qed.
Lemma adler_bsum d e : bytes_ok d -> bytes_ok e -> zlen d <= 200 -> zlen e <= 200 ->
  adler32 d 1 = adler32 e 1 -> bsum d = bsum e.
Proof.
  intros Bd Be Ld Le H. pose proof (bsum_bound d Bd). pose proof (bsum_bound e Be).
  assert (M : (1 + bsum d) mod 65521 = (1 + bsum e) mod 65521) by (rewrite <- !adler_low1, H; reflexivity).
  rewrite !Z.mod_small in M by lia. lia.
Qed.
Lemma be4_adler_inj d e : be_enc 4 (adler32 d 1) = be_enc 4 (adler32 e 1) -> adler32 d 1 = adler32 e 1.
Proof. intros H. apply be4_inj; [apply adler_range|apply adler_range|exact H]. Qed.

Lemma header_corrupt n m h : is_size n -> is_size m -> one_byte_changed (frame_header n) h -> h <> frame_header m.
Proof.
  intros Sn Sm C ->. unfold frame_header in C.
  apply one_byte_app in C; [|reflexivity]. destruct C as [[C _]|[_ C]]; [exact (one_byte_irrefl _ C)|].
  apply one_byte_app in C; [|rewrite !be_enc_length; reflexivity]. destruct C as [[C Ec]|[En C]].
  - apply be4_adler_inj, adler_bsum in Ec.
    + apply one_byte_bsum in C. rewrite !bsum_app in Ec. lia.
    + apply bytes_ok_app. split; [repeat constructor; lia|apply be_enc_ok].
    + apply bytes_ok_app. split; [repeat constructor; lia|apply be_enc_ok].
    + rewrite zlen_app, zlen_be. cbn. lia.
    + rewrite zlen_app, zlen_be. cbn. lia.
  - rewrite En in C. exact (one_byte_irrefl _ C).
Qed.
Lemma trailer_corrupt n t : one_byte_changed (frame_trailer n) t -> t <> frame_trailer n.
Proof. intros C ->. exact (one_byte_irrefl _ C). Qed.
