(** * Deserialize and the Deserializer on streams of packets *)
From Coq Require Import List ZArith Bool Lia.
From Verif Require Import PyBase PyLemmas Utf8Model Utf8Proofs StreamModel StreamProofs AddrModel PacketModel PacketSpec PacketTags PacketExec PacketRound.
Import ListNotations.
Open Scope Z_scope.

Section D.
Variable E : env.

(** ** Sizes *)
Lemma utf8_len_nonneg s : 0 <= utf8_len s.
Proof. unfold utf8_len. destruct (utf8_enc s); [apply zlen_nonneg|lia]. Qed.
Lemma int_bytes_pos a : 1 <= int_bytes a.
Proof. unfold int_bytes. repeat match goal with |- context [if ?b then _ else _] => destruct b end; lia. Qed.
Lemma items_size_nonneg t l : Forall (optP (fun v => forall t, 0 <= wire_size E v t)) l -> 0 <= items_size E t l.
Proof.
  induction 1 as [|[v|] l H _ IH]; cbn [items_size]; fold (items_size E t); [lia| |lia]. cbn in H. specialize (H t). lia.
Qed.
Lemma fs_size_nonneg l : Forall (optP (fun v => forall t, 0 <= wire_size E v t)) l -> forall fs, 0 <= fs_size E l fs.
Proof.
  induction 1 as [|[v|] l H _ IH]; intros [|[f t] fs]; cbn [fs_size]; fold (fs_size E); try lia.
  - cbn in H. specialize (H t). specialize (IH fs). lia.
  - apply IH.
Qed.
Lemma wire_size_nonneg v : forall t, 0 <= wire_size E v t.
Proof.
  induction v as [x|s|b|l IH|l IH|c l IH] using val_ind2; intros [[a|a| |a]| | |t|fs|base]; try (cbn; lia); try (cbn; destruct (_ =? _); lia); try exact (Z.le_trans _ _ _ Z.le_0_1 (int_bytes_pos _)).
  - cbn [wire_size]. pose proof (zlen_nonneg s). lia.
  - cbn [wire_size]. pose proof (zlen_nonneg b). lia.
  - rewrite size_list_eq. pose proof (items_size_nonneg t l IH). lia.
  - rewrite size_fields_eq. pose proof (fs_size_nonneg l IH fs). lia.
  - rewrite size_packet_eq. pose proof (fs_size_nonneg l IH (c_fields (e_cls E c))).
    pose proof (utf8_len_nonneg (c_ident (e_cls E c))). pose proof (utf8_len_nonneg (c_version (e_cls E c))). lia.
Qed.
Lemma fs_size_nn l fs : 0 <= fs_size E l fs.
Proof. apply fs_size_nonneg, Forall_forall. intros [v|] _; cbn; [apply wire_size_nonneg|trivial]. Qed.
Lemma items_size_nn t l : 0 <= items_size E t l.
Proof. apply items_size_nonneg, Forall_forall. intros [v|] _; cbn; [apply wire_size_nonneg|trivial]. Qed.
Lemma packet_size_ge base c vs : 20 <= wire_size E (VPacket c vs) (TPacket base).
Proof.
  rewrite size_packet_eq. pose proof (fs_size_nn vs (c_fields (e_cls E c))).
  pose proof (utf8_len_nonneg (c_ident (e_cls E c))). pose proof (utf8_len_nonneg (c_version (e_cls E c))). lia.
Qed.
Lemma items_child t l y : In y (set_items t l) -> wire_size E (fst y) (snd y) <= items_size E t l.
Proof.
  induction l as [|[v|] l IH]; cbn [set_items items_size]; fold (items_size E t); [intros []| |exact IH].
  pose proof (items_size_nn t l). intros [<-|H1]; cbn [fst snd]; [lia|]. specialize (IH H1). pose proof (wire_size_nonneg v t). lia.
Qed.
Lemma fs_child fs : forall l y, In y (set_fields fs l) -> wire_size E (fst y) (snd y) <= fs_size E l fs.
Proof.
  induction fs as [|[f t] fs IH]; intros [|[v|] l] y; cbn [set_fields fs_size]; fold (fs_size E); try (intros []; fail).
  - pose proof (fs_size_nn l fs). intros [<-|H1]; cbn [fst snd]; [lia|]. specialize (IH _ _ H1). pose proof (wire_size_nonneg v t). lia.
  - apply IH.
Qed.
Lemma child_size x z : In z (children E x) -> wire_size E (fst z) (snd z) <= wire_size E (fst x) (snd x).
Proof.
  destruct x as [v t]. unfold children. cbn [fst snd]. destruct t as [| | |t|fs|base], v as [| | |l|l|c l]; try (intros []; fail); intro H.
  - apply items_child in H. rewrite size_list_eq. lia.
  - apply fs_child in H. rewrite size_fields_eq. lia.
  - apply fs_child in H. rewrite size_packet_eq.
    pose proof (utf8_len_nonneg (c_ident (e_cls E c))). pose proof (utf8_len_nonneg (c_version (e_cls E c))). lia.
Qed.
Lemma piece_size x n : part_ok E x -> piece E (fst x) n -> n <= wire_size E (fst x) (snd x).
Proof.
  destruct x as [v t]. unfold part_ok, piece. cbn [fst snd]. destruct v as [x|s|b|l|l|c l]; try tauto; destruct t as [| | |t|fs|base]; try tauto.
  - intros _ ->. cbn [wire_size]. lia.
  - intros _ ->. cbn [wire_size]. lia.
  - intros _ Hn. rewrite size_packet_eq. pose proof (fs_size_nn l (c_fields (e_cls E c))).
    pose proof (utf8_len_nonneg (c_ident (e_cls E c))). pose proof (utf8_len_nonneg (c_version (e_cls E c))). lia.
Qed.
Lemma inside_trans x y z : inside E x y -> inside E y z -> inside E x z.
Proof. intros H1 H2. induction H2; [exact H1|]. econstructor; eauto. Qed.
Lemma inside_size x y : inside E y x -> wire_size E (fst y) (snd y) <= wire_size E (fst x) (snd x).
Proof. induction 1; [lia|]. pose proof (child_size _ _ H). lia. Qed.

(** flat packets always fit *)
Lemma flat_fits x : encodable E x -> flat E x -> is_packet (fst x) -> pieces_fit E x.
Proof.
  intros En Fl Pk y n q Iy Py Iq Pq.
  assert (q = x) as ->.
  { inversion Iq as [|? z Hz Hq]; subst; [reflexivity|]. destruct (Fl _ _ Hz Hq Pq). }
  pose proof (piece_size y n (En _ Iy) Py). pose proof (inside_size _ _ Iy). lia.
Qed.

(** ** A bound for all single reads *)
Definition own_max (v : val) : Z :=
  match v with
  | VStr s => zlen s | VBuf b => zlen b
  | VPacket c _ => Z.max (utf8_len (c_ident (e_cls E c))) (utf8_len (c_version (e_cls E c)))
  | _ => 0
  end.
Definition is_max (M : Z) (x : part) : Prop :=
  8 <= M /\ (forall y n, inside E y x -> piece E (fst y) n -> n <= M) /\
  (M = 8 \/ exists y, inside E y x /\ piece E (fst y) M).
Lemma max_list ps : (forall y, In y ps -> exists M, is_max M y) ->
  exists M, 8 <= M /\ (forall z y n, In z ps -> inside E y z -> piece E (fst y) n -> n <= M) /\
    (M = 8 \/ exists z y, In z ps /\ inside E y z /\ piece E (fst y) M).
Proof.
  induction ps as [|p ps IH]; intros H.
  - exists 8. split; [lia|]. split; [intros z y n []|left; reflexivity].
  - destruct (H p (or_introl eq_refl)) as (M1 & A1 & B1 & C1).
    destruct IH as (M2 & A2 & B2 & C2); [intros y Hy; apply H; now right|].
    exists (Z.max M1 M2). split; [lia|]. split.
    + intros z y n [<-|Iz] Iy Py; [specialize (B1 _ _ Iy Py); lia|specialize (B2 _ _ _ Iz Iy Py); lia].
    + destruct (Z.max_spec M1 M2) as [[L ->]|[L ->]].
      * destruct C2 as [->|(z & y & Iz & Iy & Py)]; [left; reflexivity|]. right. exists z, y. cbn. auto.
      * destruct C1 as [->|(y & Iy & Py)]; [left; reflexivity|]. right. exists p, y. cbn. auto.
Qed.
Lemma max_part v t : (forall y, In y (children E (v, t)) -> exists M, is_max M y) -> exists M, is_max M (v, t).
Proof.
  intro CH. destruct (max_list _ CH) as (M & A & B & C).
  assert (OM : forall n, piece E v n -> n <= own_max v) by (intros n Hn; destruct v; cbn in *; try tauto; lia).
  assert (OP : own_max v = 0 \/ piece E v (own_max v)).
  { destruct v; cbn; try tauto.
    destruct (Z.max_spec (utf8_len (c_ident (e_cls E cls))) (utf8_len (c_version (e_cls E cls)))) as [[_ ->]|[_ ->]]; auto. }
  exists (Z.max M (own_max v)). split; [lia|]. split.
  - intros y n Iy Py. inversion Iy as [|? z Hz Hq]; subst; [cbn [fst] in Py; specialize (OM _ Py); lia|specialize (B _ _ _ Hz Hq Py); lia].
  - destruct (Z.max_spec M (own_max v)) as [[L ->]|[L ->]].
    + destruct OP as [OP|OP]; [lia|]. right. exists (v, t). split; [apply in_self|exact OP].
    + destruct C as [->|(z & y & Iz & Iy & Py)]; [left; reflexivity|]. right. exists y. split; [econstructor; eauto|exact Py].
Qed.
Lemma max_piece v : forall t, exists M, is_max M (v, t).
Proof.
  induction v as [x|s|b|l IH|l IH|c l IH] using val_ind2; intros t; apply max_part; unfold children; cbn [fst snd]; intros [y ty] Hy; destruct t; try destruct Hy.
  - destruct (set_items_in _ _ _ Hy) as (_ & Hv). cbn [fst] in Hv. apply (optP_in _ _ _ IH Hv).
  - pose proof (set_fields_in _ _ _ Hy) as Hv. cbn [fst] in Hv. apply (optP_in _ _ _ IH Hv).
  - pose proof (set_fields_in _ _ _ Hy) as Hv. cbn [fst] in Hv. apply (optP_in _ _ _ IH Hv).
Qed.
Lemma fits_bounded x : encodable E x -> pieces_fit E x -> exists B, 8 <= B /\ bounded E B x.
Proof.
  intros En Pf. destruct x as [v t]. destruct (max_piece v t) as (M & A & B & C). exists M. split; [exact A|].
  intros y Iy. split; [intros n Hn; eauto|]. intro Pk. destruct C as [->|(z & Iz & Pz)].
  - destruct y as [y ty]. pose proof (En _ Iy) as P. cbn [fst snd] in *. destruct y; try (now destruct Pk).
    destruct ty; try (now destruct P). pose proof (packet_size_ge base cls vs). lia.
  - exact (Pf z M y Iz Pz Iy Pk).
Qed.

(** ** One packet *)
Lemma sendable_bytes depth base p : sendable E depth base p -> exists bs,
  serialize E p = Ok bs /\ zlen bs = wire_size E p (TPacket base) /\ (0 < depth)%nat /\
  forall pos, exists m', eats (dec_packet E depth base) pos 0 bs p m'.
Proof.
  intros (En & Co & De & Pf). destruct (all_good E p (TPacket base) En Co) as (bs & Eb & Sb & Rb).
  destruct (fits_bounded _ En Pf) as (B & B8 & Bd). exists bs. cbn [fst snd] in *.
  pose proof (En _ (in_self E _)) as P0. destruct p as [| | | | |c vs]; try (now destruct P0).
  split; [exact Eb|]. split; [exact Sb|]. split.
  { inversion De as [? ? ? ? ?|? ? ? Hn]; subst; [lia|cbn in Hn; tauto]. }
  intros pos. destruct (Rb depth B De Bd B8 pos 0 (or_introl eq_refl)) as (m' & _ & Em). exists m'. exact Em.
Qed.
Lemma serialize_base p base base' : enc E p (TPacket base) = enc E p (TPacket base').
Proof. destruct p; reflexivity. Qed.

Lemma roundtrip depth base p : sendable E depth base p -> exists bs,
  serialize E p = Ok bs /\ zlen bs = wire_size E p (TPacket base) /\
  deserialize E depth base bs = Some (Ok p) /\
  forall rest, exists s', exec (dec_packet E depth base) (St (bio_new (bs ++ rest)) 0) = Finished p s' /\
     s_bio s' = Bio (bs ++ rest) (zlen bs).
Proof.
  intro S. destruct (sendable_bytes _ _ _ S) as (bs & Eb & Sb & Dp & Rb). exists bs.
  split; [exact Eb|]. split; [exact Sb|]. destruct (Rb 0) as (m' & Em).
  assert (X : forall rest, exec (dec_packet E depth base) (St (bio_new (bs ++ rest)) 0) = Finished p (St (Bio (bs ++ rest) (zlen bs)) m')).
  { intro rest. unfold bio_new. rewrite (exec_full _ _ _ _ _ _ Em (bs ++ rest) 0 rest).
    - reflexivity.
    - eapply eats_lpos, Em.
    - pose proof (zlen_nonneg (bs ++ rest)). lia.
    - reflexivity. }
  split.
  - unfold deserialize. specialize (X []). rewrite app_nil_r in X. now rewrite X.
  - intro rest. exists (St (Bio (bs ++ rest) (zlen bs)) m'). split; [apply X|reflexivity].
Qed.

(** garbage before a packet *)
Lemma no_false_len g h bs : no_false_header g (h ++ bs) -> length h = 16%nat ->
  forall i, (i < length g)%nat -> header_len (firstn 16 (skipn i (g ++ h))) = None.
Proof.
  intros N L i Hi. assert (W : firstn 16 (skipn i (g ++ h)) = firstn 16 (skipn i (g ++ h ++ bs))).
  { rewrite (app_assoc g h bs), (skipn_app i (g ++ h) bs). replace (i - length (g ++ h))%nat with 0%nat by (rewrite app_length; lia).
    cbn [skipn]. rewrite firstn_app. replace (16 - length (skipn i (g ++ h)))%nat with 0%nat by (rewrite skipn_length, app_length; lia).
    now rewrite firstn_O, app_nil_r. }
  apply header_len_not.
  - rewrite firstn_length, skipn_length, app_length. lia.
  - rewrite W. exact (N i Hi).
Qed.
Lemma eats_tell_inv {A} (k : Z -> prog A) pos m bs a m' : eats (PTell k) pos m bs a m' -> eats (k pos) pos m bs a m'.
Proof. inversion 1; subst; assumption. Qed.
Lemma eats_sync_inv {A} start o (k : Z -> Z -> prog A) pos m bs a m' : eats (PSync start o k) pos m bs a m' ->
  start = pos /\ exists g h l b, bs = g ++ h ++ b /\ lim_ok 8 m /\ length h = 16%nat /\ header_len h = Some l /\
    (forall i, (i < length g)%nat -> header_len (firstn 16 (skipn i (g ++ h))) = None) /\
    eats (k (pos + zlen g) l) (pos + zlen g + 16) m b a m'.
Proof. inversion 1; subst. split; [reflexivity|]. exists g, h, l, bs0. auto 10. Qed.
(** the decoder accepts garbage in front of what it accepts *)
Lemma eats_garbage depth base pos bs p m' g :
  eats (dec_packet E depth base) (pos + zlen g) 0 bs p m' -> no_false_header g bs ->
  eats (dec_packet E depth base) pos 0 (g ++ bs) p m'.
Proof.
  intros H N. destruct depth as [|d]; cbn [dec_packet] in *. { inversion H. }
  apply eats_tell_inv in H. constructor.
  apply eats_sync_inv in H as (_ & g0 & h & l & bs0 & -> & Hl & Hh & Hd & Hf & Hk).
  rewrite (app_assoc g g0 (h ++ bs0)).
  econstructor; eauto.
  - intros i Hi. rewrite app_length in Hi. destruct (Nat.lt_ge_cases i (length g)) as [Lt|Ge].
    + rewrite <- app_assoc. apply header_len_not.
      * rewrite firstn_length, skipn_length, !app_length. lia.
      * specialize (N i Lt). intro X. apply N.
        replace (firstn 16 (skipn i (g ++ g0 ++ h ++ bs0))) with (firstn 16 (skipn i (g ++ g0 ++ h))); [exact X|].
        replace (g ++ g0 ++ h ++ bs0) with ((g ++ g0 ++ h) ++ bs0) by (now rewrite <- !app_assoc).
        rewrite (skipn_app i (g ++ g0 ++ h) bs0). replace (i - length (g ++ g0 ++ h))%nat with 0%nat by (rewrite !app_length; lia).
        cbn [skipn]. rewrite firstn_app. replace (16 - length (skipn i (g ++ g0 ++ h)))%nat with 0%nat by (rewrite skipn_length, !app_length; lia).
        now rewrite firstn_O, app_nil_r.
    + rewrite <- app_assoc, skipn_app, (skipn_all2 g) by lia. cbn [app]. apply Hf. lia.
  - rewrite zlen_app. rewrite <- Z.add_assoc in Hk. rewrite !Z.add_assoc in *. exact Hk.
Qed.

(** ** The Deserializer *)
Lemma update_ok d data pos : 0 <= pos -> ubio_update d (Bio data pos) = Ok (Bio (data ++ d) pos).
Proof.
  intro P. unfold ubio_update, bio_seek_end, bio_write, bio_seek. cbn [b_pos b_data].
  destruct (Z.ltb_spec pos 0); [lia|]. destruct d as [|x d].
  - cbn. now rewrite app_nil_r.
  - cbn [b_data]. f_equal. f_equal. unfold zlen. rewrite Nat2Z.id, firstn_all, Nat.sub_diag. cbn [repeat].
    rewrite skipn_all2 by lia. now rewrite !app_nil_r.
Qed.

Definition unread (d : dser) : bytes := stream_rest (d_bio d) (lpos (d_iter d) (d_bio d)).
Definition dwf (d : dser) : Prop :=
  0 <= lpos (d_iter d) (d_bio d) <= zlen (b_data (d_bio d)) /\ 0 <= b_pos (d_bio d) <= zlen (b_data (d_bio d)).
Definition eaten (depth base : nat) (p : val) (bs : bytes) : Prop :=
  bs <> [] /\ forall pos, exists m', eats (dec_packet E depth base) pos 0 bs p m'.
(** [d] will yield [ps] when it has received [future] in addition; [bss] are
    the bytes of [ps], those of the first possibly received in part *)
Definition expects (depth base : nat) (d : dser) (ps : list val) (bss : list bytes) (future : bytes) : Prop :=
  dwf d /\ Forall2 (eaten depth base) ps bss /\
  match ps, bss with
  | p :: _, bs :: bss' =>
      exists pre cur m', bs = pre ++ cur /\ cur <> [] /\ unread d ++ future = cur ++ concat bss' /\
        eats (d_iter d) (lpos (d_iter d) (d_bio d)) (d_max d) cur p m'
  | _, _ => unread d ++ future = [] /\
            (exec (d_iter d) (St (d_bio d) (d_max d)) = Waiting (d_iter d) (St (d_bio d) (d_max d)) \/
             d_iter d = dec_packet E depth base /\ d_max d = 0)
  end.

Lemma expects_update depth base d ps bss c future :
  expects depth base d ps bss (c ++ future) -> expects depth base (d_update c d) ps bss future.
Proof.
  destruct d as [[data bp] it m mg]. unfold expects, dwf, unread, d_update. cbn [d_bio d_iter d_max d_managed b_data b_pos].
  intros ((L & P) & F & X). rewrite update_ok by lia. cbn [d_bio d_iter d_max d_managed b_data b_pos].
  assert (LP : lpos it (Bio (data ++ c) bp) = lpos it (Bio data bp)) by (destruct it; reflexivity).
  rewrite LP, zlen_app. pose proof (zlen_nonneg c).
  assert (R : stream_rest (Bio (data ++ c) bp) (lpos it (Bio data bp)) = stream_rest (Bio data bp) (lpos it (Bio data bp)) ++ c).
  { unfold stream_rest. cbn [b_data]. rewrite skipn_app. f_equal. unfold zlen in L.
    replace (Z.to_nat (lpos it (Bio data bp)) - length data)%nat with 0%nat by lia. reflexivity. }
  rewrite R, <- app_assoc. split; [lia|]. split; [exact F|].
  destruct F as [|p bs ps bss Hp F]; [|exact X].
  destruct X as (U & X). split; [exact U|].
  assert (c = []) as -> by (apply app_eq_nil in U as (_ & U); apply app_eq_nil in U; tauto).
  rewrite app_nil_r. exact X.
Qed.

Lemma exec_empty depth base data pos m : (0 < depth)%nat -> m = 0 -> 0 <= pos <= zlen data -> stream_rest (Bio data pos) pos = [] ->
  exists p', exec (dec_packet E depth base) (St (Bio data pos) m) = Waiting p' (St (Bio data pos) m) /\
    exec p' (St (Bio data pos) m) = Waiting p' (St (Bio data pos) m) /\ lpos p' (Bio data pos) = pos.
Proof.
  intros D -> P R. destruct depth as [|d]; [lia|]. cbn [dec_packet exec s_bio b_pos].
  change (over_limit 8 (St (Bio data pos) 0)) with false. cbn [s_bio b_data s_max]. rewrite R. cbn [sync_scan zlen length].
  change (Z.of_nat 0 <? 8) with true. cbv iota beta. eexists. split; [reflexivity|]. split; [|reflexivity].
  cbn [exec]. change (over_limit 8 (St (Bio data pos) 0)) with false. cbn [s_bio b_data s_max]. rewrite R. reflexivity.
Qed.

(** nothing more can be taken from what has been received *)
Definition drained (bss : list bytes) (future : bytes) : Prop :=
  match bss with
  | bs :: bss' => exists pre r, r <> [] /\ bs = pre ++ r /\ future = r ++ concat bss'
  | [] => future = []
  end.
(** one turn *)
Lemma expects_step depth base d ps bss future : (0 < depth)%nat -> expects depth base d ps bss future ->
  (exists p ps' bs bss' d', ps = p :: ps' /\ bss = bs :: bss' /\ d_step E depth base d = (d', Some (EvPacket p)) /\
     expects depth base d' ps' bss' future /\ (length (unread d') < length (unread d))%nat) \/
  (exists d', d_step E depth base d = (d', None) /\ expects depth base d' ps bss future /\ drained bss future).
Proof.
  intros Dp. destruct d as [[data bp] it m mg]. unfold expects, dwf, unread. cbn [d_bio d_iter d_max d_managed b_data b_pos].
  intros ((L & P) & F & X).
  set (lp := lpos it (Bio data bp)) in *. set (un := stream_rest (Bio data bp) lp) in *.
  destruct F as [|p bs ps bss Hp F].
  - right. destruct X as (U & X). apply app_eq_nil in U as (Un & ->).
    destruct X as [X|(-> & ->)].
    + eexists. unfold d_step. cbn [d_bio d_iter d_max d_managed]. rewrite X. cbn [s_bio s_max]. split; [reflexivity|].
      cbn [d_bio d_iter d_max d_managed b_data b_pos]. fold lp un.
      split; [|reflexivity]. split; [auto|]. split; [constructor|]. split; [rewrite Un; reflexivity|]. left. exact X.
    + assert (lp = bp) as LB by (unfold lp; destruct depth; [lia|reflexivity]). unfold un in Un. rewrite LB in Un, L.
      destruct (exec_empty depth base data bp 0 Dp eq_refl L Un) as (p' & E1 & E2 & E3).
      eexists. unfold d_step. cbn [d_bio d_iter d_max d_managed]. rewrite E1. cbn [s_bio s_max]. split; [reflexivity|].
      cbn [d_bio d_iter d_max d_managed b_data b_pos]. rewrite E3.
      split; [|reflexivity]. split; [auto|]. split; [constructor|]. split; [now rewrite Un|]. left. exact E2.
  - destruct X as (pre & cur & m' & Eb & NC & U & X). destruct Hp as (Nb & Hp).
    destruct (app_cut _ _ _ _ U) as [(c & Uc & Ec)|(c & Nc & Uc & Ec)].
    + left. exists p, ps, bs, bss.
      assert (EX := exec_full _ _ _ _ _ _ X data bp c eq_refl L Uc).
      assert (RL : zlen un = zlen data - lp) by (apply rest_le; lia).
      rewrite Uc, zlen_app in RL. pose proof (zlen_nonneg cur) as Nbs. pose proof (zlen_nonneg c) as Ncs.
      assert (R2 : skipn (Z.to_nat (lp + zlen cur)) data = c).
      { change (stream_rest (Bio data bp) (lp + zlen cur) = c). rewrite rest_add by lia. fold un. rewrite Uc, skipn_app.
        replace (Z.to_nat (zlen cur)) with (length cur) by (unfold zlen; lia). now rewrite skipn_all, Nat.sub_diag. }
      assert (LEN : (length c < length (cur ++ c))%nat) by (rewrite app_length; destruct cur; [congruence|cbn; lia]).
      assert (DP : forall dd q, lpos (dec_packet E depth base) (Bio dd q) = q) by (intros; destruct depth; [lia|reflexivity]).
      unfold d_step. cbn [d_bio d_iter d_max d_managed]. rewrite EX. cbn [s_bio s_max]. destruct mg.
      * unfold bio_read. cbn [Z.ltb Z.compare b_pos b_data]. rewrite R2. unfold bio_new. rewrite update_ok by lia. cbn [app].
        eexists. split; [reflexivity|]. split; [reflexivity|]. split; [reflexivity|].
        cbn [d_bio d_iter d_max d_managed b_data b_pos]. rewrite DP.
        change (stream_rest (Bio c 0) 0) with c. split; [|rewrite Uc; exact LEN].
        split; [lia|]. split; [exact F|].
        destruct F as [|p2 bs2 ps2 bss2 (Nb2 & Hp2) F2]; [split; [exact Ec|right; auto]|].
        destruct (Hp2 0) as (m2 & Hm2). exists [], bs2, m2. auto.
      * eexists. split; [reflexivity|]. split; [reflexivity|]. split; [reflexivity|].
        cbn [d_bio d_iter d_max d_managed b_data b_pos]. rewrite DP.
        change (stream_rest (Bio data (lp + zlen cur)) (lp + zlen cur)) with (skipn (Z.to_nat (lp + zlen cur)) data). rewrite R2.
        split; [|rewrite Uc; exact LEN].
        split; [lia|]. split; [exact F|].
        destruct F as [|p2 bs2 ps2 bss2 (Nb2 & Hp2) F2]; [split; [exact Ec|right; auto]|].
        destruct (Hp2 (lp + zlen cur)) as (m2 & Hm2). exists [], bs2, m2. auto.
    + right. destruct (exec_partial _ _ _ _ _ _ X data bp c eq_refl L Uc Nc) as (p' & bp' & m1 & bs' & E1 & L1 & P1 & E2 & R1).
      eexists. unfold d_step. cbn [d_bio d_iter d_max d_managed]. rewrite E1. cbn [s_bio s_max]. split; [reflexivity|].
      cbn [d_bio d_iter d_max d_managed b_data b_pos].
      assert (RL : zlen un = zlen data - lp) by (apply rest_le; lia).
      assert (SU : un = firstn (Z.to_nat (lpos p' (Bio data bp') - lp)) un ++ stream_rest (Bio data bp') (lpos p' (Bio data bp'))).
      { rewrite <- (firstn_skipn (Z.to_nat (lpos p' (Bio data bp') - lp)) un) at 1. f_equal.
        unfold un, stream_rest. cbn [b_data]. rewrite skipn_skipn. f_equal. lia. }
      split; [|exists (pre ++ un), c; split; [exact Nc|]; split; [rewrite Eb, <- Uc; now rewrite app_assoc|exact Ec]].
      split; [lia|]. split; [constructor; [split; auto|exact F]|].
      eexists (pre ++ firstn _ un), bs', m'. split; [|split; [|split; [|exact E2]]].
      * rewrite Eb, <- app_assoc. f_equal. rewrite <- Uc, <- R1, app_assoc. f_equal. exact SU.
      * rewrite <- R1. intro Z. apply app_eq_nil in Z. tauto.
      * rewrite Ec, <- R1. now rewrite <- app_assoc.
Qed.

Lemma expects_new depth base ps bss : Forall2 (eaten depth base) ps bss -> (0 < depth)%nat ->
  expects depth base (d_new E depth base) ps bss (concat bss).
Proof.
  intros F D. unfold expects, dwf, unread, d_new, bio_new. cbn [d_bio d_iter d_max b_data b_pos].
  assert (DP : forall dd q, lpos (dec_packet E depth base) (Bio dd q) = q) by (intros; destruct depth; [lia|reflexivity]).
  rewrite DP. cbn. split; [lia|]. split; [exact F|].
  destruct F as [|p bs ps bss (Nb & Hp) F]; [auto|]. destruct (Hp 0) as (m2 & Hm2). exists [], bs, m2. auto.
Qed.

(** nextPackets() drained *)
Lemma expects_drain depth base future : (0 < depth)%nat -> forall fuel d ps bss, expects depth base d ps bss future ->
  (length (unread d) < fuel)%nat ->
  exists d' k, d_drain E fuel depth base d = (d', map EvPacket (firstn k ps)) /\ (k <= length ps)%nat /\
    expects depth base d' (skipn k ps) (skipn k bss) future /\ drained (skipn k bss) future.
Proof.
  intro Dp. induction fuel as [|f IH]; intros d ps bss X L; [lia|]. cbn [d_drain].
  destruct (expects_step depth base d ps bss future Dp X) as [(p & ps' & bs & bss' & d' & -> & -> & S1 & X1 & L1)|(d' & S1 & X1 & D1)]; rewrite S1.
  - destruct (IH d' ps' bss' X1) as (d2 & k & S2 & K2 & X2 & D2); [lia|]. rewrite S2.
    exists d2, (S k). cbn. repeat split; auto; lia || apply X2.
  - exists d', 0%nat. cbn. repeat split; auto; lia || apply X1.
Qed.
Lemma unread_le d : (length (unread d) <= length (b_data (d_bio d)))%nat.
Proof. unfold unread, stream_rest. rewrite skipn_length. lia. Qed.
Lemma expects_next depth base future d ps bss : (0 < depth)%nat -> expects depth base d ps bss future ->
  exists d' k, d_next_packets E depth base d = (d', map EvPacket (firstn k ps)) /\ (k <= length ps)%nat /\
    expects depth base d' (skipn k ps) (skipn k bss) future /\ drained (skipn k bss) future.
Proof. intros D X. apply expects_drain; auto. pose proof (unread_le d). lia. Qed.

(** any schedule *)
Definition fed (os : list dop) : bytes := flat_map (fun o => match o with DUpdate b => b | DNext => [] end) os.
Lemma expects_run depth base : (0 < depth)%nat -> forall os future d ps bss, expects depth base d ps bss (fed os ++ future) ->
  exists d' k, d_run E depth base os d = (d', map EvPacket (firstn k ps)) /\ (k <= length ps)%nat /\
    expects depth base d' (skipn k ps) (skipn k bss) future.
Proof.
  intro Dp. induction os as [|[b|] os IH]; intros future d ps bss X; cbn [d_run].
  - exists d, 0%nat. cbn. split; [reflexivity|]. split; [lia|exact X].
  - cbn [fed flat_map] in X. fold (fed os) in X. rewrite <- app_assoc in X. apply expects_update in X. apply IH in X. exact X.
  - cbn [fed flat_map app] in X. fold (fed os) in X.
    destruct (expects_step depth base d ps bss _ Dp X) as [(p & ps' & bs & bss' & d' & -> & -> & S1 & X1 & L1)|(d' & S1 & X1 & D1)]; rewrite S1.
    + destruct (IH _ _ _ _ X1) as (d2 & k & S2 & K2 & X2). rewrite S2. exists d2, (S k). cbn. split; [reflexivity|]. split; [lia|exact X2].
    + destruct (IH _ _ _ _ X1) as (d2 & k & S2 & K2 & X2). rewrite S2. exists d2, k. split; [reflexivity|]. split; [lia|exact X2].
Qed.

(** what [drained] says about the bytes received *)
Lemma drained_received (bss : list bytes) (x future : bytes) k : (k <= length bss)%nat ->
  x ++ future = concat bss -> drained (skipn k bss) future ->
  exists r, x = concat (firstn k bss) ++ r /\
    match nth_error bss k with Some bs => exists r2, bs = r ++ r2 /\ r2 <> [] | None => r = [] end.
Proof.
  intros K Ex D. assert (Q : concat bss = concat (firstn k bss) ++ concat (skipn k bss)) by (rewrite <- concat_app, firstn_skipn; reflexivity).
  rewrite Q in Ex. destruct (skipn k bss) as [|bs bss'] eqn:Sk.
  - cbn in D. subst future. cbn in Ex. rewrite !app_nil_r in Ex. exists []. rewrite app_nil_r. split; [exact Ex|].
    assert (length bss <= k)%nat by (pose proof (skipn_length k bss) as SL; rewrite Sk in SL; cbn in SL; lia).
    apply nth_error_None in H. now rewrite H.
  - destruct D as (pre & r & Nr & -> & ->). cbn [concat] in Ex. exists pre.
    assert (nth_error bss k = Some (pre ++ r)) as ->.
    { rewrite <- (firstn_skipn k bss), Sk, nth_error_app2 by (rewrite firstn_length; lia). rewrite firstn_length.
      replace (k - Nat.min k (length bss))%nat with 0%nat by lia. reflexivity. }
    split; [|exists r; auto]. apply (app_inv_tail (r ++ concat bss')). rewrite Ex, <- !app_assoc. reflexivity.
Qed.
End D.
