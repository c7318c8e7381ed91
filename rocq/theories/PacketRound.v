(** * Encoding and decoding are inverse *)
From Coq Require Import List ZArith Bool Lia.
From Verif Require Import PyBase PyLemmas Utf8Model Utf8Proofs StreamModel StreamProofs AddrModel FloatModel FloatSpec FloatProofs PacketModel PacketSpec PacketTags PacketExec.
Import ListNotations.
Open Scope Z_scope.

Lemma zlen_be n v : zlen (be_enc n v) = Z.of_nat n.
Proof. unfold zlen. now rewrite be_enc_length. Qed.

Section ValInd.
  Variable P : val -> Prop.
  Definition optP (o : option val) : Prop := match o with Some v => P v | None => True end.
  Hypothesis Hs : forall x, P (VScalar x).
  Hypothesis Hstr : forall s, P (VStr s).
  Hypothesis Hbuf : forall b, P (VBuf b).
  Hypothesis Hl : forall l, Forall optP l -> P (VList l).
  Hypothesis Hf : forall l, Forall optP l -> P (VFields l).
  Hypothesis Hp : forall c l, Forall optP l -> P (VPacket c l).
  Fixpoint val_ind2 (v : val) : P v :=
    let go := fix go (l : list (option val)) : Forall optP l :=
      match l with
      | [] => Forall_nil _
      | o :: r => @Forall_cons _ optP o r (match o return optP o with Some x => val_ind2 x | None => I end) (go r)
      end in
    match v with
    | VScalar x => Hs x | VStr s => Hstr s | VBuf b => Hbuf b
    | VList l => Hl l (go l) | VFields l => Hf l (go l) | VPacket c l => Hp c l (go l)
    end.
End ValInd.

(** ** Scalars *)
Lemma int_width_spec a w : width_for (declared_max a) w -> int_width a = Ok w /\ int_bytes a = Z.of_nat w.
Proof.
  intros (I & U & L).
  assert (DM : match eff_max a with Some m => m | None => 2 ^ 32 - 1 end = declared_max a).
  { unfold eff_max, declared_max. destruct (at_max a); [reflexivity|]. destruct (at_bits a); reflexivity. }
  unfold int_width, int_bytes. rewrite DM. unfold max_width. set (m := declared_max a) in *.
  assert (L1 := L 1%nat ltac:(cbn; auto)). assert (L2 := L 2%nat ltac:(cbn; auto)). assert (L4 := L 4%nat ltac:(cbn; auto)).
  change (256 ^ Z.of_nat 1) with 256 in *. change (256 ^ Z.of_nat 2) with 65536 in *.
  change (256 ^ Z.of_nat 4) with 4294967296 in *.
  change (2 ^ 8) with 256. change (2 ^ 16) with 65536. change (2 ^ 32) with 4294967296. change (2 ^ 64) with 18446744073709551616.
  cbn in I. destruct I as [<-|[<-|[<-|[<-|[]]]]].
  - change (256 ^ Z.of_nat 1) with 256 in U. destruct (Z.ltb_spec m 256); [split; reflexivity|lia].
  - change (256 ^ Z.of_nat 2) with 65536 in U. specialize (L1 ltac:(lia)).
    destruct (Z.ltb_spec m 256); [lia|]. destruct (Z.ltb_spec m 65536); [split; reflexivity|lia].
  - change (256 ^ Z.of_nat 4) with 4294967296 in U. specialize (L1 ltac:(lia)). specialize (L2 ltac:(lia)).
    destruct (Z.ltb_spec m 256); [lia|]. destruct (Z.ltb_spec m 65536); [lia|].
    destruct (Z.ltb_spec m 4294967296); [split; reflexivity|lia].
  - change (256 ^ Z.of_nat 8) with 18446744073709551616 in U. specialize (L1 ltac:(lia)). specialize (L2 ltac:(lia)). specialize (L4 ltac:(lia)).
    destruct (Z.ltb_spec m 256); [lia|]. destruct (Z.ltb_spec m 65536); [lia|].
    destruct (Z.ltb_spec m 4294967296); [lia|]. destruct (Z.ltb_spec m 18446744073709551616); [split; reflexivity|lia].
Qed.
Lemma width_for_pos m w : width_for m w -> (0 < w <= 8)%nat.
Proof. intros (I & _). cbn in I. lia. Qed.
Lemma validate_iff a z : validate a z = true <-> satisfies a z.
Proof.
  unfold validate, satisfies, eff_max. rewrite !andb_true_iff.
  assert (S1 : forall (x y : Z), Some x = Some y -> x = y) by congruence.
  assert (S2 : forall (P : Z -> Prop) x, (forall n, Some x = Some n -> P n) <-> P x)
    by (intros P x; split; [auto|intros H n [= <-]; exact H]).
  assert (S3 : forall (P : Z -> Prop), (forall n, None = Some n -> P n) <-> True) by (intros P; split; [auto|discriminate]).
  assert (S4 : forall P : Prop, ((None : option Z) = None -> P) <-> P) by tauto.
  assert (S5 : forall (P : Prop) (x : Z), (Some x = None -> P) <-> True) by (intros; split; [auto|discriminate]).
  destruct (at_max a) as [m|], (at_min a) as [k|], (at_bits a) as [n|];
    rewrite ?S2, ?S3, ?S4, ?S5, ?Z.leb_le; intuition lia.
Qed.

Definition scalar_bytes (s : scalar) : Z := match s with SUint a | SInt a => int_bytes a | SBool => 1 | SFloat a => if declared_bits a =? 64 then 8 else 4 end.
Lemma validate_f_iff a b : validate_f a b = true <-> satisfies_f a b.
Proof.
  unfold validate_f, satisfies_f, eff_max. rewrite !andb_true_iff.
  assert (S2 : forall (P : Z -> Prop) x, (forall n, Some x = Some n -> P n) <-> P x)
    by (intros P x; split; [auto|intros H n [= <-]; exact H]).
  assert (S3 : forall (P : Z -> Prop), (forall n, None = Some n -> P n) <-> True) by (intros P; split; [auto|discriminate]).
  assert (S4 : forall P : Prop, ((None : option Z) = None -> P) <-> P) by tauto.
  assert (S5 : forall (P : Prop) (x : Z), (Some x = None -> P) <-> True) by (intros; split; [auto|discriminate]).
  destruct (at_max a) as [m|], (at_min a) as [k|], (at_bits a) as [n|];
    rewrite ?S2, ?S3, ?S4, ?S5, ?f64_le_int_iff, ?int_le_f64_iff; tauto.
Qed.
Lemma scalar_round s x : scalar_ok s x -> exists w bs, sc_width s = Ok w /\ (0 < w <= 8)%nat /\
  sc_enc s x = Ok bs /\ length bs = w /\ sc_dec s bs = Ok x /\ scalar_bytes s = Z.of_nat w.
Proof.
  destruct s as [a|a| |a], x as [z|b|b]; cbn [scalar_ok]; try tauto.
  - intros (Sat & w & W & R). destruct (int_width_spec a w W) as (Iw & Ib). exists w, (be_enc w z).
    pose proof (width_for_pos _ _ W). cbn [sc_width sc_enc sc_dec scalar_bytes]. rewrite Iw. cbn [bind]. unfold pack_u.
    replace (0 <=? z) with true by (symmetry; apply Z.leb_le; lia).
    replace (z <? 256 ^ Z.of_nat w) with true by (symmetry; apply Z.ltb_lt; lia). cbn [andb].
    repeat split; try lia; [apply be_enc_length|]. rewrite be_dec_enc by lia. unfold sc_set_int.
    replace (z <? 0) with false by (symmetry; apply Z.ltb_ge; lia). cbn [andb].
    apply validate_iff in Sat. now rewrite Sat.
  - intros (Sat & w & W & R). destruct (int_width_spec a w W) as (Iw & Ib).
    pose proof (width_for_pos _ _ W) as Hw. cbn [sc_width sc_enc sc_dec scalar_bytes]. rewrite Iw. cbn [bind].
    destruct (pack_s w z) as [bs|e] eqn:Pk.
    2:{ unfold pack_s in Pk. destruct (Z.leb_spec (- (256 ^ Z.of_nat w / 2)) z); [|lia].
        destruct (Z.ltb_spec z (256 ^ Z.of_nat w / 2)); [cbn in Pk; discriminate|lia]. }
    exists w, bs. destruct (pack_s_ok w z bs ltac:(lia) Pk) as (L & D & _).
    repeat split; try lia. rewrite L, D. unfold sc_set_int. cbn [andb]. apply validate_iff in Sat. now rewrite Sat.
  - intros _. exists 1%nat, [if b then 1 else 0]. destruct b; repeat split; cbn; lia.
  - intros (D & Sat & C). apply (validate_f_iff a b) in Sat. cbn [sc_width sc_enc sc_dec scalar_bytes]. unfold float_width, declared_bits in *.
    destruct C as [(-> & Ex)| ->].
    + destruct (exact_round b Ex) as (c & T1 & S & T2). exists 4%nat, (be_enc 4 c). cbn [Z.eqb Pos.eqb bind Nat.eqb]. rewrite T1.
      cbn [bind]. rewrite be_dec_enc by exact S. rewrite T2, Sat. repeat split; try lia; apply be_enc_length.
    + exists 8%nat, (be_enc 8 b). cbn [Z.eqb Pos.eqb bind Nat.eqb].
      rewrite be_dec_enc by exact D. rewrite Sat. repeat split; try lia; apply be_enc_length.
Qed.

(** ** Unfolding the encoder *)
Section RT.
Variable E : env.

Definition enc_items (t : fty) : list (option val) -> res bytes :=
  fix enc_list (l : list (option val)) : res bytes :=
    match l with
    | [] => Ok []
    | Some x :: r => bind (enc E x t) (fun b => bind (enc_list r) (fun bs => Ok (b ++ bs)))
    | None :: _ => Raise StructError
    end.
Definition enc_fs : list (option val) -> list (pystr * fattr * fty) -> list Z -> res bytes :=
  fix enc_fields (vs : list (option val)) (fs : list (pystr * fattr * fty)) (tags : list Z) : res bytes :=
     match vs, fs, tags with
     | None :: vr, _ :: fr, _ :: tr => enc_fields vr fr tr
     | Some x :: vr, (_, ft) :: fr, tg :: tr =>
         bind (wrap (bind (pack_u 2 tg) (fun tb => bind (enc E x ft) (fun b => Ok (tb ++ b)))))
              (fun b => bind (enc_fields vr fr tr) (fun bs => Ok (b ++ bs)))
     | _, _, _ => Ok []
     end.
Definition enc_body (fs : list (pystr * fattr * fty)) (vs : list (option val)) : res bytes :=
  bind (process_fields (map fst fs)) (fun tags =>
  bind (check_unset (map fst fs) vs) (fun n =>
  bind (pack_u 2 n) (fun h =>
  bind (enc_fs vs fs tags) (fun bs => Ok (h ++ bs))))).
Lemma enc_list_eq t l : enc E (VList l) (TList t) =
  bind (pack_u 2 (zlen l)) (fun h => bind (enc_items t l) (fun bs => Ok (h ++ bs))).
Proof. reflexivity. Qed.
Lemma enc_fields_eq fs vs : enc E (VFields vs) (TFields fs) = enc_body fs vs.
Proof. reflexivity. Qed.
Lemma enc_packet_eq base c vs : enc E (VPacket c vs) (TPacket base) =
  bind (enc_body (c_fields (e_cls E c)) vs) (enc_header (c_ident (e_cls E c)) (c_version (e_cls E c))).
Proof. reflexivity. Qed.

Definition items_size (t : fty) : list (option val) -> Z :=
  fix go (l : list (option val)) := match l with
             | Some x :: r => wire_size E x t + go r
             | None :: r => go r
             | [] => 0 end.
Definition fs_size : list (option val) -> list (pystr * fattr * fty) -> Z :=
  fix go (vs : list (option val)) (fs : list (pystr * fattr * fty)) := match vs, fs with
             | Some x :: vr, (_, ft) :: fr => 2 + wire_size E x ft + go vr fr
             | None :: vr, _ :: fr => go vr fr
             | _, _ => 0 end.
Lemma size_list_eq t l : wire_size E (VList l) (TList t) = 2 + items_size t l.
Proof. reflexivity. Qed.
Lemma size_fields_eq fs vs : wire_size E (VFields vs) (TFields fs) = 2 + fs_size vs fs.
Proof. reflexivity. Qed.
Lemma size_packet_eq base c vs : wire_size E (VPacket c vs) (TPacket base) =
  18 + utf8_len (c_ident (e_cls E c)) + utf8_len (c_version (e_cls E c)) + 2 + fs_size vs (c_fields (e_cls E c)).
Proof. reflexivity. Qed.

(** ** What is shown of every part *)
Definition bounded (B : Z) (x : part) : Prop :=
  forall y, inside E y x -> (forall n, piece E (fst y) n -> n <= B) /\ (is_packet (fst y) -> B <= wire_size E (fst y) (snd y)).
Definition reads_back (d : nat) (B : Z) (x : part) (bs : bytes) : Prop :=
  forall pos m, lim_ok B m -> exists m', lim_ok B m' /\ eats (dec_ty (dec_packet E d) (snd x) None) pos m bs (fst x) m'.
Definition good (x : part) : Prop :=
  exists bs, enc E (fst x) (snd x) = Ok bs /\ zlen bs = wire_size E (fst x) (snd x) /\
    forall d B, depth_le E d x -> bounded B x -> 8 <= B -> reads_back d B x bs.

Lemma lim_le n B m : n <= B -> lim_ok B m -> lim_ok n m.
Proof. unfold lim_ok. lia. Qed.

Lemma set_items_in t l y : In y (set_items t l) -> snd y = t /\ In (Some (fst y)) l.
Proof.
  induction l as [|[v|] l IH]; cbn; [tauto| |].
  - intros [<-|H]; [cbn; auto|]. destruct (IH H). auto.
  - intro H. destruct (IH H). auto.
Qed.
Lemma set_fields_in fs : forall vs y, In y (set_fields fs vs) -> In (Some (fst y)) vs.
Proof.
  induction fs as [|[f t] fs IH]; intros vs y; cbn; [tauto|]. destruct vs as [|[v|] vs]; cbn; [tauto| |].
  - intros [<-|H]; [cbn; auto|]. eauto.
  - intro H. eauto.
Qed.

(** lists *)
Lemma items_good t l : ~ In None l -> (forall y, In y (set_items t l) -> good y) ->
  exists bs, enc_items t l = Ok bs /\ zlen bs = items_size t l /\
    forall d B, (forall y, In y (set_items t l) -> depth_le E d y /\ bounded B y) -> 8 <= B ->
    forall pos m acc, lim_ok B m -> exists m', lim_ok B m' /\
      eats (dec_items (dec_ty (dec_packet E d) t None) (length l) acc) pos m bs (VList (acc ++ l)) m'.
Proof.
  induction l as [|[v|] l IH]; intros N G; [| |destruct N; now left].
  - exists []. split; [reflexivity|]. split; [reflexivity|]. intros d B _ _ pos m acc Lm. exists m. split; [exact Lm|].
    rewrite app_nil_r. constructor.
  - destruct IH as (bs & Eb & Sb & Rb).
    { intro I. apply N. now right. }
    { intros y Hy. apply G. cbn. now right. }
    destruct (G (v, t)) as (b & Ev & Sv & Rv); [cbn; now left|]. cbn [fst snd] in *.
    exists (b ++ bs). cbn [enc_items items_size]. fold (enc_items t). rewrite Ev. cbn [bind]. rewrite Eb. cbn [bind].
    split; [reflexivity|]. split; [rewrite zlen_app; fold (items_size t); lia|].
    intros d B C B8 pos m acc Lm. destruct (C (v, t)) as (Dv & Bv); [cbn; now left|].
    destruct (Rv d B Dv Bv B8 pos m Lm) as (m1 & L1 & E1). cbn [fst snd] in E1.
    destruct (Rb d B (fun y Hy => C y (or_intror Hy)) B8 (pos + zlen b) m1 (acc ++ [Some v]) L1) as (m2 & L2 & E2).
    exists m2. split; [exact L2|]. cbn [dec_items length]. eapply eats_bind; [apply eats_wrap, E1|].
    rewrite <- app_assoc in E2. exact E2.
Qed.

(** fields *)
Lemma check_unset_ok fs : forall vs, required_set fs vs -> length vs = length fs ->
  check_unset (map fst fs) vs = Ok (zlen (set_fields fs vs)).
Proof.
  induction fs as [|[[n fa] t] fs IH]; intros vs; destruct vs as [|v vs]; cbn [map check_unset set_fields required_set length fst]; try discriminate; auto.
  intros (Hv & R) L. apply Nat.succ_inj in L. rewrite (IH vs R L). destruct v as [v|]; cbn [bind].
  - f_equal. rewrite zlen_cons. reflexivity.
  - now rewrite Hv.
Qed.
Lemma index_of_app t l1 l2 : ~ In t l1 -> index_of t (l1 ++ t :: l2) = Some (length l1).
Proof.
  induction l1 as [|x l1 IH]; cbn; intro N.
  - now rewrite Z.eqb_refl.
  - destruct (Z.eqb_spec t x) as [->|]; [tauto|]. fold (index_of t (l1 ++ t :: l2)). rewrite IH by tauto. reflexivity.
Qed.
Lemma set_nth_app {A} (l1 l2 : list A) x y : set_nth (length l1) x (l1 ++ y :: l2) = l1 ++ x :: l2.
Proof. induction l1 as [|z l1 IH]; cbn; [reflexivity|now rewrite IH]. Qed.
Lemma nth_app_len {A} (l1 l2 : list A) x d : nth (length l1) (l1 ++ x :: l2) d = x.
Proof. induction l1; cbn; auto. Qed.

Lemma fs_good vs : forall fs tags, length vs = length fs -> length tags = length fs ->
  Forall (fun t => 0 <= t < 2 ^ 16) tags -> (forall y, In y (set_fields fs vs) -> good y) ->
  exists bs, enc_fs vs fs tags = Ok bs /\ zlen bs = fs_size vs fs /\
    forall d B, (forall y, In y (set_fields fs vs) -> depth_le E d y /\ bounded B y) -> 8 <= B ->
    forall vs0 fs0 tags0, length vs0 = length fs0 -> length tags0 = length fs0 -> NoDup (tags0 ++ tags) ->
    forall pos m, lim_ok B m -> exists m', lim_ok B m' /\
      eats (dec_fields_loop (tags0 ++ tags) (map (fun f => dec_ty (dec_packet E d) (snd f)) (fs0 ++ fs))
              (length (set_fields fs vs)) (vs0 ++ map (fun _ => None) fs)) pos m bs (vs0 ++ vs, false) m'.
Proof.
  induction vs as [|v vs IH]; intros fs tags Lv Lt Rt G; destruct fs as [|[f ft] fs]; try discriminate; destruct tags as [|tg tags]; try discriminate.
  { exists []. split; [reflexivity|]. split; [reflexivity|]. intros. exists m. split; auto. cbn. rewrite !app_nil_r. constructor. }
  injection Lv as Lv. injection Lt as Lt. inversion Rt as [|? ? Htg Rt']; subst.
  destruct v as [v|].
  - destruct (IH fs tags Lv Lt Rt') as (bs & Eb & Sb & Rb).
    { intros y Hy. apply G. now right. }
    destruct (G (v, ft)) as (b & Ev & Sv & Rv); [now left|]. cbn [fst snd] in *.
    assert (Ptg : pack_u 2 tg = Ok (be_enc 2 tg)).
    { unfold pack_u. change (256 ^ Z.of_nat 2) with (2 ^ 16). destruct (Z.leb_spec 0 tg); [|lia]. destruct (Z.ltb_spec tg (2 ^ 16)); [|lia]. reflexivity. }
    exists ((be_enc 2 tg ++ b) ++ bs). cbn [enc_fs]. fold enc_fs. rewrite Ptg. cbn [bind]. rewrite Ev. cbn [bind wrap]. rewrite Eb. cbn [bind].
    split; [reflexivity|]. split.
    { rewrite !zlen_app. cbn [fs_size]. fold fs_size. rewrite Sb, Sv. unfold zlen. rewrite be_enc_length. lia. }
    intros d B C B8 vs0 fs0 tags0 L1 L2 ND pos m Lm. cbn [set_fields length dec_fields_loop map].
    destruct (C (v, ft)) as (Dv & Bv); [now left|].
    destruct (Rv d B Dv Bv B8 (pos + 2) m Lm) as (m1 & Lm1 & E1). cbn [fst snd] in E1.
    destruct (Rb d B (fun y Hy => C y (or_intror Hy)) B8 (vs0 ++ [Some v]) (fs0 ++ [(f, ft)]) (tags0 ++ [tg])) with (pos := pos + 2 + zlen b) (m := m1) as (m2 & Lm2 & E2).
    { rewrite !app_length. cbn. lia. } { rewrite !app_length. cbn. lia. } { rewrite <- app_assoc. exact ND. } { exact Lm1. }
    exists m2. split; [exact Lm2|]. rewrite <- !app_assoc in E2. cbn [app] in E2.
    rewrite <- app_assoc. apply eats_need'; [eapply lim_le; [|exact Lm]; lia|unfold zlen; rewrite be_enc_length; reflexivity|].
    rewrite be_dec_enc by (change (256 ^ Z.of_nat 2) with (2 ^ 16); lia).
    rewrite index_of_app by (intro I; apply NoDup_remove_2 in ND; apply ND, in_or_app; auto).
    cbv zeta iota beta. replace (length tags0) with (length (map (fun f0 => dec_ty (dec_packet E d) (snd f0)) fs0)) at 1 by (rewrite map_length; lia).
    rewrite map_app. cbn [map]. rewrite nth_app_len.
    replace (length tags0) with (length vs0) by lia. rewrite nth_app_len, set_nth_app || rewrite nth_app_len.
    eapply eats_bind; [apply eats_wrap, E1|]. rewrite set_nth_app. rewrite map_app in E2. exact E2.
  - destruct (IH fs tags Lv Lt Rt') as (bs & Eb & Sb & Rb).
    { intros y Hy. apply G. exact Hy. }
    exists bs. split; [exact Eb|]. split; [exact Sb|].
    intros d B C B8 vs0 fs0 tags0 L1 L2 ND pos m Lm. cbn [set_fields map].
    destruct (Rb d B C B8 (vs0 ++ [None]) (fs0 ++ [(f, ft)]) (tags0 ++ [tg])) with (pos := pos) (m := m) as (m2 & Lm2 & E2).
    { rewrite !app_length. cbn. lia. } { rewrite !app_length. cbn. lia. } { rewrite <- app_assoc. exact ND. } { exact Lm. }
    exists m2. split; [exact Lm2|]. rewrite <- !app_assoc in E2. exact E2.
Qed.

Lemma body_good fs vs : fields_ok fs vs -> required_set fs vs -> (forall y, In y (set_fields fs vs) -> good y) ->
  exists bs, enc_body fs vs = Ok bs /\ zlen bs = 2 + fs_size vs fs /\
    forall d B, (forall y, In y (set_fields fs vs) -> depth_le E d y /\ bounded B y) -> 8 <= B ->
    forall pos m, lim_ok B m -> exists m', lim_ok B m' /\
      eats (dec_fields (map fst fs) (map (fun f => dec_ty (dec_packet E d) (snd f)) fs) (map (fun _ => None) fs))
           pos m bs (vs, false) m'.
Proof.
  intros (Lv & Cn & tags & T & Rt) Rq G.
  pose proof (tagging_len _ _ T) as Lt. rewrite map_length in Lt.
  destruct (fs_good vs fs tags Lv Lt Rt G) as (bs & Eb & Sb & Rb).
  assert (Pt : process_fields (map fst fs) = Ok tags) by now apply process_fields_iff.
  pose proof (zlen_nonneg (set_fields fs vs)) as Nn. set (n := zlen (set_fields fs vs)) in *.
  assert (Pn : pack_u 2 n = Ok (be_enc 2 n)).
  { unfold pack_u. change (256 ^ Z.of_nat 2) with (2 ^ 16). destruct (Z.leb_spec 0 n); [|lia]. destruct (Z.ltb_spec n (2 ^ 16)); [|lia]. reflexivity. }
  exists (be_enc 2 n ++ bs). unfold enc_body. rewrite Pt. cbn [bind]. rewrite (check_unset_ok fs vs Rq Lv). fold n. cbn [bind]. rewrite Pn. cbn [bind]. rewrite Eb. cbn [bind].
  split; [reflexivity|]. split; [rewrite zlen_app, Sb; unfold zlen; rewrite be_enc_length; lia|].
  intros d B C B8 pos m Lm.
  destruct (Rb d B C B8 [] [] [] eq_refl eq_refl (tagging_nodup _ _ T) (pos + 2) m Lm) as (m' & Lm' & E'). cbn [app] in E'.
  exists m'. split; [exact Lm'|]. unfold dec_fields. eapply eats_lift; [exact Pt|].
  apply eats_need'; [eapply lim_le; [|exact Lm]; lia|unfold zlen; rewrite be_enc_length; reflexivity|].
  rewrite be_dec_enc by (change (256 ^ Z.of_nat 2) with (2 ^ 16); lia).
  replace (Z.to_nat n) with (length (set_fields fs vs)) by (unfold n, zlen; lia). exact E'.
Qed.

(** header *)
Lemma lxor_ones_range a : 0 <= a < 2 ^ 64 -> 0 <= Z.lxor a u64_ones < 2 ^ 64.
Proof.
  intros R. split; [apply Z.lxor_nonneg; unfold u64_ones; lia|].
  destruct (Z.eq_dec (Z.lxor a u64_ones) 0) as [->|N]; [reflexivity|].
  assert (0 <= Z.lxor a u64_ones) by (apply Z.lxor_nonneg; unfold u64_ones; lia).
  apply Z.log2_lt_pow2; [lia|]. eapply Z.le_lt_trans; [apply Z.log2_lxor; unfold u64_ones; lia|].
  apply Z.max_lub_lt; [|reflexivity]. destruct (Z.eq_dec a 0) as [->|]; [reflexivity|]. apply Z.log2_lt_pow2; lia.
Qed.
Lemma pack_ok n v : 0 <= v < 256 ^ Z.of_nat n -> pack_u n v = Ok (be_enc n v).
Proof.
  intros R. unfold pack_u. destruct (Z.leb_spec 0 v); [|lia]. destruct (Z.ltb_spec v (256 ^ Z.of_nat n)); [reflexivity|lia].
Qed.
Lemma header_made L : 0 <= L < 2 ^ 64 -> header_len (be_enc 8 L ++ be_enc 8 (Z.lxor L u64_ones)) = Some L.
Proof.
  intro R. unfold header_len.
  assert (F : firstn 8 (be_enc 8 L ++ be_enc 8 (Z.lxor L u64_ones)) = be_enc 8 L).
  { rewrite firstn_app, be_enc_length, Nat.sub_diag, firstn_O, app_nil_r. apply firstn_all2. rewrite be_enc_length. lia. }
  assert (S : firstn 8 (skipn 8 (be_enc 8 L ++ be_enc 8 (Z.lxor L u64_ones))) = be_enc 8 (Z.lxor L u64_ones)).
  { rewrite skipn_app, be_enc_length, Nat.sub_diag. rewrite skipn_all2 by (rewrite be_enc_length; lia). cbn [app skipn].
    apply firstn_all2. rewrite be_enc_length. lia. }
  rewrite F, S. pose proof (lxor_ones_range L R).
  rewrite !be_dec_enc by (change (256 ^ Z.of_nat 8) with (2 ^ 64); lia).
  rewrite Z.lxor_assoc, Z.lxor_nilpotent, Z.lxor_0_r, Z.eqb_refl. reflexivity.
Qed.

Lemma inside_child y x z : In z (children E x) -> inside E y z -> inside E y x.
Proof. intros. econstructor; eauto. Qed.
Lemma depth_child d x z : depth_le E d x -> ~ is_packet (fst x) -> In z (children E x) -> depth_le E d z.
Proof. intros D N I. inversion D; subst; cbn in N; [tauto|auto]. Qed.
Lemma bounded_child B x z : bounded B x -> In z (children E x) -> bounded B z.
Proof. intros H I y Hy. apply H. eapply inside_child; eauto. Qed.

Lemma optP_in (P : val -> Prop) l v : Forall (optP P) l -> In (Some v) l -> P v.
Proof. intros F I. rewrite Forall_forall in F. exact (F _ I). Qed.

Lemma all_good v : forall t, encodable E (v, t) -> complete E (v, t) -> good (v, t).
Proof.
  induction v as [x|s|b|l IH|l IH|c l IH] using val_ind2; intros t En Co;
    pose proof (En _ (in_self E _)) as P0; pose proof (Co _ (in_self E _)) as C0.
  - destruct t as [s| | | | |]; try (exfalso; exact P0). destruct (scalar_round s x P0) as (w & bs & W1 & W2 & W3 & W4 & W5 & W6).
    exists bs. cbn [fst snd enc]. split; [exact W3|]. split.
    { unfold zlen. rewrite W4. destruct s; cbn in *; lia. }
    intros d B _ _ B8 pos m Lm. exists m. split; [exact Lm|]. cbn [fst snd dec_ty]. unfold dec_scalar.
    eapply eats_lift; [exact W1|]. rewrite <- (app_nil_r bs).
    apply eats_need'; [eapply lim_le; [|exact Lm]; lia|unfold zlen; lia|]. eapply eats_lift; [exact W5|]. constructor.
  - destruct t as [| | | | |]; try (exfalso; exact P0). destruct P0 as (As & Ln). pose proof (zlen_nonneg s) as Ns.
    exists (be_enc 2 (zlen s) ++ s). cbn [fst snd enc]. split.
    { unfold enc_string. destruct (Z.ltb_spec (2 ^ 16) (zlen s)); [lia|]. rewrite (utf8_enc_ascii s As). cbn [bind].
      rewrite pack_ok by (change (256 ^ Z.of_nat 2) with (2 ^ 16); lia). cbn [bind]. unfold pack_s_bytes.
      rewrite firstn_all2 by (unfold zlen; lia). replace (Z.to_nat (zlen s) - length s)%nat with 0%nat by (unfold zlen; lia).
      cbn [repeat]. now rewrite app_nil_r. }
    split; [rewrite zlen_app; unfold zlen at 1; rewrite be_enc_length; reflexivity|].
    intros d B _ Bd B8 pos m Lm. exists m. split; [exact Lm|]. cbn [fst snd dec_ty]. unfold dec_string.
    assert (zlen s <= B) by (apply (proj1 (Bd _ (in_self E _))); reflexivity).
    apply eats_need'; [eapply lim_le; [|exact Lm]; lia|unfold zlen; rewrite be_enc_length; reflexivity|].
    rewrite be_dec_enc by (change (256 ^ Z.of_nat 2) with (2 ^ 16); lia). rewrite <- (app_nil_r s) at 2.
    apply eats_need'; [eapply lim_le; [|exact Lm]; lia|reflexivity|]. eapply eats_lift; [apply utf8_dec_ascii, As|]. constructor.
  - destruct t as [| | | | |]; try (exfalso; exact P0). destruct P0 as (Ob & Ln). pose proof (zlen_nonneg b) as Nb.
    exists (be_enc 8 (zlen b) ++ b). cbn [fst snd enc]. split.
    { unfold enc_buffer. destruct (Z.ltb_spec (2 ^ 64) (zlen b)); [lia|].
      rewrite pack_ok by (change (256 ^ Z.of_nat 8) with (2 ^ 64); lia). reflexivity. }
    split; [rewrite zlen_app; unfold zlen at 1; rewrite be_enc_length; reflexivity|].
    intros d B _ Bd B8 pos m Lm. exists m. split; [exact Lm|]. cbn [fst snd dec_ty]. unfold dec_buffer.
    assert (zlen b <= B) by (apply (proj1 (Bd _ (in_self E _))); reflexivity).
    apply eats_need'; [eapply lim_le; [|exact Lm]; lia|unfold zlen; rewrite be_enc_length; reflexivity|].
    rewrite be_dec_enc by (change (256 ^ Z.of_nat 8) with (2 ^ 64); lia). rewrite <- (app_nil_r b) at 2.
    apply eats_need'; [eapply lim_le; [|exact Lm]; lia|reflexivity|]. constructor.
  - destruct t as [| | |t| |]; try (exfalso; exact P0). pose proof (zlen_nonneg l) as Nl. change (zlen l < 2 ^ 16) in P0.
    assert (G : forall y, In y (set_items t l) -> good y).
    { intros [y ty] Hy. destruct (set_items_in _ _ _ Hy) as (Ht & Hv). cbn [fst snd] in *. subst ty.
      apply (optP_in _ _ _ IH Hv).
      - intros z Hz. apply En. eapply inside_child; [|exact Hz]. exact Hy.
      - intros z Hz. apply Co. eapply inside_child; [|exact Hz]. exact Hy. }
    destruct (items_good t l C0 G) as (bs & Eb & Sb & Rb).
    exists (be_enc 2 (zlen l) ++ bs). cbn [fst snd]. rewrite enc_list_eq, size_list_eq.
    rewrite pack_ok by (change (256 ^ Z.of_nat 2) with (2 ^ 16); lia). cbn [bind]. rewrite Eb. cbn [bind].
    split; [reflexivity|]. split; [rewrite zlen_app, Sb; unfold zlen; rewrite be_enc_length; lia|].
    intros d B D Bd B8 pos m Lm. cbn [fst snd dec_ty]. unfold dec_list.
    destruct (Rb d B) with (pos := pos + 2) (m := m) (acc := @nil (option val)) as (m' & Lm' & E'); auto.
    { intros y Hy. split; [eapply depth_child; [exact D|cbn; tauto|exact Hy]|eapply bounded_child; [exact Bd|exact Hy]]. }
    exists m'. split; [exact Lm'|].
    apply eats_need'; [eapply lim_le; [|exact Lm]; lia|unfold zlen; rewrite be_enc_length; reflexivity|].
    rewrite be_dec_enc by (change (256 ^ Z.of_nat 2) with (2 ^ 16); lia).
    replace (Z.to_nat (zlen l)) with (length l) by (unfold zlen; lia). exact E'.
  - destruct t as [| | | |fs|]; try (exfalso; exact P0).
    assert (G : forall y, In y (set_fields fs l) -> good y).
    { intros [y ty] Hy. pose proof (set_fields_in _ _ _ Hy) as Hv. cbn [fst snd] in *.
      apply (optP_in _ _ _ IH Hv).
      - intros z Hz. apply En. eapply inside_child; [|exact Hz]. exact Hy.
      - intros z Hz. apply Co. eapply inside_child; [|exact Hz]. exact Hy. }
    destruct (body_good fs l P0 C0 G) as (bs & Eb & Sb & Rb).
    exists bs. cbn [fst snd]. rewrite enc_fields_eq, size_fields_eq. split; [exact Eb|]. split; [exact Sb|].
    intros d B D Bd B8 pos m Lm. cbn [fst snd dec_ty].
    destruct (Rb d B) with (pos := pos) (m := m) as (m' & Lm' & E'); auto.
    { intros y Hy. split; [eapply depth_child; [exact D|cbn; tauto|exact Hy]|eapply bounded_child; [exact Bd|exact Hy]]. }
    exists m'. split; [exact Lm'|]. rewrite <- (app_nil_r bs). eapply eats_bind; [exact E'|]. cbn [fst snd]. constructor.
  - destruct t as [| | | | |base]; try (exfalso; exact P0). destruct P0 as (((dd & Ud & Ld) & (vv & ver & Uv & Lv & Pv & Lk) & Sub) & Fo & Sz).
    set (cl := e_cls E c) in *. set (fs := c_fields cl) in *.
    assert (G : forall y, In y (set_fields fs l) -> good y).
    { intros [y ty] Hy. pose proof (set_fields_in _ _ _ Hy) as Hv. cbn [fst snd] in *.
      apply (optP_in _ _ _ IH Hv).
      - intros z Hz. apply En. eapply inside_child; [|exact Hz]. exact Hy.
      - intros z Hz. apply Co. eapply inside_child; [|exact Hz]. exact Hy. }
    destruct (body_good fs l Fo C0 G) as (bs & Eb & Sb & Rb).
    pose proof (zlen_nonneg dd) as Nd. pose proof (zlen_nonneg vv) as Nv. pose proof (zlen_nonneg bs) as Nb.
    set (tail := be_enc 1 (zlen dd) ++ dd ++ be_enc 1 (zlen vv) ++ vv ++ bs).
    assert (Lt : zlen tail = 2 + zlen dd + zlen vv + zlen bs).
    { unfold tail. rewrite !zlen_app, !zlen_be. lia. }
    cbn [fst snd] in Sz. rewrite size_packet_eq in Sz. unfold utf8_len in Sz. fold cl fs in Sz. rewrite Ud, Uv in Sz.
    set (L := 16 + zlen tail) in *. assert (RL : 0 <= L < 2 ^ 64) by (unfold L; lia).
    pose proof (lxor_ones_range L RL) as RX.
    exists (be_enc 8 L ++ be_enc 8 (Z.lxor L u64_ones) ++ tail).
    cbn [fst snd]. rewrite enc_packet_eq, size_packet_eq. fold cl fs. rewrite Eb. cbn [bind].
    unfold enc_header. rewrite Ud, Uv. cbn [bind].
    rewrite !pack_ok by (change (256 ^ Z.of_nat 1) with 256; lia). cbn [bind]. cbv zeta. fold tail. fold L.
    rewrite !pack_ok by (change (256 ^ Z.of_nat 8) with (2 ^ 64); lia). cbn [bind].
    split; [reflexivity|]. split.
    { unfold utf8_len. rewrite Ud, Uv. rewrite !zlen_app, Lt, Sb, !zlen_be. lia. }
    intros d B D Bd B8 pos m Lm. cbn [fst snd dec_ty].
    inversion D as [d' ? ? Hp Hc|? ? ? Hn]; subst; [|cbn in Hn; tauto]. cbn [dec_packet].
    pose proof (Bd _ (in_self E _)) as (Pc & Ws). cbn [fst snd] in Pc, Ws. specialize (Ws I). rewrite size_packet_eq in Ws.
    unfold piece in Pc. unfold utf8_len in Pc, Ws. fold cl in Pc, Ws. fold fs in Ws. rewrite Ud, Uv in Pc, Ws.
    assert (zlen dd <= B) by (apply Pc; auto). assert (zlen vv <= B) by (apply Pc; auto).
    assert (LL : lim_ok B L) by (right; unfold L; lia).
    destruct (Rb d' B) with (pos := pos + 16 + 1 + zlen dd + 1 + zlen vv) (m := L) as (m' & Lm' & E'); auto.
    { intros y Hy. split; [apply Hc; exact Hy|eapply bounded_child; [exact Bd|exact Hy]]. }
    exists m'. split; [exact Lm'|]. constructor.
    rewrite app_assoc. change ((be_enc 8 L ++ be_enc 8 (Z.lxor L u64_ones)) ++ tail) with ([] ++ (be_enc 8 L ++ be_enc 8 (Z.lxor L u64_ones)) ++ tail).
    econstructor.
    { eapply lim_le; [|exact Lm]; lia. }
    { rewrite app_length, !be_enc_length. reflexivity. }
    { apply header_made; exact RL. }
    { cbn. lia. }
    rewrite zlen_nil, Z.add_0_r. constructor.
    apply eats_need'; [eapply lim_le; [|exact LL]; lia|unfold zlen; rewrite be_enc_length; reflexivity|].
    rewrite be_dec_enc by (change (256 ^ Z.of_nat 1) with 256; lia).
    apply eats_need'; [eapply lim_le; [|exact LL]; lia|reflexivity|].
    eapply eats_lift; [apply (utf8_dec_enc _ _ Ud)|].
    apply eats_need'; [eapply lim_le; [|exact LL]; lia|unfold zlen; rewrite be_enc_length; reflexivity|].
    rewrite be_dec_enc by (change (256 ^ Z.of_nat 1) with 256; lia).
    apply eats_need'; [eapply lim_le; [|exact LL]; lia|reflexivity|].
    eapply eats_lift; [rewrite (utf8_dec_enc _ _ Uv); exact Pv|].
    eapply eats_lift; [exact Lk|]. cbv iota beta. rewrite Sub. cbn [negb]. cbv zeta. fold cl. fold fs.
    rewrite <- (app_nil_r bs). eapply eats_bind; [exact E'|]. constructor. cbn [fst snd].
    replace (L - (pos + 16 + 1 + zlen dd + 1 + zlen vv + zlen bs - pos)) with 0 by (unfold L; lia).
    rewrite Z.eqb_refl. constructor.
Qed.
End RT.
