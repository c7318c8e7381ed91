(** * Unset fields: encoding fails exactly when a required field is unset *)
From Coq Require Import List ZArith Bool Lia.
From Verif Require Import PyBase PyLemmas Utf8Model Utf8Proofs StreamModel StreamProofs AddrModel PacketModel PacketSpec PacketTags PacketExec PacketRound.
Import ListNotations.
Open Scope Z_scope.

Section U.
Variable E : env.
Definition framed (v : val) : Prop := match v with VFields _ | VPacket _ _ => True | _ => False end.
(** complete, or an error; the error of a packet or of fields is PacketEncodingError *)
Definition verdict (x : part) : Prop :=
  complete E x \/
  ~ complete E x /\ exists e, enc E (fst x) (snd x) = Raise e /\ (framed (fst x) -> e = PacketEncodingError).

Lemma complete_node x : part_complete E x -> (forall z, In z (children E x) -> complete E z) -> complete E x.
Proof. intros P C y I. inversion I as [|? z Hz Hq]; subst; [exact P|exact (C z Hz y Hq)]. Qed.
Lemma complete_child x z : complete E x -> In z (children E x) -> complete E z.
Proof. intros C H y I. apply C. econstructor; eauto. Qed.
Lemma encodable_child x z : encodable E x -> In z (children E x) -> encodable E z.
Proof. intros C H y I. apply C. econstructor; eauto. Qed.

Lemma items_verdict t l : (forall y, In y (set_items t l) -> encodable E y) -> (forall y, In y (set_items t l) -> verdict y) ->
  (~ In None l /\ forall y, In y (set_items t l) -> complete E y) \/
  ((In None l \/ exists y, In y (set_items t l) /\ ~ complete E y) /\ exists e, enc_items E t l = Raise e).
Proof.
  induction l as [|[v|] l IH]; intros En V.
  - left. split; [intros []|intros y []].
  - cbn [set_items] in *. destruct (V (v, t) (or_introl eq_refl)) as [C|(NC & e & Ee & _)].
    + destruct IH as [(N & A)|(B & e & Ee)]; [intros; apply En; now right|intros; apply V; now right| |].
      * left. split; [intros [H|H]; [discriminate|auto]|]. intros y [<-|H]; auto.
      * right. split; [destruct B as [B|(y & B1 & B2)]; [left; now right|right; exists y; split; [now right|exact B2]]|].
        destruct (all_good E v t (En _ (or_introl eq_refl)) C) as (b & Eb & _). cbn [fst snd] in Eb.
        exists e. cbn [enc_items]. fold (enc_items E t). now rewrite Eb, Ee.
    + right. split; [right; exists (v, t); split; [now left|exact NC]|]. exists e. cbn [fst snd] in Ee. cbn [enc_items]. now rewrite Ee.
  - right. split; [left; now left|]. exists StructError. reflexivity.
Qed.
Lemma fs_verdict vs : forall fs tags, length vs = length fs -> length tags = length fs -> Forall (fun t => 0 <= t < 2 ^ 16) tags ->
  (forall y, In y (set_fields fs vs) -> encodable E y) -> (forall y, In y (set_fields fs vs) -> verdict y) ->
  (forall y, In y (set_fields fs vs) -> complete E y) \/
  ((exists y, In y (set_fields fs vs) /\ ~ complete E y) /\ enc_fs E vs fs tags = Raise PacketEncodingError).
Proof.
  induction vs as [|v vs IH]; intros fs tags Lv Lt Rt En V; destruct fs as [|[f ft] fs]; try discriminate; destruct tags as [|tg tags]; try discriminate.
  { left. intros y []. }
  injection Lv as Lv. injection Lt as Lt. inversion Rt as [|? ? Htg Rt']; subst.
  destruct v as [v|]; cbn [set_fields] in *.
  - assert (Ptg : pack_u 2 tg = Ok (be_enc 2 tg)) by (apply pack_ok; change (256 ^ Z.of_nat 2) with (2 ^ 16); lia).
    cbn [enc_fs]. fold (enc_fs E). rewrite Ptg. cbn [bind].
    destruct (V (v, ft) (or_introl eq_refl)) as [C|(NC & e & Ee & _)].
    + destruct (all_good E v ft (En _ (or_introl eq_refl)) C) as (b & Eb & _). cbn [fst snd] in Eb.
      destruct (IH fs tags Lv Lt Rt') as [A|((y & Hy & Ny) & Ee)]; [intros; apply En; now right|intros; apply V; now right| |].
      * left. intros y [<-|H]; auto.
      * right. split; [exists y; split; [now right|exact Ny]|]. rewrite Eb. cbn [bind wrap]. now rewrite Ee.
    + right. split; [exists (v, ft); split; [now left|exact NC]|]. cbn [fst snd] in Ee. rewrite Ee. reflexivity.
  - cbn [enc_fs]. fold (enc_fs E). apply IH; auto.
Qed.
Lemma check_unset_bad fs : forall vs, length vs = length fs ->
  required_set fs vs \/ (~ required_set fs vs /\ check_unset (map fst fs) vs = Raise PacketEncodingError).
Proof.
  induction fs as [|[[n fa] t] fs IH]; intros vs; destruct vs as [|v vs]; cbn [map check_unset required_set length fst]; try discriminate; auto.
  intros L. apply Nat.succ_inj in L. destruct (IH vs L) as [R|(R & Er)].
  - destruct v as [v|].
    + left. split; [discriminate|exact R].
    + destruct (fa_opt fa); [left; auto|]. right. split; [|reflexivity]. intros (X & _). specialize (X eq_refl). discriminate.
  - right. split; [tauto|]. destruct v as [v|]; rewrite Er; [reflexivity|]. destruct (fa_opt fa); reflexivity.
Qed.
Lemma body_verdict fs vs : fields_ok fs vs ->
  (forall y, In y (set_fields fs vs) -> encodable E y) -> (forall y, In y (set_fields fs vs) -> verdict y) ->
  (required_set fs vs /\ forall y, In y (set_fields fs vs) -> complete E y) \/
  ((~ required_set fs vs \/ exists y, In y (set_fields fs vs) /\ ~ complete E y) /\ enc_body E fs vs = Raise PacketEncodingError).
Proof.
  intros (Lv & Cn & tags & T & Rt) En V. pose proof (tagging_len _ _ T) as Lt. rewrite map_length in Lt.
  assert (Pt : process_fields (map fst fs) = Ok tags) by now apply process_fields_iff.
  unfold enc_body. rewrite Pt. cbn [bind]. destruct (check_unset_bad fs vs Lv) as [R|(R & Er)].
  2:{ right. split; [now left|]. now rewrite Er. }
  rewrite (check_unset_ok fs vs R Lv). cbn [bind]. pose proof (zlen_nonneg (set_fields fs vs)).
  rewrite pack_ok by (change (256 ^ Z.of_nat 2) with (2 ^ 16); lia). cbn [bind].
  destruct (fs_verdict vs fs tags Lv Lt Rt En V) as [A|(A & Ee)]; [left; auto|right]. split; [now right|]. now rewrite Ee.
Qed.
Lemma all_verdict v : forall t, encodable E (v, t) -> verdict (v, t).
Proof.
  induction v as [x|s|b|l IH|l IH|c l IH] using val_ind2; intros t En; pose proof (En _ (in_self E _)) as P; destruct t as [sc| | |t|fs|base];
    unfold part_ok in P; cbn [fst snd] in P; try (now destruct P).
  - left. apply complete_node; [exact I|intros z []].
  - left. apply complete_node; [exact I|intros z []].
  - left. apply complete_node; [exact I|intros z []].
  - assert (V : forall y, In y (set_items t l) -> verdict y).
    { intros [y ty] Hy. destruct (set_items_in _ _ _ Hy) as (Ht & Hv). cbn [fst snd] in *. subst ty.
      apply (optP_in _ _ _ IH Hv). eapply encodable_child; [exact En|exact Hy]. }
    destruct (items_verdict t l) as [(N & A)|(B & e & Ee)]; [intros y Hy; eapply encodable_child; [exact En|exact Hy]|exact V| |].
    + left. apply complete_node; [exact N|exact A].
    + right. split.
      * intro C. destruct B as [B|(y & B1 & B2)]; [exact (C _ (in_self E _) B)|]. apply B2. eapply complete_child; [exact C|exact B1].
      * exists e. split; [|intros []]. cbn [fst snd]. rewrite enc_list_eq. pose proof (zlen_nonneg l).
        rewrite pack_ok by (change (256 ^ Z.of_nat 2) with (2 ^ 16); lia). cbn [bind]. now rewrite Ee.
  - assert (V : forall y, In y (set_fields fs l) -> verdict y).
    { intros [y ty] Hy. pose proof (set_fields_in _ _ _ Hy) as Hv. cbn [fst snd] in *.
      apply (optP_in _ _ _ IH Hv). eapply encodable_child; [exact En|exact Hy]. }
    destruct (body_verdict fs l P) as [(N & A)|(B & Ee)]; [intros y Hy; eapply encodable_child; [exact En|exact Hy]|exact V| |].
    + left. apply complete_node; [exact N|exact A].
    + right. split.
      * intro C. destruct B as [B|(y & B1 & B2)]; [exact (B (C _ (in_self E _)))|]. apply B2. eapply complete_child; [exact C|exact B1].
      * exists PacketEncodingError. split; [|reflexivity]. cbn [fst snd]. now rewrite enc_fields_eq.
  - destruct P as (_ & P & _). assert (V : forall y, In y (set_fields (c_fields (e_cls E c)) l) -> verdict y).
    { intros [y ty] Hy. pose proof (set_fields_in _ _ _ Hy) as Hv. cbn [fst snd] in *.
      apply (optP_in _ _ _ IH Hv). eapply encodable_child; [exact En|exact Hy]. }
    destruct (body_verdict _ l P) as [(N & A)|(B & Ee)]; [intros y Hy; eapply encodable_child; [exact En|exact Hy]|exact V| |].
    + left. apply complete_node; [exact N|exact A].
    + right. split.
      * intro C. destruct B as [B|(y & B1 & B2)]; [exact (B (C _ (in_self E _)))|]. apply B2. eapply complete_child; [exact C|exact B1].
      * exists PacketEncodingError. split; [|reflexivity]. cbn [fst snd]. rewrite enc_packet_eq, Ee. reflexivity.
Qed.
End U.
