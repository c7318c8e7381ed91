(** * The throughput test: proofs *)
From Coq Require Import String.
From Coq Require Import List ZArith Bool Lia.
From Verif Require Import PyBase PyLemmas Utf8Model Utf8Proofs StreamModel StreamProofs AddrModel PacketModel PacketSpec PacketTags PacketExec PacketRound PacketDeser PacketProgress EchoModel EchoSpec EchoProofs ThruModel ThruSpec.
Import ListNotations.
Open Scope Z_scope.

(** ** The packets *)
Section Packet.
  Variables (E : env) (c : nat).
  Hypothesis reg : test_registered E c.
  Lemma test_inside (P : part -> Prop) b :
    P (test_packet c b, TPacket c) -> P (VBuf b, TBuffer) -> forall y, inside E y (test_packet c b, TPacket c) -> P y.
  Proof.
    intros P0 P1 y Iy. destruct reg as (Ec & _). inversion Iy as [|? z Hz Hq]; subst; [exact P0|].
    unfold test_packet in Hz. cbn [children fst snd] in Hz. rewrite Ec in Hz. cbn [c_fields set_fields In] in Hz.
    destruct Hz as [<-|[]]; (inversion Hq as [|? z' Hz' _]; subst; [assumption|destruct Hz']).
  Qed.
  Lemma test_sendable b depth : sendable_data b -> (0 < depth)%nat -> sendable E depth c (test_packet c b).
  Proof.
    intros (A & L) Dp. destruct reg as (Ec & El & Es & _).
    assert (En : encodable E (test_packet c b, TPacket c)).
    { intros y Hy. apply (test_inside (part_ok E) b); [| |exact Hy].
      - cbn [part_ok fst snd test_packet]. split; [|split].
        + unfold class_ok. rewrite Ec. cbn [c_ident c_version]. split; [eexists; split; [reflexivity|cbn; lia]|].
          split; [do 2 eexists; split; [reflexivity|split; [cbn; lia|split; [reflexivity|exact El]]]|exact Es].
        + rewrite Ec. cbn [c_fields]. unfold fields_ok. split; [reflexivity|]. split; [vm_compute; reflexivity|].
          exists [0]. split; [apply process_fields_iff; vm_compute; reflexivity|repeat constructor; lia].
        + unfold test_packet. rewrite size_packet_eq. rewrite Ec. cbn [c_ident c_version c_fields fs_size wire_size].
          unfold zlen in L |- *. change (utf8_len (lit "testpacket")) with 10. change (utf8_len (lit "1.0")) with 3. lia.
      - cbn [part_ok fst snd]. split; [exact A|]. lia. }
    split; [exact En|]. split; [|split].
    - intros y Hy. apply (test_inside (part_complete E) b); [| |exact Hy]; cbn [part_complete fst snd test_packet]; try exact Logic.I.
      rewrite Ec. cbn [c_fields required_set]. repeat split; discriminate.
    - destruct depth as [|d]; [lia|]. apply dl_packet; [exact Logic.I|]. intros y Hy.
      unfold test_packet in Hy. cbn [children fst snd] in Hy. rewrite Ec in Hy. cbn [c_fields set_fields In] in Hy.
      destruct Hy as [<-|[]]; (apply dl_other; [cbn; tauto|intros z []]).
    - apply flat_fits; [exact En| |exact Logic.I]. intros z y Hz Hq.
      unfold test_packet in Hz. cbn [children fst snd] in Hz. rewrite Ec in Hz. cbn [c_fields set_fields In] in Hz.
      destruct Hz as [<-|[]]; (inversion Hq as [|? z' Hz' _]; subst; [cbn; tauto|destruct Hz']).
  Qed.
  Definition wire1 (b : bytes) : bytes := match serialize E (test_packet c b) with Ok x => x | Raise _ => [] end.
  Lemma wire1_ok b depth : sendable_data b -> (0 < depth)%nat ->
    serialize E (test_packet c b) = Ok (wire1 b) /\ eaten E depth c (test_packet c b) (wire1 b).
  Proof.
    intros M Dp. destruct (sendable_bytes E depth c _ (test_sendable b depth M Dp)) as (bs & Eb & Sb & _ & R).
    unfold wire1. rewrite Eb. split; [reflexivity|]. split; [|exact R]. intros ->. rewrite zlen_nil in Sb.
    unfold test_packet in Sb. pose proof (packet_size_ge E c c [Some (VBuf b)]). lia.
  Qed.
End Packet.

(** ** The state of a run that goes well *)
Record gh := Gh { gg : bool -> nat; gs : bool -> nat; gt : bool -> nat; gm : bool -> bool; ga : bool -> Z; ge : bool -> Z }.
Definition setb {A} (p : bool) (x : A) (f : bool -> A) : bool -> A := fun q => if Bool.eqb q p then x else f q.
Definition b2n (b : bool) : nat := if b then 1%nat else 0%nat.

Section State.
  Variables (hash : bytes -> bytes) (E : env) (c : nat) (depth : nat) (d1 d2 : list bytes) (f : bool).
  Hypothesis reg : test_registered E c.
  Hypothesis Dp : (0 < depth)%nat.
  Notation D p := (data_sent f p d1 d2).
  Hypothesis Ok1 : Forall sendable_data d1.
  Hypothesis Ok2 : Forall sendable_data d2.
  Lemma D_ok p : Forall sendable_data (D p).
  Proof. unfold data_sent. destruct (Bool.eqb p f); assumption. Qed.

  Definition fin (h : gh) (p : bool) : bool := negb (Nat.eqb (length (D (negb p))) 0) && Nat.eqb (gg h p) (length (D (negb p))).
  Definition pst (h : gh) (p : bool) : peer :=
    Peer (gm h p) (if gm h p then skipn (gs h p) (D p) else []) (if gm h p then skipn (gg h p) (D (negb p)) else []) (gt h p)
         (b2n (fin h true && fin h false)).
  Definition ent (h : gh) (p : bool) : entry := Entry (Bool.eqb p f) (D p) (D (negb p)) (gg h p) (ga h p) (ge h p).
  Definition table (h : gh) : list (key * entry) :=
    if gm h (negb f) then [(Proto f, ent h f); (Proto (negb f), ent h (negb f))] else [(Name2, ent h (negb f)); (Proto f, ent h f)].
  Definition mk (h : gh) (ns : list note) (sg : Z) (w : bool) (st : nat) : test :=
    Test (Cfg (table h) ns (b2n (fin h true) + b2n (fin h false)) 0 sg w) (pst h true) (pst h false) st.
  Definition gh_ok (h : gh) : Prop :=
    gm h f = true /\ forall p, (gg h p <= length (D (negb p)))%nat /\ (gs h p <= length (D p))%nat /\
      (if gm h p then gt h p = 0%nat -> gs h p = length (D p) else gt h p = 0%nat /\ gs h p = 0%nat /\ gg h p = 0%nat).

  Lemma eqb_refl_a (x : bytes) : eqb x x = true. Proof. unfold eqb. destruct (eq_dec x x); [reflexivity|contradiction]. Qed.
  Lemma eqb_refl_bool p : Bool.eqb p p = true. Proof. now destruct p. Qed.
  Lemma fin_other h p b : fin (Gh (setb p b (gg h)) (gs h) (gt h) (gm h) (ga h) (ge h)) (negb p) = fin h (negb p).
  Proof. unfold fin, setb. cbn [gg]. now destruct p. Qed.

  Lemma skipn_cons {A} n (l : list A) b r : skipn n l = b :: r -> length l = (n + S (length r))%nat /\ skipn (S n) l = r.
  Proof.
    intro H. split.
    - assert (L := skipn_length n l). rewrite H in L. cbn [length] in L. lia.
    - replace (S n) with (1 + n)%nat by lia. rewrite <- PyLemmas.skipn_skipn, H. reflexivity.
  Qed.

  (** one more packet *)
  Definition got (h : gh) (p : bool) (now : Z) (last : bool) : gh :=
    Gh (setb p (S (gg h p)) (gg h)) (gs h) (gt h) (gm h) (ga h) (if last then setb p now (ge h) else ge h).
  Lemma handle_one now p h ns sg w st b r : gm h p = true -> gm h f = true -> (forall q, gm h q = false -> gg h q = 0%nat) ->
    skipn (gg h p) (D (negb p)) = b :: r ->
    handle hash now p (mk h ns sg w st) (test_packet c b) =
      (mk (got h p now (match r with [] => true | _ => false end)) (ns ++ [NGot (Bool.eqb p f) (hash b) (hash b)]) sg w st, [], Next).
  Proof.
    intros Mp Mf Un Sk. destruct (skipn_cons _ _ _ _ Sk) as (Ln & Sr).
    assert (F0 : fin h p = false).
    { unfold fin. destruct (Nat.eqb_spec (gg h p) (length (D (negb p)))); [lia|]. apply andb_false_r. }
    set (last := match r with [] => true | _ => false end).
    assert (F1 : fin (got h p now last) p = last).
    { unfold fin, got, setb. cbn [gg]. rewrite eqb_refl_bool. destruct (Nat.eqb_spec (length (D (negb p))) 0); [lia|]. cbn [negb andb].
      unfold last. destruct r; [apply Nat.eqb_eq; cbn in Ln; lia|apply Nat.eqb_neq; cbn in Ln; lia]. }
    assert (F2 : fin (got h p now last) (negb p) = fin h (negb p)) by (unfold fin, got, setb; cbn [gg]; now destruct p).
    assert (F3 : fin h (negb p) = true -> gm h (negb p) = true).
    { intro X. destruct (gm h (negb p)) eqn:G; [reflexivity|]. apply Un in G. unfold fin in X. rewrite G in X. destruct (Nat.eqb_spec (length (D (negb (negb p)))) 0) as [Z|Z]; [discriminate|].
      cbn [negb andb] in X. apply Nat.eqb_eq in X. lia. }
    assert (SkS : forall q, skipn (gg (got h p now last) q) (D (negb q)) = if Bool.eqb q p then r else skipn (gg h q) (D (negb q))).
    { intro q. unfold got, setb. cbn [gg]. destruct (Bool.eqb q p) eqn:Q; [apply eqb_prop in Q; subst q; exact Sr|reflexivity]. }
    unfold mk, pst, table, ent. rewrite !SkS. unfold handle, peer_of.
    destruct p, f; cbn [negb Bool.eqb] in *; rewrite ?F1, ?F2, ?F0, ?Mp, ?Sk.
    all: try (destruct (gm h false) eqn:G); try (destruct (gm h true) eqn:G'); try discriminate.
    all: destruct r as [|x r]; subst last; cbn [andb b2n Nat.add]; rewrite ?andb_true_r, ?andb_false_r.
    all: try (destruct (fin h false) eqn:FF); try (destruct (fin h true) eqn:FT); try discriminate; try (specialize (F3 eq_refl); discriminate).
    all: cbn; rewrite !(eqb_refl_a (hash b)); cbn; rewrite ?G, ?G'; reflexivity.
  Qed.

  (** connected peers only receive while the other side was connected *)
  Lemma got_ok h p now last b r : gh_ok h -> gm h p = true -> skipn (gg h p) (D (negb p)) = b :: r -> gh_ok (got h p now last).
  Proof.
    intros (Mf & H) Mp Sk. destruct (skipn_cons _ _ _ _ Sk) as (Ln & _). split; [exact Mf|]. intro q. specialize (H q). unfold got, setb. cbn [gg gs gt gm].
    destruct (Bool.eqb q p) eqn:Q; [|exact H]. apply eqb_prop in Q. subst q. rewrite Mp in *. destruct H as (_ & H). split; [lia|exact H].
  Qed.
  Definition heard_note (p : bool) (b : bytes) : note := NGot (Bool.eqb p f) (hash b) (hash b).
  (** packets in a row *)
  Lemma handle_many now p sg w st : forall bs h ns r, gh_ok h -> gm h p = true -> skipn (gg h p) (D (negb p)) = bs ++ r ->
    exists h', go (handle hash now p) (mk h ns sg w st) (map (test_packet c) bs) = (mk h' (ns ++ map (heard_note p) bs) sg w st, [], [], true) /\
      gh_ok h' /\ gs h' = gs h /\ gt h' = gt h /\ gm h' = gm h /\ ga h' = ga h /\
      (forall q, gg h' q = if Bool.eqb q p then (gg h p + length bs)%nat else gg h q) /\
      (forall q, q <> p -> ge h' q = ge h q) /\
      (bs = [] -> ge h' p = ge h p) /\ (bs <> [] -> r = [] -> ge h' p = now) /\ (r <> [] -> ge h' p = ge h p).
  Proof.
    induction bs as [|b bs IH]; intros h ns r K Mp Sk; cbn [map go].
    - exists h. rewrite app_nil_r. split; [reflexivity|]. split; [exact K|]. repeat (split; [reflexivity|]). split; [|split; [reflexivity|split; [reflexivity|split; [contradiction|reflexivity]]]].
      intro q. destruct (Bool.eqb q p) eqn:Q; [apply eqb_prop in Q; subst; cbn; lia|reflexivity].
    - cbn [app] in Sk. assert (Un : forall q, gm h q = false -> gg h q = 0%nat) by (intros q X; destruct K as (_ & K); specialize (K q); rewrite X in K; tauto).
      rewrite (handle_one now p h ns sg w st b (bs ++ r) Mp (proj1 K) Un Sk).
      set (last := match bs ++ r with [] => true | _ => false end).
      destruct (skipn_cons _ _ _ _ Sk) as (Ln & Sr).
      destruct (IH (got h p now last) (ns ++ [NGot (Bool.eqb p f) (hash b) (hash b)]) r) as (h' & G & K' & A1 & A2 & A3 & A4 & A5 & A6 & A7 & A8 & A9).
      { eapply got_ok; eauto. } { exact Mp. }
      { unfold got, setb. cbn [gg]. rewrite eqb_refl_bool. exact Sr. }
      exists h'. rewrite G. split; [rewrite <- app_assoc; reflexivity|]. split; [exact K'|]. split; [exact A1|]. split; [exact A2|]. split; [exact A3|]. split; [exact A4|].
      assert (E0 : forall q, q <> p -> ge (got h p now last) q = ge h q).
      { intros q N. unfold got, setb. cbn [ge]. destruct last; [|reflexivity]. destruct (Bool.eqb q p) eqn:Q; [apply eqb_prop in Q; contradiction|reflexivity]. }
      split; [|split; [|split; [discriminate|split]]].
      + intro q. rewrite A5. unfold got, setb. cbn [gg]. rewrite eqb_refl_bool. destruct (Bool.eqb q p); [cbn [length]; lia|reflexivity].
      + intros q N. rewrite A6 by exact N. auto.
      + intros _ Z. destruct bs as [|b' bs]; [|apply A8; [discriminate|exact Z]]. rewrite A7 by reflexivity. subst r. unfold got, setb, last. cbn [ge app]. now rewrite eqb_refl_bool.
      + intro N. rewrite A9 by exact N. unfold got, last. cbn [ge]. destruct (bs ++ r) eqn:Q; [|reflexivity]. apply app_eq_nil in Q. tauto.
  Qed.

  (** transmit *)
  Definition told_note (p : bool) (b : bytes) : note := NSent (Bool.eqb p f) (zlen b) (hash b).
  Definition put (h : gh) (p : bool) : gh := Gh (gg h) (setb p (S (gs h p)) (gs h)) (setb p (S (gt h p)) (gt h)) (gm h) (ga h) (ge h).
  Lemma fin_put h p q : fin (put h p) q = fin h q. Proof. reflexivity. Qed.
  Lemma transmit_none p h ns sg w st : gm h p = true -> skipn (gs h p) (D p) = [] -> transmit hash E c p (mk h ns sg w st) = (mk h ns sg w st, [], None).
  Proof.
    intros Mp Sk. unfold transmit. assert (T : pr_tx (peer_of p (mk h ns sg w st)) = []) by (destruct p; cbn; rewrite Mp; exact Sk).
    now rewrite T.
  Qed.
  Lemma transmit_one p h ns sg w st b r : gm h p = true -> gm h f = true -> skipn (gs h p) (D p) = b :: r ->
    transmit hash E c p (mk h ns sg w st) = (mk (put h p) (ns ++ [told_note p b]) sg w st, wire1 E c b, None).
  Proof.
    intros Mp Mf Sk. unfold transmit. assert (T : pr_tx (peer_of p (mk h ns sg w st)) = b :: r) by (destruct p; cbn; rewrite Mp; exact Sk).
    assert (U : pr_up (peer_of p (mk h ns sg w st)) = true) by (destruct p; exact Mp). rewrite T, U.
    assert (Hb : sendable_data b). { pose proof (D_ok p) as F. rewrite <- (firstn_skipn (gs h p) (D p)), Sk in F. apply Forall_app in F as (_ & F). now inversion F. }
    rewrite (proj1 (wire1_ok E c reg b depth Hb Dp)). destruct (skipn_cons _ _ _ _ Sk) as (_ & Sr).
    assert (SkS : forall q, skipn (gs (put h p) q) (D q) = if Bool.eqb q p then r else skipn (gs h q) (D q)).
    { intro q. unfold put, setb. cbn [gs]. destruct (Bool.eqb q p) eqn:Q; [apply eqb_prop in Q; subst q; exact Sr|reflexivity]. }
    unfold mk, pst, table, ent. rewrite !SkS, !fin_put. unfold told_note, is_one.
    destruct p, f; cbn; rewrite ?Mp, ?Mf; cbn; try reflexivity;
      try (destruct (gm h false); cbn; reflexivity); try (destruct (gm h true); cbn; reflexivity).
  Qed.
  Lemma put_ok h p b r : gh_ok h -> gm h p = true -> skipn (gs h p) (D p) = b :: r -> gh_ok (put h p).
  Proof.
    intros (Mf & H) Mp Sk. destruct (skipn_cons _ _ _ _ Sk) as (Ln & _). split; [exact Mf|]. intro q. specialize (H q). unfold put, setb. cbn [gg gs gt gm].
    destruct (Bool.eqb q p) eqn:Q; [|exact H]. apply eqb_prop in Q. subst q. rewrite Mp in *. destruct H as (H1 & H2 & H3). split; [exact H1|]. split; [lia|]. discriminate.
  Qed.

  (** connections *)
  Definition gh0 (now : Z) : gh := Gh (fun _ => 0%nat) (fun _ => 0%nat) (fun _ => 0%nat) (fun q => Bool.eqb q f) (setb f now (fun _ => 0)) (fun _ => 0).
  Definition join (h : gh) (now : Z) : gh := Gh (gg h) (gs h) (gt h) (fun _ => true) (setb (negb f) now (ga h)) (ge h).
  Lemma made_first now : 
    made hash E c now f (test_new d1 d2) = transmit hash E c f (mk (gh0 now) [NConnect true] now true 0).
  Proof.
    assert (Fz : forall p, fin (gh0 now) p = false) by (intro p; unfold fin; cbn [gg gh0]; destruct (Nat.eqb_spec (length (D (negb p))) 0) as [->|N]; [reflexivity|]; destruct (length (D (negb p))); [contradiction|reflexivity]).
    unfold mk, pst, table, ent. rewrite !Fz. unfold made, gh0. cbn [gm gg gs gt ga ge]. destruct f; reflexivity.
  Qed.
  Lemma made_second now h ns sg w st : gm h f = true -> gm h (negb f) = false -> gg h (negb f) = 0%nat -> gs h (negb f) = 0%nat ->
    made hash E c now (negb f) (mk h ns sg w st) = transmit hash E c (negb f) (mk (join h now) (ns ++ [NConnect false]) now (w || (sg =? 0)) st).
  Proof.
    intros M1 M2 G S0. unfold made, mk, pst, table, ent, fin, join. cbn [gm gg gs gt ga ge].
    destruct f; cbn [negb] in *; cbn; rewrite ?M1, ?M2, ?G, ?S0; cbn; reflexivity.
  Qed.

  (** ** The run *)
  Definition des (p : bool) (r : run) : dser := if p then n_des1 r else n_des2 r.
  Definition pipe (p : bool) (r : run) : bytes := if p then n_to1 r else n_to2 r.
  Notation W l := (map (wire1 E c) l).
  Notation K l := (map (test_packet c) l).
  Definition streams (h : gh) (r : run) : Prop := forall p,
    let todo := skipn (gg h p) (D (negb p)) in let fut := pipe p r ++ concat (W (skipn (gs h (negb p)) (D (negb p)))) in
    expects E depth c (des p r) (K todo) (W todo) fut /\ drained (W todo) fut.
  Definition noted_ok (h : gh) (ns : list note) : Prop := forall p,
    heard (Bool.eqb p f) ns = map (fun b => (hash b, hash b)) (firstn (gg h p) (D (negb p))) /\
    told (Bool.eqb p f) ns = map (fun b => (zlen b, hash b)) (firstn (gs h p) (D p)).
  Lemma heard_app o a b : heard o (a ++ b) = heard o a ++ heard o b. Proof. apply flat_map_app. Qed.
  Lemma told_app o a b : told o (a ++ b) = told o a ++ told o b. Proof. apply flat_map_app. Qed.
  Lemma firstn_snoc {A} n (l : list A) b r : skipn n l = b :: r -> firstn (S n) l = firstn n l ++ [b].
  Proof.
    revert l. induction n as [|n IH]; intros [|x l] H; cbn [skipn firstn] in *; try discriminate; [now injection H as -> ->|].
    cbn [app]. f_equal. now apply IH.
  Qed.
  Lemma firstn_more {A} n k (l : list A) : firstn (n + k) l = firstn n l ++ firstn k (skipn n l).
  Proof.
    revert l. induction n as [|n IH]; intros [|x l]; cbn [Nat.add firstn skipn app]; try reflexivity; [destruct k; reflexivity|]. f_equal. apply IH.
  Qed.

  (** the conditions, without the one about the timers of p *)
  Definition gh_some (p : bool) (h : gh) : Prop :=
    gm h f = true /\ gm h p = true /\ forall q, (gg h q <= length (D (negb q)))%nat /\ (gs h q <= length (D q))%nat /\
      (if gm h q then q <> p -> gt h q = 0%nat -> gs h q = length (D q) else gt h q = 0%nat /\ gs h q = 0%nat /\ gg h q = 0%nat).
  (** what p still has to do *)
  Definition left_of (h : gh) (p : bool) : nat := 2 * (length (D p) - gs h p) + gt h p.
  Lemma transmit_ok p h ns sg w st r : gh_some p h -> noted_ok h ns -> streams h r ->
    exists h' ns' bs, transmit hash E c p (mk h ns sg w st) = (mk h' ns' sg w st, bs, None) /\ gh_ok h' /\ noted_ok h' ns' /\
      (forall y o, streams h' (sent_by p y bs o r)) /\ gg h' = gg h /\ gm h' = gm h /\ ga h' = ga h /\ ge h' = ge h /\
      (forall q, q <> p -> gt h' q = gt h q) /\ (left_of h' p <= left_of h p)%nat.
  Proof.
    intros (Mf & Mp & H) N X. destruct (skipn (gs h p) (D p)) as [|b l] eqn:Sk.
    - exists h, ns, []. split; [now apply transmit_none|]. split.
      + split; [exact Mf|]. intro q. specialize (H q). destruct H as (A & B & H). split; [exact A|]. split; [exact B|]. destruct (gm h q) eqn:M; [|exact H].
        intro T. destruct (Bool.bool_dec q p) as [->|Nq]; [|now apply H]. assert (L := skipn_length (gs h p) (D p)). rewrite Sk in L. cbn in L. lia.
      + split; [exact N|]. split; [|repeat split; auto]. intros y o q. specialize (X q). cbv zeta in X |- *. unfold sent_by, des, pipe in *. destruct p, q; cbn in *; rewrite ?app_nil_r; exact X.
    - exists (put h p), (ns ++ [told_note p b]), (wire1 E c b). split; [eapply transmit_one; eauto|]. destruct (skipn_cons _ _ _ _ Sk) as (Ln & Sr). split; [|split; [|split; [|repeat (split; [reflexivity|]); split; [intros q Nq; unfold put, setb; cbn [gt]; destruct (Bool.eqb q p) eqn:Q; [apply eqb_prop in Q; contradiction|reflexivity]|unfold left_of, put, setb; cbn [gs gt]; rewrite eqb_refl_bool; lia]]]].
      + split; [exact Mf|]. intro q. specialize (H q). unfold put, setb. cbn [gg gs gt gm].
        destruct (Bool.eqb q p) eqn:Q.
        * apply eqb_prop in Q. subst q. rewrite Mp in *. destruct H as (H1 & H2 & H3). split; [exact H1|]. split; [lia|]. discriminate.
        * destruct H as (H1 & H2 & H3). split; [exact H1|]. split; [exact H2|]. destruct (gm h q); [|exact H3]. intro T. apply H3; [|exact T]. intros ->. now rewrite eqb_refl_bool in Q.
      + intro q. destruct (N q) as (N1 & N2). rewrite heard_app, told_app. unfold put, setb. cbn [gg gs]. split; [cbn; now rewrite app_nil_r|].
        destruct (Bool.eqb q p) eqn:Q.
        * apply eqb_prop in Q. subst q. rewrite (firstn_snoc _ _ _ _ Sk), map_app, N2. unfold told_note, told. cbn [flat_map]. rewrite eqb_refl_bool. reflexivity.
        * rewrite N2. unfold told_note, told. cbn [flat_map]. destruct p, q, f; try discriminate; cbn; now rewrite app_nil_r.
      + intros y o q. specialize (X q). cbv zeta in X |- *. unfold put, setb. cbn [gg gs].
        destruct (Bool.eqb (negb q) p) eqn:Q.
        * apply eqb_prop in Q. subst p. rewrite Sr. rewrite Sk in X. cbn [map concat] in X.
          assert (EP : pipe q (sent_by (negb q) y (wire1 E c b) o r) = pipe q r ++ wire1 E c b) by (destruct q; reflexivity).
          assert (ED : des q (sent_by (negb q) y (wire1 E c b) o r) = des q r) by (destruct q; reflexivity).
          rewrite EP, ED, <- app_assoc. exact X.
        * assert (EP : pipe q (sent_by p y (wire1 E c b) o r) = pipe q r) by (destruct p, q; try discriminate; reflexivity).
          assert (ED : des q (sent_by p y (wire1 E c b) o r) = des q r) by (destruct p, q; reflexivity).
          rewrite EP, ED. exact X.
  Qed.

  Variable t0 : Z.
  Definition inv (h : gh) (r : run) : Prop :=
    gh_ok h /\ (forall p, started p r = gm h p) /\ n_raised r = [] /\ streams h r /\
    exists ns sg w st, n_test r = mk h ns sg w st /\ noted_ok h ns /\ t0 <= sg.

  (** what an event may do *)
  Definition trans (e : tevent) (h h' : gh) : Prop :=
    (forall p, gm h p = true -> gm h' p = true /\ ga h' p = ga h p) /\
    (forall p, gm h p = false -> gm h' p = true -> exists now, e = Made p now /\ ga h' p = now) /\
    (forall p, fin h p = true -> fin h' p = true /\ ge h' p = ge h p) /\
    (forall p, fin h p = false -> fin h' p = true -> exists n now, e = Arrive p n now /\ ge h' p = now).
  Lemma trans_same e h h' : gg h' = gg h -> gm h' = gm h -> ga h' = ga h -> ge h' = ge h -> trans e h h'.
  Proof.
    intros A B C G. unfold trans, fin. rewrite A, B, C, G. split; [auto|]. split; [intros p X Y; congruence|]. split; [auto|]. intros p X Y; congruence.
  Qed.

  Definition more (e : tevent) (h h' : gh) : Prop :=
    match e with
    | Arrive _ _ _ | Watch _ => gt h' = gt h /\ gm h' = gm h
    | Timer p => gm h' = gm h /\ (forall q, q <> p -> gt h' q = gt h q) /\ ((0 < gt h p)%nat -> (left_of h' p < left_of h p)%nat)
    | _ => True
    end.
  Definition prompt (e : tevent) : Prop :=
    match e with Made _ now | Arrive _ _ now => t0 <= now | Watch now => now <= t0 + 30 | Timer _ => True | Lost _ => False end.
  Lemma inv_step h r e : inv h r -> prompt e -> exists h', inv h' (run_step hash E c depth r e) /\ trans e h h' /\ more e h h'.
  Proof.
    intros (Kh & St & Ra & X & ns & sg & w & st & T & N & Ts) P. destruct e as [p now|p|p n now|p|now]; cbn [run_step prompt] in *; [| | |contradiction|].
    - rewrite St. destruct (gm h p) eqn:M.
      { exists h. split; [repeat (split; [assumption|]); exists ns, sg, w, st; auto|]. split; [now apply trans_same|]. cbn; repeat split; auto; lia. }
      assert (p = negb f) as -> by (assert (Np : p <> f) by (intros ->; destruct Kh as (Kf & _); congruence); destruct p, f; try reflexivity; now destruct Np).
      destruct Kh as (Mf & Kh). pose proof (Kh (negb f)) as Kp. rewrite M in Kp. destruct Kp as (_ & _ & T0 & S0 & G0).
      rewrite T, (made_second now h ns sg w st Mf M G0 S0).
      destruct (transmit_ok (negb f) (join h now) (ns ++ [NConnect false]) now (w || (sg =? 0)) st r) as (h' & ns' & bs & -> & K' & N' & X' & A1 & A2 & A3 & A4 & A5 & A6).
      { split; [reflexivity|]. split; [reflexivity|]. intro q. specialize (Kh q). unfold join. cbn [gg gs gt gm]. destruct Kh as (B1 & B2 & B3). split; [exact B1|]. split; [exact B2|].
        intros Nq. destruct (gm h q) eqn:Mq; [exact B3|]. destruct q, f; cbn in *; congruence. }
      { intro q. destruct (N q) as (N1 & N2). rewrite heard_app, told_app. cbn. rewrite !app_nil_r. auto. }
      { exact X. }
      exists h'. split.
      + split; [exact K'|]. specialize (X' (mk h' ns' now (w || (sg =? 0)) st) None). split; [|split; [|split]].
        * intro q. rewrite A2. unfold join. cbn [gm]. pose proof (St q) as Sq. unfold started in *. destruct f, q; cbn in *; congruence.
        * destruct f; exact Ra.
        * intro q. specialize (X' q). destruct f, q; exact X'.
        * exists ns', now, (w || (sg =? 0)), st. split; [destruct f; reflexivity|]. auto.
      + split; [|exact Logic.I]. unfold trans, fin. rewrite A1, A2, A3, A4. unfold join, setb. cbn [gg gm ga ge].
        split; [intros q Mq; split; [reflexivity|]; destruct q, f; cbn in *; congruence|].
        split; [intros q Mq _; exists now; destruct q, f; cbn in *; try congruence; auto|].
        split; [auto|]. intros q Q1 Q2. congruence.
    - assert (PT : pr_timers (peer_of p (n_test r)) = gt h p) by (rewrite T; destruct p; reflexivity). rewrite PT.
      destruct (gt h p) as [|t] eqn:G.
      { exists h. split; [repeat (split; [assumption|]); exists ns, sg, w, st; auto|]. split; [now apply trans_same|]. cbn; repeat split; auto; lia. }
      assert (M : gm h p = true). { destruct (gm h p) eqn:M; [reflexivity|]. destruct Kh as (_ & Kh). specialize (Kh p). rewrite M in Kh. lia. }
      set (h1 := Gh (gg h) (gs h) (setb p t (gt h)) (gm h) (ga h) (ge h)).
      assert (Y : with_peer p (Peer (pr_up (peer_of p (n_test r))) (pr_tx (peer_of p (n_test r))) (pr_rx (peer_of p (n_test r))) t (pr_closes (peer_of p (n_test r)))) (n_test r) = mk h1 ns sg w st).
      { rewrite T. unfold h1, mk, pst, table, ent, fin, setb. destruct p; reflexivity. }
      rewrite Y.
      destruct (transmit_ok p h1 ns sg w st r) as (h' & ns' & bs & -> & K' & N' & X' & A1 & A2 & A3 & A4 & A5 & A6); [| exact N|exact X|].
      { split; [exact (proj1 Kh)|]. split; [exact M|]. intro q. destruct Kh as (_ & Kh). specialize (Kh q). unfold h1, setb. cbn [gg gs gt gm]. destruct Kh as (B1 & B2 & B3).
        split; [exact B1|]. split; [exact B2|]. destruct (gm h q) eqn:Mq.
        - intros Nq. destruct (Bool.eqb q p) eqn:Q; [apply eqb_prop in Q; contradiction|exact B3].
        - destruct (Bool.eqb q p) eqn:Q; [apply eqb_prop in Q; congruence|exact B3]. }
      exists h'. split.
      + split; [exact K'|]. split; [intro q; rewrite A2; change (gm h1 q) with (gm h q); rewrite <- St; destruct p; reflexivity|]. split; [destruct p; exact Ra|]. split; [apply X'|].
        exists ns', sg, w, st. split; [destruct p; reflexivity|]. auto.
      + split; [apply trans_same; assumption|]. cbn [more]. split; [exact A2|]. split.
        * intros q Nq. rewrite A5 by exact Nq. unfold h1, setb. cbn [gt]. destruct (Bool.eqb q p) eqn:Q; [apply eqb_prop in Q; contradiction|reflexivity].
        * intros _. unfold left_of in *. unfold h1, setb in A6. cbn [gs gt] in A6. rewrite eqb_refl_bool in A6. lia.
    - assert (PU : pr_up (peer_of p (n_test r)) = gm h p) by (rewrite T; destruct p; reflexivity). rewrite PU. destruct (gm h p) eqn:M.
      2: { exists h. split; [repeat (split; [assumption|]); exists ns, sg, w, st; auto|]. split; [now apply trans_same|]. cbn; repeat split; auto; lia. }
      assert (SY : signal now (n_test r) = mk h ns now w st) by (rewrite T; reflexivity). rewrite SY.
      destruct (X p) as (Xp & _). rewrite <- (firstn_skipn n (pipe p r)), <- app_assoc in Xp.
      destruct (received_go E depth c (handle hash now p) Dp _ _ _ (mk h ns now w st) _ _ Xp) as (d' & k & Kl & G). rewrite map_length in Kl.
      set (todo := skipn (gg h p) (D (negb p))) in *. rewrite firstn_map in G.
      destruct (handle_many now p now w st (firstn k todo) h ns (skipn k todo) Kh M) as (h' & G1 & K' & A1 & A2 & A3 & A4 & A5 & A6 & A7 & A8 & A9).
      { now rewrite firstn_skipn. }
      rewrite G1 in G. destruct G as (G2 & _ & G3 & G4). specialize (G4 eq_refl). rewrite !skipn_map in G3. rewrite skipn_map in G4.
      assert (FL : length (firstn k todo) = k) by (rewrite firstn_length; lia). rewrite FL in A5.
      assert (SK : skipn (gg h' p) (D (negb p)) = skipn k todo) by (rewrite A5, eqb_refl_bool; unfold todo; rewrite PyLemmas.skipn_skipn; f_equal; lia).
      assert (RUN : (if p then let '(d, y1, acts) := data_received E depth c (handle hash now p) (firstn n (n_to1 r)) (n_des1 r) (mk h ns now w st) in
                        Run y1 d (n_des2 r) (skipn n (n_to1 r)) (n_to2 r) (n_started1 r) (n_started2 r) (n_raised r ++ raises acts)
                     else let '(d, y1, acts) := data_received E depth c (handle hash now p) (firstn n (n_to2 r)) (n_des2 r) (mk h ns now w st) in
                        Run y1 (n_des1 r) d (n_to1 r) (skipn n (n_to2 r)) (n_started1 r) (n_started2 r) (n_raised r ++ raises acts)) =
                    let y1 := mk h' (ns ++ map (heard_note p) (firstn k todo)) now w st in
                    if p then Run y1 d' (n_des2 r) (skipn n (n_to1 r)) (n_to2 r) (n_started1 r) (n_started2 r) []
                    else Run y1 (n_des1 r) d' (n_to1 r) (skipn n (n_to2 r)) (n_started1 r) (n_started2 r) []).
      { destruct p; cbn [des pipe] in G2; rewrite G2, Ra; reflexivity. }
      rewrite RUN. clear RUN. exists h'. split.
      + split; [exact K'|]. split; [intro q; rewrite A3, <- St; destruct p, q; reflexivity|]. split; [destruct p; reflexivity|]. split.
        * intro q. destruct (Bool.bool_dec q p) as [->|Nq].
          -- rewrite SK, A1. destruct p; cbn [des pipe]; auto.
          -- specialize (X q). cbv zeta in X |- *. rewrite A1, A5. destruct (Bool.eqb q p) eqn:Q; [apply eqb_prop in Q; contradiction|].
             destruct p, q; try discriminate; exact X.
        * exists (ns ++ map (heard_note p) (firstn k todo)), now, w, st. split; [destruct p; reflexivity|]. split; [|exact P].
          intro q. destruct (N q) as (N1 & N2). rewrite heard_app, told_app, A1, A5, N1, N2.
          assert (HT : forall l, told (Bool.eqb q f) (map (heard_note p) l) = []) by (induction l as [|x l IH]; [reflexivity|exact IH]).
          rewrite HT, app_nil_r. split; [|reflexivity]. destruct (Bool.eqb q p) eqn:Q.
          -- apply eqb_prop in Q. subst q. rewrite firstn_more, map_app. f_equal. unfold todo. generalize (firstn k (skipn (gg h p) (D (negb p)))). intro l. induction l as [|x l IH]; [reflexivity|].
             unfold heard in *. cbn [map flat_map heard_note]. rewrite eqb_refl_bool, IH. reflexivity.
          -- assert (HH : forall l, heard (Bool.eqb q f) (map (heard_note p) l) = []).
             { induction l as [|x l IH]; [reflexivity|]. unfold heard in *. cbn [map flat_map heard_note]. rewrite IH. destruct p, q, f; try discriminate; reflexivity. }
             now rewrite HH, app_nil_r.
      + split; [|split; assumption]. unfold trans. rewrite A3, A4. split; [auto|]. split; [intros q Q1 Q2; congruence|].
        assert (FO : forall q, q <> p -> fin h' q = fin h q).
        { intros q Nq. unfold fin. rewrite A5. destruct (Bool.eqb q p) eqn:Q; [apply eqb_prop in Q; contradiction|reflexivity]. }
        assert (FP : fin h p = true -> todo = []).
        { unfold fin. intro F. apply andb_prop in F as (_ & F). apply Nat.eqb_eq in F. unfold todo. rewrite F. apply skipn_all. }
        split.
        * intros q F. destruct (Bool.bool_dec q p) as [->|Nq]; [|rewrite FO, A6 by exact Nq; auto].
          rewrite (FP F) in *. rewrite firstn_nil in A7. split; [|apply A7; reflexivity]. unfold fin in *. rewrite A5, eqb_refl_bool. cbn in Kl. replace (gg h p + k)%nat with (gg h p) by lia. exact F.
        * intros q F F'. destruct (Bool.bool_dec q p) as [->|Nq]; [|rewrite FO in F' by exact Nq; congruence].
          exists n, now. split; [reflexivity|]. unfold fin in F, F'. apply andb_prop in F' as (F1 & F2). rewrite F1 in F. cbn [andb] in F. apply Nat.eqb_eq in F2. apply Nat.eqb_neq in F.
          rewrite A5, eqb_refl_bool in F2. apply A8.
          -- intro Z. apply (f_equal (@length bytes)) in Z. rewrite FL in Z. cbn in Z. lia.
          -- apply length_zero_iff_nil. rewrite skipn_length. unfold todo. rewrite skipn_length. lia.
    - assert (WC : wait_close now (n_test r) = (mk h ns sg false st, None)).
      { unfold wait_close. rewrite T. cbn [y_cfg mk f_signal]. destruct (now - sg >? 30) eqn:Q; [apply Z.gtb_lt in Q; lia|]. reflexivity. }
      rewrite WC. assert (FW : f_watch (y_cfg (n_test r)) = w) by (rewrite T; reflexivity). rewrite FW. exists h. split; [|split; [now apply trans_same|split; reflexivity]]. destruct w.
      + split; [exact Kh|]. split; [exact St|]. split; [cbn; exact Ra|]. split; [exact X|]. exists ns, sg, false, st. auto.
      + split; [exact Kh|]. split; [exact St|]. split; [exact Ra|]. split; [exact X|]. exists ns, sg, false, st. auto.
  Qed.

  Lemma inv_first r now : r = run_new E c depth d1 d2 -> t0 <= now ->
    exists h, inv h (run_step hash E c depth r (Made f now)) /\ (forall p, gm h p = Bool.eqb p f) /\ ga h f = now /\ (forall p, gg h p = 0%nat).
  Proof.
    intros -> P. cbn [run_step]. assert (SF : started f (run_new E c depth d1 d2) = false) by (destruct f; reflexivity). rewrite SF.
    cbn [n_test run_new]. rewrite made_first.
    destruct (transmit_ok f (gh0 now) [NConnect true] now true 0 (run_new E c depth d1 d2)) as (h' & ns' & bs & TR & K' & N' & X' & A1 & A2 & A3 & A4 & A5 & A6).
    { split; [apply eqb_refl_bool|]. split; [apply eqb_refl_bool|]. intro q. unfold gh0. cbn [gg gs gt gm]. split; [lia|]. split; [lia|].
      destruct (Bool.eqb q f) eqn:Q; [apply eqb_prop in Q; congruence|auto]. }
    { intro p. cbn. auto. }
    { intro p. cbv zeta. unfold gh0. cbn [gg gs]. change (skipn 0 (D (negb p))) with (D (negb p)).
      assert (FE : Forall2 (eaten E depth c) (K (D (negb p))) (W (D (negb p)))).
      { pose proof (D_ok (negb p)) as F. induction F as [|b l Hb F IH]; constructor; [now apply wire1_ok|exact IH]. }
      assert (Z0 : pipe p (run_new E c depth d1 d2) = []) by (destruct p; reflexivity). assert (Dn : des p (run_new E c depth d1 d2) = d_new E depth c) by (destruct p; reflexivity).
      rewrite Z0, Dn. cbn [app]. split; [apply (expects_new E depth c); assumption|].
      pose proof (D_ok (negb p)) as F. destruct F as [|b l Hb F]; [reflexivity|]. cbn [map concat drained].
      exists [], (wire1 E c b). split; [|split; reflexivity]. destruct (wire1_ok E c reg b depth Hb Dp) as (_ & (Nb & _)). exact Nb. }
    rewrite TR. exists h'. split; [|rewrite A1, A2, A3; split; [intro p; reflexivity|split; [unfold gh0, setb; cbn [ga]; now rewrite eqb_refl_bool|reflexivity]]].
    split; [exact K'|]. specialize (X' (mk h' ns' now true 0) None). split; [|split; [|split]].
    - intro q. rewrite A2. unfold gh0. cbn [gm]. destruct f, q; reflexivity.
    - destruct f; reflexivity.
    - intro q. specialize (X' q). destruct f, q; exact X'.
    - exists ns', now, true, 0%nat. split; [destruct f; reflexivity|]. auto.
  Qed.

  (** what is known after the events [es] *)
  Definition finished_at (q : bool) (t : Z) (es : list tevent) : Prop :=
    exists a n b, es = a ++ Arrive q n t :: b /\ ~ complete q (run_all hash E c depth d1 d2 a) /\ complete q (run_all hash E c depth d1 d2 (a ++ [Arrive q n t])).
  Lemma results_inv h r p : inv h r -> results p (n_test r) = if gm h p then Some (gg h p, length (D (negb p))) else None.
  Proof.
    intros ((Mf & _) & _ & _ & _ & ns & sg & w & st & T & _). rewrite T. unfold results, mk. cbn [y_cfg f_data]. unfold table.
    assert (Q : p = f \/ p = negb f) by (destruct p, f; auto). destruct Q as [-> | ->].
    - rewrite Mf. destruct (gm h (negb f)); cbn [entry_of key_eqb]; rewrite ?eqb_refl_bool; reflexivity.
    - assert (N : Bool.eqb (negb f) f = false) by (destruct f; reflexivity).
      destruct (gm h (negb f)); cbn [entry_of key_eqb]; rewrite N; cbn [entry_of key_eqb]; rewrite ?eqb_refl_bool; reflexivity.
  Qed.
  Lemma complete_inv h r p : inv h r -> complete p r <-> fin h p = true.
  Proof.
    intro I. pose proof (results_inv h r p I) as R. unfold complete, fin. rewrite R. destruct I as ((_ & K) & _). specialize (K p). destruct K as (L & _ & U). destruct (gm h p).
    - split.
      + intros (n & N & [= A B]). destruct (Nat.eqb_spec (length (D (negb p))) 0); [lia|]. cbn [negb andb]. apply Nat.eqb_eq. lia.
      + intro F. apply andb_prop in F as (F1 & F2). apply Nat.eqb_eq in F2. destruct (Nat.eqb_spec (length (D (negb p))) 0); [discriminate|]. exists (gg h p). split; [lia|]. congruence.
    - split; [intros (n & _ & H); discriminate|]. destruct U as (_ & _ & U). rewrite U. intro F. apply andb_prop in F as (F1 & F2). apply Nat.eqb_eq in F2. rewrite <- F2 in F1. discriminate.
  Qed.
  Lemma watch_step h r e : inv h r -> prompt e -> 0 < t0 -> f_watch (y_cfg (n_test r)) = false \/ (exists t, e = Watch t) ->
    f_watch (y_cfg (n_test (run_step hash E c depth r e))) = false.
  Proof.
    intros I P T0 H. destruct e as [p now|p|p n now|p|now]; [| | |contradiction|].
    1,2,3: destruct H as [H|(t & H)]; [|discriminate].
    - destruct I as ((Mf & Kh) & St & _ & X & ns & sg & w & st & T & N & Ts). cbn [run_step]. rewrite St. destruct (gm h p) eqn:M; [exact H|].
      assert (p = negb f) as -> by (assert (Np : p <> f) by (intros ->; congruence); destruct p, f; try reflexivity; now destruct Np).
      pose proof (Kh (negb f)) as Kp. rewrite M in Kp. destruct Kp as (_ & _ & T1 & S0 & G0). rewrite T, (made_second now h ns sg w st Mf M G0 S0).
      rewrite T in H. cbn in H. subst w. replace (sg =? 0) with false by (symmetry; apply Z.eqb_neq; lia).
      destruct (skipn (gs (join h now) (negb f)) (D (negb f))) eqn:Sk.
      + rewrite transmit_none by (reflexivity || exact Sk). destruct f; reflexivity.
      + erewrite transmit_one by (reflexivity || exact Sk). destruct f; reflexivity.
    - cbn [run_step]. destruct (pr_timers (peer_of p (n_test r))) as [|t]; [exact H|].
      unfold transmit. set (y := with_peer p _ (n_test r)). assert (Hy : f_watch (y_cfg y) = false) by (destruct p; exact H).
      destruct (pr_tx (peer_of p y)) as [|b l]; [destruct p; exact Hy|]. destruct (pr_up (peer_of p y)); [destruct (serialize E (test_packet c b))|]; destruct p; exact Hy.
    - destruct I as (Kh & St & Ra & X & ns & sg & w & st & T & N & Ts). cbn [run_step]. assert (PU : pr_up (peer_of p (n_test r)) = gm h p) by (rewrite T; destruct p; reflexivity). rewrite PU. destruct (gm h p) eqn:M; [|exact H].
      rewrite T in H. cbn in H. subst w. assert (SY : signal now (n_test r) = mk h ns now false st) by (rewrite T; reflexivity). rewrite SY.
      destruct (X p) as (Xp & _). rewrite <- (firstn_skipn n (pipe p r)), <- app_assoc in Xp.
      destruct (received_go E depth c (handle hash now p) Dp _ _ _ (mk h ns now false st) _ _ Xp) as (d' & k & Kl & G). rewrite firstn_map in G.
      destruct (handle_many now p now false st (firstn k (skipn (gg h p) (D (negb p)))) h ns (skipn k (skipn (gg h p) (D (negb p)))) Kh M) as (h' & G1 & _); [now rewrite firstn_skipn|].
      rewrite G1 in G. destruct G as (G2 & _). destruct p; cbn [des pipe] in G2; rewrite G2; reflexivity.
    - destruct I as (Kh & St & Ra & X & ns & sg & w & st & T & N & Ts). cbn [run_step]. rewrite T. cbn [mk y_cfg f_watch]. destruct w; [|rewrite T; reflexivity].
      unfold wait_close. cbn [y_cfg mk f_signal prompt] in *. destruct (now - sg >? 30) eqn:Q; [apply Z.gtb_lt in Q; lia|]. reflexivity.
  Qed.
  Definition known (es : list tevent) : Prop :=
    let r := run_all hash E c depth d1 d2 es in
    exists h, inv h r /\
      (forall p, connect_time p es = if gm h p then Some (ga h p) else None) /\
      (forall p, fin h p = true -> finished_at p (ge h p) es) /\
      (watched es -> f_watch (y_cfg (n_test r)) = false).
  Lemma run_snoc es e : run_all hash E c depth d1 d2 (es ++ [e]) = run_step hash E c depth (run_all hash E c depth d1 d2 es) e.
  Proof. unfold run_all. now rewrite fold_left_app. Qed.
  Lemma connect_snoc p es e : connect_time p (es ++ [e]) =
    match connect_time p es with Some t => Some t | None => match e with Made q now => if Bool.eqb q p then Some now else None | _ => None end end.
  Proof.
    induction es as [|x es IH]; [destruct e as [q now|q|q n now|q|now]; cbn; try reflexivity; destruct (Bool.eqb q p); reflexivity|].
    cbn [app connect_time]. destruct x as [q now|q|q n now|q|now]; try exact IH. destruct (Bool.eqb q p); [reflexivity|exact IH].
  Qed.
  Lemma connects_time p es : connects p es <-> connect_time p es <> None.
  Proof.
    induction es as [|x es IH]; cbn [connect_time]; [split; [intros (t & [])|contradiction]|]. unfold connects in *. destruct x as [q now|q|q n now|q|now].
    1: destruct (Bool.eqb q p) eqn:Q; [apply eqb_prop in Q; subst q; split; [discriminate|intros _; exists now; now left]|].
    all: rewrite <- IH; split; intros (t & H); [destruct H as [H|H]; [|now exists t]|exists t; now right].
    all: try discriminate. injection H as -> ->. now rewrite eqb_refl_bool in Q.
  Qed.
  Lemma idle_run es : (forall q t, ~ In (Made q t) es) -> run_all hash E c depth d1 d2 es = run_new E c depth d1 d2.
  Proof.
    induction es as [|e es IH] using rev_ind; intro N; [reflexivity|]. rewrite run_snoc, IH by (intros q t H; apply (N q t), in_or_app; now left).
    destruct e as [p now|p|p n now|p|now]; [exfalso; apply (N p now), in_or_app; right; now left| | | |]; try destruct p; reflexivity.
  Qed.
  Lemma known_all es : 0 < t0 -> Forall prompt es -> first_connected f es -> known es.
  Proof.
    intro T0. induction es as [|e es IH] using rev_ind; intros P (a & now & b & Ea & Na); [destruct a; discriminate|].
    apply Forall_app in P as (P & Pe). apply Forall_inv in Pe.
    destruct b as [|x b _] using rev_ind.
    - apply app_inj_tail in Ea as (-> & ->). unfold known. rewrite run_snoc, (idle_run a Na). destruct (inv_first (run_new E c depth d1 d2) now eq_refl Pe) as (h & I & Mh & Ah & Gh0).
      exists h. split; [exact I|]. split; [|split].
      + intro p. rewrite connect_snoc. assert (C : connect_time p a = None). { destruct (connect_time p a) eqn:C; [|reflexivity]. assert (X : connects p a) by (apply connects_time; congruence). destruct X as (t & X). now apply Na in X. }
        rewrite C, Mh. destruct (Bool.eqb p f) eqn:Q; [apply eqb_prop in Q; subst p; rewrite eqb_refl_bool; now rewrite Ah|]. destruct (Bool.eqb f p) eqn:Q'; [apply eqb_prop in Q'; subst p; now rewrite eqb_refl_bool in Q|reflexivity].
      + intros p F. unfold fin in F. rewrite Gh0 in F. apply andb_prop in F as (F1 & F2). apply Nat.eqb_eq in F2. rewrite <- F2 in F1. discriminate.
      + intros (a' & p & t & b & u & Eq & Ib). exfalso.
        destruct b as [|x b _] using rev_ind; [destruct Ib|]. rewrite app_comm_cons, app_assoc in Eq. apply app_inj_tail in Eq as (Eq & _). apply (Na p t). rewrite Eq. apply in_or_app. right. now left.
    - rewrite app_comm_cons, app_assoc in Ea. apply app_inj_tail in Ea as (Ea & <-). destruct (IH P) as (h & I & C & F & Wt); [exists a, now, b; auto|].
      destruct (inv_step h _ e I Pe) as (h' & I' & (R1 & R2 & R3 & R4) & _). unfold known. rewrite run_snoc. exists h'. split; [exact I'|]. split; [|split].
      + intro p. rewrite connect_snoc, C. destruct (gm h p) eqn:M.
        * destruct (R1 p M) as (-> & ->). reflexivity.
        * destruct (gm h' p) eqn:M'.
          -- destruct (R2 p M M') as (t & -> & ->). now rewrite eqb_refl_bool.
          -- destruct e as [q t|q|q n t|q|t]; try reflexivity. destruct (Bool.eqb q p) eqn:Q; [|reflexivity]. apply eqb_prop in Q. subst q. exfalso.
             destruct I' as (_ & St' & _). specialize (St' p). rewrite M' in St'. cbn [run_step] in St'.
             destruct (started p (run_all hash E c depth d1 d2 es)) eqn:Sp; [congruence|]. destruct (made hash E c t p _) as [[y1 bs] o]. destruct p; discriminate St'.
      + intros p Fp. destruct (fin h p) eqn:Fh.
        * destruct (R3 p Fh) as (_ & ->). destruct (F p Fh) as (a1 & n1 & b1 & -> & F1 & F2). exists a1, n1, (b1 ++ [e]). rewrite <- app_assoc. split; [reflexivity|]. auto.
        * destruct (R4 p Fh Fp) as (n & t & -> & ->). exists es, n, []. split; [reflexivity|]. rewrite run_snoc. split; [rewrite (complete_inv h _ p I); congruence|now rewrite (complete_inv h' _ p I')].
      + intro Hw. apply (watch_step h _ e I Pe T0). destruct Hw as (a' & p & t & b' & u & Eq & Ib).
        destruct b' as [|x b' _] using rev_ind; [destruct Ib|]. rewrite app_comm_cons, app_assoc in Eq. apply app_inj_tail in Eq as (Eq & <-).
        apply in_app_or in Ib as [Ib|[->|[]]]; [left|right; now exists u]. apply Wt. exists a', p, t, b', u. auto.
  Qed.

  (** ** A run can always be brought to its end *)
  Lemma timers_out p : forall n h r, inv h r -> (left_of h p <= n)%nat ->
    exists k h', inv h' (fold_left (run_step hash E c depth) (repeat (Timer p) k) r) /\ gt h' p = 0%nat /\ gm h' = gm h /\ (forall q, q <> p -> gt h' q = gt h q).
  Proof.
    induction n as [|n IH]; intros h r I L.
    - exists 0%nat, h. split; [exact I|]. unfold left_of in L. split; [lia|]. auto.
    - destruct (gt h p) as [|t] eqn:G; [exists 0%nat, h; auto|].
      destruct (inv_step h r (Timer p) I Logic.I) as (h1 & I1 & _ & (M1 & G1 & L1)).
      destruct (IH h1 _ I1) as (k & h2 & I2 & G2 & M2 & G3); [lia|]. exists (S k), h2. cbn [repeat fold_left]. split; [exact I2|]. split; [exact G2|]. split; [congruence|].
      intros q Nq. rewrite G3, G1 by exact Nq. reflexivity.
  Qed.
  Lemma arrived p h r now : inv h r -> t0 <= now -> gm h p = true -> let r' := run_step hash E c depth r (Arrive p (length (pipe p r)) now) in
    exists h', inv h' r' /\ gt h' = gt h /\ gm h' = gm h /\ pipe p r' = [] /\ pipe (negb p) r' = pipe (negb p) r.
  Proof.
    intros I P M r'. destruct (inv_step h r (Arrive p (length (pipe p r)) now) I P) as (h1 & I1 & _ & (G & M1)). exists h1. split; [exact I1|]. split; [exact G|]. split; [exact M1|].
    destruct I as (_ & _ & _ & _ & ns & sg & w & st & T & _). unfold r'. cbn [run_step]. assert (PU : pr_up (peer_of p (n_test r)) = gm h p) by (rewrite T; destruct p; reflexivity). rewrite PU, M.
    destruct p; cbn [pipe negb]; destruct (data_received _ _ _ _ _ _ _) as [[d y] acts]; cbn [n_to1 n_to2]; rewrite skipn_all; auto.
  Qed.
  Lemma to_the_end h r now : inv h r -> t0 <= now -> gm h true = true -> gm h false = true ->
    exists es' h', Forall prompt es' /\ Forall (fun e => match e with Timer _ | Arrive _ _ _ => True | _ => False end) es' /\
      inv h' (fold_left (run_step hash E c depth) es' r) /\ gm h' = gm h /\ quiet (fold_left (run_step hash E c depth) es' r).
  Proof.
    intros I P M1 M2. destruct (timers_out true _ h r I (le_n _)) as (k1 & h1 & I1 & G1 & N1 & _). set (r1 := fold_left _ _ r) in *.
    destruct (timers_out false _ h1 r1 I1 (le_n _)) as (k2 & h2 & I2 & G2 & N2 & O2). set (r2 := fold_left _ _ r1) in *. specialize (O2 true ltac:(discriminate)).
    destruct (arrived true h2 r2 now I2 P) as (h3 & I3 & G3 & N3 & P3 & P3'); [congruence|]. set (e3 := Arrive true _ now) in *. set (r3 := run_step _ _ _ _ r2 e3) in *.
    destruct (arrived false h3 r3 now I3 P) as (h4 & I4 & G4 & N4 & P4 & P4'); [congruence|]. set (e4 := Arrive false _ now) in *. set (r4 := run_step _ _ _ _ r3 e4) in *.
    exists (repeat (Timer true) k1 ++ repeat (Timer false) k2 ++ [e3; e4]), h4.
    assert (FR : forall (Q : tevent -> Prop) e k, Q e -> Forall Q (repeat e k)) by (intros Q e k H; induction k; constructor; auto).
    split; [apply Forall_app; split; [apply FR; exact Logic.I|apply Forall_app; split; [apply FR; exact Logic.I|repeat constructor; exact P]]|].
    split; [apply Forall_app; split; [apply FR; exact Logic.I|apply Forall_app; split; [apply FR; exact Logic.I|repeat constructor]]|].
    rewrite !fold_left_app. cbn [fold_left]. change (fold_left (run_step hash E c depth) (repeat (Timer true) k1) r) with r1. change (fold_left (run_step hash E c depth) (repeat (Timer false) k2) r1) with r2. change (run_step hash E c depth r2 e3) with r3. change (run_step hash E c depth r3 e4) with r4.
    split; [exact I4|]. split; [congruence|]. destruct I4 as (_ & _ & _ & _ & ns & sg & w & st & T & _). unfold quiet. rewrite T. cbn [mk y_one y_two pst pr_timers].
    rewrite G4, G3. split; [congruence|]. split; [exact G2|]. change (negb false) with true in P4'. split; [change (pipe true r4 = []); rewrite P4'; exact P3|exact P4].
  Qed.
End State.
