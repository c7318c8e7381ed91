(** * Proofs about the route computation *)
From Coq Require Import List ZArith Bool Arith Lia.
From Verif Require Import PyBase PyLemmas WanModel WanSpec.
Import ListNotations.
Open Scope nat_scope.

Section W.
  Context {P : Type} `{EqDec P}.
  Implicit Types (a : routes P) (E : list (P * P)).

  Lemma eqb_eq (x y : P) : eqb x y = true <-> x = y.
  Proof. unfold eqb. destruct (eq_dec x y); split; congruence. Qed.

  (** ** Walks *)
  Lemma walk_nonnil E u p v : walk E u p v -> p <> [].
  Proof. destruct 1; discriminate. Qed.

  Lemma walk_app E u p v q w : walk E u p v -> walk E v q w -> walk E u (p ++ q) w.
  Proof.
    induction 1; intros; cbn.
    - now constructor.
    - constructor; auto.
  Qed.

  Lemma walk_split E u p1 x p2 v : walk E u (p1 ++ x :: p2) v ->
    walk E u (p1 ++ [x]) x /\ (p2 <> [] -> walk E x p2 v).
  Proof.
    revert u. induction p1 as [|y p1 IH]; cbn; intros u Hw.
    - inversion Hw; subst.
      + split; [now constructor | congruence].
      + split; [now constructor | auto].
    - inversion Hw; subst.
      + destruct p1; discriminate.
      + apply IH in H5 as [h1 h2]. split; auto. now constructor.
  Qed.

  Lemma walk_last E u p v : walk E u p v -> exists p', p = p' ++ [v].
  Proof.
    induction 1 as [u v Hi|u w p v Hi Hw [p' IH]]; [exists []; reflexivity|].
    subst. now exists (w :: p').
  Qed.

  Lemma walk_in E (ks : list P) u p v : (forall x y, In (x, y) E -> In x ks /\ In y ks) ->
    walk E u p v -> forall x, In x p -> In x ks.
  Proof.
    intros Hk. induction 1 as [u v Hi|u w p v Hi Hw IH]; intros x Hx.
    - destruct Hx as [<-|[]]. exact (proj2 (Hk _ _ Hi)).
    - destruct Hx as [<-|Hx]; [exact (proj2 (Hk _ _ Hi)) | auto].
  Qed.

  Lemma walk_mono E E' u p v : (forall x y, In (x, y) E -> In (x, y) E') -> walk E u p v -> walk E' u p v.
  Proof. intros Hs; induction 1; [apply walk_one | eapply walk_cons]; eauto. Qed.

  (** removing a location not on the walk *)
  Lemma walk_avoid E E' r u p v : walk E u p v -> u <> r -> ~ In r p ->
    (forall x y, In (x, y) E -> x <> r -> y <> r -> In (x, y) E') -> walk E' u p v.
  Proof.
    intros Hw. induction Hw; intros Hu Hp Hs.
    - constructor. apply Hs; auto. cbn in Hp. intuition.
    - cbn in Hp. econstructor; [apply Hs; auto; intuition | apply IHHw; intuition].
  Qed.

  (** ** Two-level dictionaries *)
  Lemma get2_set2 a s d p u v : dhas a s = true ->
    get2 (set2 a s d p) u v = if (if eq_dec u s then if eq_dec v d then true else false else false) then Some p else get2 a u v.
  Proof.
    intros Hs. apply dhas_true in Hs as [row Hr]. unfold get2, set2. rewrite Hr.
    rewrite dget_dset. destruct (eq_dec u s) as [->|]; [|reflexivity].
    rewrite dget_dset, Hr. destruct (eq_dec v d); reflexivity.
  Qed.

  Lemma dkeys_set2 a s d p : dkeys (set2 a s d p) = dkeys a.
  Proof.
    unfold set2. destruct (dget a s) eqn:E; [|reflexivity].
    apply dkeys_dset_has. now apply dget_some_in_keys in E.
  Qed.

  Lemma dhas_keys (a b : routes P) s : dkeys a = dkeys b -> dhas a s = dhas b s.
  Proof.
    intros Hk. destruct (dhas a s) eqn:E1, (dhas b s) eqn:E2; auto.
    - apply dhas_in in E1. rewrite Hk in E1. apply dhas_in in E1. congruence.
    - apply dhas_in in E2. rewrite <- Hk in E2. apply dhas_in in E2. congruence.
  Qed.

  Lemma get2_some_key a s d p : get2 a s d = Some p -> In s (dkeys a).
  Proof. unfold get2. destruct (dget a s) eqn:E; [|discriminate]. intros. eapply dget_some_in_keys; eauto. Qed.

  (** ** One relaxation *)
  Definition len_le (o1 o2 : option (list P)) : Prop :=
    match o1, o2 with
    | _, None => True
    | Some p, Some q => length p <= length q
    | None, Some _ => False
    end.

  Lemma len_le_refl o : len_le o o.
  Proof. destruct o; cbn; lia. Qed.
  Lemma len_le_trans x y z : len_le x y -> len_le y z -> len_le x z.
  Proof. destruct x, y, z; cbn; intros; try lia; auto; contradiction. Qed.

  (** sound: every route is a walk; direct connections have routes of one hop;
      a route from a location to itself is a direct connection *)
  Record sound E (a : routes P) : Prop := Sound {
    snd_walk : forall u v p, get2 a u v = Some p -> walk E u p v;
    snd_edge : forall u v, In (u, v) E -> get2 a u v = Some [v];
    snd_diag : forall u p, get2 a u u = Some p -> p = [u] }.

  Lemma dkeys_relax i s d a : dkeys (relax i s d a) = dkeys a.
  Proof.
    unfold relax. destruct (_ || _); [reflexivity|].
    destruct (get2 a s i) as [[|x p1]|]; try reflexivity.
    destruct (get2 a i d) as [[|y p2]|]; try reflexivity.
    destruct (get2 a s d); [destruct (Nat.ltb _ _)|]; try reflexivity; apply dkeys_set2.
  Qed.

  (** what one relaxation does to the table *)
  Lemma relax_get i s d a u v :
    get2 (relax i s d a) u v = get2 a u v \/
    (u = s /\ v = d /\ i <> s /\ i <> d /\ s <> d /\
     exists p1 p2, get2 a s i = Some p1 /\ get2 a i d = Some p2 /\ p1 <> [] /\ p2 <> [] /\
       get2 (relax i s d a) u v = Some (p1 ++ p2) /\
       match get2 a s d with Some c => length (p1 ++ p2) < length c | None => True end).
  Proof.
    unfold relax. destruct (eqb i s) eqn:E1; [auto|]. destruct (eqb i d) eqn:E2; [auto|].
    destruct (eqb s d) eqn:E3; [auto|]. cbn [orb].
    assert (N1 : i <> s) by (intro X; apply eqb_eq in X; congruence).
    assert (N2 : i <> d) by (intro X; apply eqb_eq in X; congruence).
    assert (N3 : s <> d) by (intro X; apply eqb_eq in X; congruence).
    destruct (get2 a s i) as [[|x p1]|] eqn:G1; auto.
    destruct (get2 a i d) as [[|y p2]|] eqn:G2; auto.
    assert (Hs : dhas a s = true) by (apply dhas_in; eapply get2_some_key; eauto).
    destruct (get2 a s d) as [c|] eqn:G3.
    - destruct (Nat.ltb _ _) eqn:L; auto. rewrite get2_set2 by auto.
      destruct (eq_dec u s) as [->|]; auto. destruct (eq_dec v d) as [->|]; auto.
      right. repeat split; auto. exists (x :: p1), (y :: p2). repeat split; auto; try discriminate.
      apply Nat.ltb_lt in L. exact L.
    - rewrite get2_set2 by auto.
      destruct (eq_dec u s) as [->|]; auto. destruct (eq_dec v d) as [->|]; auto.
      right. repeat split; auto. exists (x :: p1), (y :: p2). repeat split; auto; discriminate.
  Qed.

  Lemma relax_sound E i s d a : sound E a -> sound E (relax i s d a).
  Proof.
    intros [Hw He Hd]. split; intros.
    - destruct (relax_get i s d a u v) as [Hg | (-> & -> & N1 & N2 & N3 & p1 & p2 & G1 & G2 & _ & _ & Hg & _)];
        rewrite Hg in *; [eauto|]. injection H0 as <-. eapply walk_app; eauto.
    - destruct (relax_get i s d a u v) as [Hg | (-> & -> & N1 & N2 & N3 & p1 & p2 & G1 & G2 & n1 & n2 & Hg & Hl)];
        rewrite Hg; [eauto|]. rewrite (He _ _ H0) in Hl. rewrite app_length in Hl. cbn in Hl.
      destruct p1, p2; try congruence; cbn in Hl; lia.
    - destruct (relax_get i s d a u u) as [Hg | (-> & -> & N1 & N2 & N3 & _)]; [|congruence].
      rewrite Hg in *; eauto.
  Qed.

  Lemma relax_le i s d a u v : len_le (get2 (relax i s d a) u v) (get2 a u v).
  Proof.
    destruct (relax_get i s d a u v) as [Hg | (-> & -> & N1 & N2 & N3 & p1 & p2 & G1 & G2 & _ & _ & Hg & Hl)];
      rewrite Hg; [apply len_le_refl|]. destruct (get2 a s d); cbn; [lia | auto].
  Qed.

  Lemma relax_row i s d a v : get2 (relax i s d a) i v = get2 a i v.
  Proof. destruct (relax_get i s d a i v) as [Hg | (-> & -> & N1 & _)]; [auto | congruence]. Qed.
  Lemma relax_col i s d a u : get2 (relax i s d a) u i = get2 a u i.
  Proof. destruct (relax_get i s d a u i) as [Hg | (-> & -> & N1 & N2 & _)]; [auto | congruence]. Qed.

  Definition via (i : P) a (s d : P) : Prop :=
    forall p1 p2, p1 <> [] -> p2 <> [] -> get2 a s i = Some p1 -> get2 a i d = Some p2 ->
      exists q, get2 a s d = Some q /\ length q <= length p1 + length p2.

  Lemma relax_via i s d a : i <> s -> i <> d -> s <> d -> via i (relax i s d a) s d.
  Proof.
    intros N1 N2 N3 p1 p2 n1 n2. rewrite relax_row, relax_col. intros G1 G2.
    unfold relax. destruct (eqb i s) eqn:E1; [apply eqb_eq in E1; congruence|].
    destruct (eqb i d) eqn:E2; [apply eqb_eq in E2; congruence|].
    destruct (eqb s d) eqn:E3; [apply eqb_eq in E3; congruence|]. cbn [orb].
    assert (Hs : dhas a s = true) by (apply dhas_in; eapply get2_some_key; eauto).
    rewrite G1, G2. destruct p1 as [|x p1]; [congruence|]. destruct p2 as [|y p2]; [congruence|].
    destruct (get2 a s d) as [c|] eqn:G3.
    - destruct (Nat.ltb _ _) eqn:L.
      + rewrite get2_set2 by auto. destruct (eq_dec s s); [|congruence]. destruct (eq_dec d d); [|congruence].
        eexists; split; [reflexivity|]. rewrite app_length. lia.
      + exists c. split; auto. apply Nat.ltb_ge in L. rewrite app_length in L. lia.
    - rewrite get2_set2 by auto. destruct (eq_dec s s); [|congruence]. destruct (eq_dec d d); [|congruence].
      eexists; split; [reflexivity|]. rewrite app_length. lia.
  Qed.

  (** ** One phase: relation kept by a sequence of relaxations through [i] *)
  Record phase E (i : P) (a b : routes P) : Prop := Phase {
    ph_keys : dkeys b = dkeys a;
    ph_sound : sound E a -> sound E b;
    ph_le : forall u v, len_le (get2 b u v) (get2 a u v);
    ph_row : forall v, get2 b i v = get2 a i v;
    ph_col : forall u, get2 b u i = get2 a u i }.

  Lemma phase_refl E i a : phase E i a a.
  Proof. split; auto using len_le_refl. Qed.
  Lemma phase_trans E i a b c : phase E i a b -> phase E i b c -> phase E i a c.
  Proof.
    intros [k1 s1 l1 r1 c1] [k2 s2 l2 r2 c2]. split; intros.
    - congruence.
    - auto.
    - eapply len_le_trans; eauto.
    - congruence.
    - congruence.
  Qed.
  Lemma phase_relax E i s d a : phase E i a (relax i s d a).
  Proof.
    split; intros.
    - apply dkeys_relax.
    - now apply relax_sound.
    - apply relax_le.
    - apply relax_row.
    - apply relax_col.
  Qed.
  Lemma via_phase E i a b s d : phase E i a b -> via i a s d -> via i b s d.
  Proof.
    intros [k1 s1 l1 r1 c1] Hv p1 p2 n1 n2. rewrite r1, c1. intros G1 G2.
    destruct (Hv p1 p2) as (q & Hq & Hl); auto.
    specialize (l1 s d). rewrite Hq in l1. destruct (get2 b s d) as [q'|]; [|contradiction].
    exists q'. split; auto. cbn in l1. lia.
  Qed.

  Definition inner (i s : P) (ds : list P) a := fold_left (fun a d => relax i s d a) ds a.
  Definition outer (i : P) (ss ds : list P) a := fold_left (fun a s => inner i s ds a) ss a.

  Lemma phase_inner E i s ds : forall a, phase E i a (inner i s ds a).
  Proof.
    induction ds as [|d ds IH]; intros a; cbn; [apply phase_refl|].
    eapply phase_trans; [apply phase_relax | apply IH].
  Qed.
  Lemma phase_outer E i ds ss : forall a, phase E i a (outer i ss ds a).
  Proof.
    induction ss as [|s ss IH]; intros a; cbn; [apply phase_refl|].
    eapply phase_trans; [apply phase_inner | apply IH].
  Qed.
  Lemma via_inner i s d ds : forall a, In d ds -> i <> s -> i <> d -> s <> d -> via i (inner i s ds a) s d.
  Proof.
    induction ds as [|x ds IH]; intros a [] N1 N2 N3; cbn; subst.
    - eapply (via_phase []); [apply phase_inner | now apply relax_via].
    - now apply IH.
  Qed.
  Lemma via_outer i s d ds ss : forall a, In s ss -> In d ds -> i <> s -> i <> d -> s <> d -> via i (outer i ss ds a) s d.
  Proof.
    induction ss as [|x ss IH]; intros a [] Hd N1 N2 N3; cbn; subst.
    - eapply (via_phase []); [apply phase_outer | now apply via_inner].
    - now apply IH.
  Qed.

  (** ** Floyd-Warshall *)
  Definition interior (p : list P) : list P := removelast p.

  Definition covers E (K : list P) a : Prop :=
    forall u v p, u <> v -> walk E u p v -> (forall x, In x (interior p) -> In x K) ->
      exists q, get2 a u v = Some q /\ length q <= length p.

  Lemma interior_app (p1 : list P) x p2 : p2 <> [] -> interior (p1 ++ x :: p2) = p1 ++ x :: interior p2.
  Proof.
    intros Hn. unfold interior. rewrite removelast_app by discriminate. f_equal.
    cbn. destruct p2; [congruence | reflexivity].
  Qed.
  Lemma interior_snoc (p : list P) x : interior (p ++ [x]) = p.
  Proof. unfold interior. apply removelast_last. Qed.

  Lemma phase_covers E K i ks a : sound E a -> covers E K a ->
    (forall u v, In (u, v) E -> In u ks /\ In v ks) ->
    covers E (i :: K) (outer i ks ks a).
  Proof.
    intros Hs Hc Hk.
    assert (Hb : phase E i a (outer i ks ks a)) by apply phase_outer.
    set (b := outer i ks ks a) in *.
    assert (Hn : forall n u v p, length p <= n -> u <> v -> walk E u p v ->
      (forall x, In x (interior p) -> In x (i :: K)) ->
      exists q, get2 b u v = Some q /\ length q <= length p).
    { induction n as [|n IH]; intros u v p Hl Huv Hw Hi.
      { apply walk_nonnil in Hw. destruct p; [congruence | cbn in Hl; lia]. }
      destruct (in_dec eq_dec i (interior p)) as [Hin | Hin].
      - (* split at the first occurrence *)
        assert (Hsp : exists p1 p2, p = p1 ++ i :: p2 /\ ~ In i p1 /\ p2 <> []).
        { destruct (walk_last _ _ _ _ Hw) as [p' Hp']. subst p. rewrite interior_snoc in Hin.
          clear - Hin H. induction p' as [|y p' IHp]; [destruct Hin|].
          destruct (eq_dec i y) as [<-|Hne].
          - exists [], (p' ++ [v]). repeat split; auto. destruct p'; discriminate.
          - destruct Hin as [|Hin]; [congruence|]. destruct (IHp Hin) as (p1 & p2 & E1 & E2 & E3).
            exists (y :: p1), p2. rewrite <- app_comm_cons, E1. repeat split; auto.
            cbn. intuition. }
        destruct Hsp as (p1 & p2 & -> & Hp1 & Hp2).
        rewrite interior_app in Hi by auto.
        apply walk_split in Hw as [Hw1 Hw2]. specialize (Hw2 Hp2).
        assert (L0 : length p2 >= 1) by (destruct p2; [congruence | cbn; lia]).
        rewrite app_length in Hl. cbn in Hl.
        destruct (eq_dec i u) as [->|Niu].
        { destruct (IH u v p2) as (q & Hq & Hql); auto; [lia | intros x Hx; apply Hi, in_or_app; right; now right |].
          exists q. split; auto. rewrite app_length. cbn. lia. }
        destruct (eq_dec i v) as [->|Niv].
        { destruct (IH u v (p1 ++ [v])) as (q & Hq & Hql); auto.
          - rewrite app_length. cbn. lia.
          - rewrite interior_snoc. intros x Hx. apply Hi, in_or_app. now left.
          - exists q. split; auto. rewrite !app_length in *. cbn in *. lia. }
        destruct (Hc u i (p1 ++ [i])) as (q1 & G1 & L1); auto.
        { rewrite interior_snoc. intros x Hx. specialize (Hi x (in_or_app _ _ _ (or_introl Hx))).
          destruct Hi as [<-|]; [contradiction | auto]. }
        destruct (IH i v p2) as (q2 & G2 & L2); auto; [lia | intros x Hx; apply Hi, in_or_app; right; now right |].
        assert (Huk : In u ks) by (inversion Hw1; subst; match goal with X : In (u, _) E |- _ => exact (proj1 (Hk _ _ X)) end).
        assert (Hvk : In v ks).
        { eapply walk_in; [exact Hk | exact Hw2 |]. destruct (walk_last _ _ _ _ Hw2) as [p' ->]. apply in_or_app; cbn; auto. }
        destruct (via_outer i u v ks ks a Huk Hvk Niu Niv Huv q1 q2) as (q & Hq & Hql).
        + eapply walk_nonnil, snd_walk; eauto.
        + eapply walk_nonnil, snd_walk; [apply (ph_sound _ _ _ _ Hb), Hs | exact G2].
        + fold b. now rewrite (ph_col _ _ _ _ Hb).
        + exact G2.
        + exists q. split; auto. rewrite app_length in *. cbn in *. lia.
      - destruct (Hc u v p) as (q & Hq & Hql); auto.
        { intros x Hx. destruct (Hi x Hx) as [<-|]; [contradiction | auto]. }
        pose proof (ph_le _ _ _ _ Hb u v) as Hle. rewrite Hq in Hle.
        destruct (get2 b u v) as [q'|]; [|contradiction]. exists q'. split; auto. cbn in Hle. lia. }
    intros u v p Huv Hw Hi. eapply Hn; eauto.
  Qed.

  Lemma fw_covers E ks is : (forall u v, In (u, v) E -> In u ks /\ In v ks) -> forall K a,
    sound E a -> covers E K a ->
    let b := fold_left (fun a i => outer i ks ks a) is a in
    sound E b /\ dkeys b = dkeys a /\ covers E (rev is ++ K) b.
  Proof.
    intros Hk. induction is as [|i is IH]; intros K a Hs Hc; cbn; [auto|].
    destruct (IH (i :: K) (outer i ks ks a)) as (h1 & h2 & h3).
    - apply (ph_sound _ _ _ _ (phase_outer E i ks ks a)), Hs.
    - now apply phase_covers.
    - split; [exact h1|split].
      + etransitivity; [exact h2|]. apply (ph_keys _ _ _ _ (phase_outer E i ks ks a)).
      + rewrite <- app_assoc. exact h3.
  Qed.

  Definition good E a : Prop :=
    sound E a /\ (forall u v, u <> v -> reachable E u v -> exists q, get2 a u v = Some q /\ shortest E u q v).

  Lemma update_good E a : sound E a -> (forall u v, In (u, v) E -> In u (dkeys a) /\ In v (dkeys a)) ->
    good E (wan_update a) /\ dkeys (wan_update a) = dkeys a.
  Proof.
    intros Hs Hk. unfold wan_update.
    destruct (fw_covers E (dkeys a) (dkeys a) Hk [] a Hs) as (h1 & h2 & h3).
    - intros u v p Huv Hw Hi. destruct (walk_last _ _ _ _ Hw) as [p' ->]. rewrite interior_snoc in Hi.
      destruct p' as [|x p']; [|destruct (Hi x); cbn; auto].
      cbn in Hw. inversion Hw; subst; [|now apply walk_nonnil in H5].
      exists [v]. split; auto. now apply (snd_edge _ _ Hs).
    - unfold outer, inner in *. split; [|exact h2]. split; [exact h1|].
      intros u v Huv [p Hw].
      assert (Hall : forall p, walk E u p v -> forall x, In x (interior p) -> In x (rev (dkeys a) ++ [])).
      { intros q Hq x Hx. rewrite app_nil_r, <- in_rev.
        clear - Hq Hx Hk H. assert (Hx' : In x q).
        { unfold interior in Hx. clear - Hx. induction q as [|y q IH]; [destruct Hx|].
          cbn in Hx. destruct q; [destruct Hx|]. destruct Hx as [->|Hx]; [now left | right; now apply IH]. }
        eapply walk_in; eauto. }
      destruct (h3 u v p Huv Hw) as (q & Hq & Hl); [now apply Hall|].
      exists q. split; auto. split; [now apply (snd_walk _ _ h1)|].
      intros q' Hq'. destruct (h3 u v q' Huv Hq') as (q2 & Hq2 & Hl2); [now apply Hall|].
      rewrite Hq in Hq2. injection Hq2 as <-. lia.
  Qed.

  (** ** The abstract graph *)
  Definition g_wf (g : graph P) : Prop :=
    NoDup (g_nodes g) /\
    (forall u v, In (u, v) (g_edges g) -> In u (g_nodes g) /\ In v (g_nodes g)).

  Definition rows_nodup (a : routes P) : Prop := forall s row, dget a s = Some row -> NoDup (dkeys row).

  Record inv (g : graph P) a : Prop := Inv {
    i_wf : g_wf g;
    i_keys : dkeys a = g_nodes g;
    i_rows : rows_nodup a;
    i_sound : sound (g_edges g) a }.

  Lemma dget_filter {V} (f : P * V -> bool) (d : dict P V) k : NoDup (dkeys d) ->
    dget (filter f d) k = match dget d k with Some v => if f (k, v) then Some v else None | None => None end.
  Proof.
    induction d as [|[k' v] d IH]; cbn; intros Hn; auto. inversion Hn; subst.
    destruct (eq_dec k k') as [->|].
    - destruct (f (k', v)) eqn:Ef; cbn.
      + destruct (eq_dec k' k'); congruence.
      + rewrite IH by auto. apply dget_none in H2. now rewrite H2.
    - destruct (f (k', v)); cbn; [destruct (eq_dec k k'); [congruence|]|]; now apply IH.
  Qed.

  Lemma NoDup_filter_keys {V} (f : P * V -> bool) (d : dict P V) : NoDup (dkeys d) -> NoDup (dkeys (filter f d)).
  Proof.
    induction d as [|[k v] d IH]; cbn; intros Hn; auto. inversion Hn; subst.
    destruct (f (k, v)); cbn; auto. constructor; auto.
    intro Hi. apply H2. clear - Hi. unfold dkeys in *. apply in_map_iff in Hi as (x & <- & Hx).
    apply filter_In in Hx as [Hx _]. now apply in_map.
  Qed.

  Lemma dget_map {V W} (f : P -> V -> W) (d : dict P V) k :
    dget (map (fun pr => (fst pr, f (fst pr) (snd pr))) d) k = option_map (f k) (dget d k).
  Proof. induction d as [|[k' v] d IH]; cbn; auto. destruct (eq_dec k k'); subst; auto. Qed.

  Lemma clean_row_nodup r (row : dict P (list P)) : NoDup (dkeys row) -> NoDup (dkeys (clean_row r row)).
  Proof.
    intros. unfold clean_row. apply NoDup_filter_keys. destruct (dhas row r); auto. now apply nodup_ddel.
  Qed.

  Lemma clean_row_get r (row : dict P (list P)) v : NoDup (dkeys row) ->
    dget (clean_row r row) v =
    if eq_dec v r then None else match dget row v with Some p => if smem p r then None else Some p | None => None end.
  Proof.
    intros Hn. unfold clean_row.
    set (row' := if dhas row r then ddel row r else row).
    assert (Hn' : NoDup (dkeys row')) by (unfold row'; destruct (dhas row r); auto using nodup_ddel).
    rewrite dget_filter by auto.
    assert (Hg : dget row' v = if eq_dec v r then None else dget row v).
    { unfold row'. destruct (dhas row r) eqn:E.
      - now rewrite dget_ddel.
      - apply dhas_false in E. destruct (eq_dec v r); subst; auto. }
    rewrite Hg. destruct (eq_dec v r); auto. destruct (dget row v); auto. cbn. now destruct (smem l r).
  Qed.

  Lemma clear_get2 r a u v : rows_nodup a -> dhas a r = true ->
    get2 (wan_clear r a) u v =
    if eq_dec u r then None else if eq_dec v r then None
    else match get2 a u v with Some p => if smem p r then None else Some p | None => None end.
  Proof.
    intros Hn Hr. unfold get2 at 1, wan_clear.
    rewrite (dget_map (fun _ row => clean_row r row)). rewrite dget_dset.
    destruct (eq_dec u r) as [->|Hu]; cbn; [reflexivity|].
    unfold get2. destruct (dget a u) as [row|] eqn:Er; cbn.
    - apply clean_row_get. eauto.
    - destruct (eq_dec v r); reflexivity.
  Qed.

  Lemma clear_keys r a : dhas a r = true -> dkeys (wan_clear r a) = dkeys a.
  Proof.
    intros Hr. unfold wan_clear. unfold dkeys at 1. rewrite map_map. cbn.
    change (map (fun x => fst x) (dset a r [])) with (dkeys (dset a r [])).
    apply dkeys_dset_has. now apply dhas_in.
  Qed.

  Lemma clear_rows r a : rows_nodup a -> rows_nodup (wan_clear r a).
  Proof.
    intros Hn s row. unfold wan_clear. rewrite (dget_map (fun _ row => clean_row r row)).
    rewrite dget_dset. destruct (eq_dec s r); cbn.
    - intros [= <-]. constructor.
    - destruct (dget a s) eqn:E; [|discriminate]. cbn. intros [= <-]. apply clean_row_nodup. eauto.
  Qed.

  Lemma set2_rows a s d p : rows_nodup a -> rows_nodup (set2 a s d p).
  Proof.
    intros Hn x row. unfold set2. destruct (dget a s) eqn:E; [|eauto].
    rewrite dget_dset. destruct (eq_dec x s); [|eauto]. intros [= <-]. apply nodup_dset. eauto.
  Qed.

  Lemma relax_rows i s d a : rows_nodup a -> rows_nodup (relax i s d a).
  Proof.
    intros. unfold relax. destruct (_ || _); auto.
    destruct (get2 a s i) as [[|]|]; auto. destruct (get2 a i d) as [[|]|]; auto.
    destruct (get2 a s d); [destruct (Nat.ltb _ _)|]; auto using set2_rows.
  Qed.
  Lemma update_rows a : rows_nodup a -> rows_nodup (wan_update a).
  Proof.
    unfold wan_update. generalize (dkeys a) as k. intros k.
    assert (H1 : forall i s ds b, rows_nodup b -> rows_nodup (fold_left (fun a d => relax i s d a) ds b))
      by (intros i s ds; induction ds; cbn; intros; auto using relax_rows).
    assert (H2 : forall i ds ss b, rows_nodup b ->
      rows_nodup (fold_left (fun a s => fold_left (fun a d => relax i s d a) ds a) ss b))
      by (intros i ds ss; induction ss; cbn; intros; auto).
    assert (H3 : forall ds is b, rows_nodup b ->
      rows_nodup (fold_left (fun a i => fold_left (fun a s => fold_left (fun a d => relax i s d a) ds a) ds a) is b))
      by (intros ds is; induction is; cbn; intros; auto).
    intros. apply H3. auto.
  Qed.

  Lemma clear_sound E r a : sound E a -> rows_nodup a -> dhas a r = true ->
    sound (filter (fun e => negb (eqb (fst e) r) && negb (eqb (snd e) r)) E) (wan_clear r a).
  Proof.
    intros [Hw He Hd] Hn Hr.
    assert (Hf : forall x y, In (x, y) (filter (fun e => negb (eqb (fst e) r) && negb (eqb (snd e) r)) E) <->
      In (x, y) E /\ x <> r /\ y <> r).
    { intros x y. rewrite filter_In. cbn. rewrite andb_true_iff, !negb_true_iff.
      rewrite <- !not_true_iff_false, !eqb_eq. tauto. }
    split; intros.
    - rewrite clear_get2 in H0 by auto. destruct (eq_dec u r); [discriminate|].
      destruct (eq_dec v r); [discriminate|]. destruct (get2 a u v) as [q|] eqn:G; [|discriminate].
      destruct (smem q r) eqn:M; [discriminate|]. injection H0 as <-.
      eapply walk_avoid; eauto.
      + intro Hi. apply smem_true in Hi. congruence.
      + intros. apply Hf. auto.
    - apply Hf in H0 as (Hi & Hu & Hv). rewrite clear_get2 by auto.
      destruct (eq_dec u r); [congruence|]. destruct (eq_dec v r); [congruence|].
      rewrite (He _ _ Hi). destruct (smem [v] r) eqn:M; auto.
      apply smem_true in M. destruct M as [|[]]. congruence.
    - rewrite clear_get2 in H0 by auto. destruct (eq_dec u r); [discriminate|].
      destruct (get2 a u u) eqn:G; [|discriminate]. destruct (smem l r); [discriminate|].
      injection H0 as <-. eauto.
  Qed.

  (** one direct connection *)
  Lemma add_sound E r d a : sound E a -> dhas a r = true -> dhas a d = true ->
    (forall v p, get2 a r v = Some p -> p = [v]) -> (forall u p, get2 a u r = Some p -> p = [r]) ->
    let a' := set2 (set2 a r d [d]) d r [r] in
    sound (E ++ [(r, d); (d, r)]) a' /\ dkeys a' = dkeys a /\
    (forall v p, get2 a' r v = Some p -> p = [v]) /\ (forall u p, get2 a' u r = Some p -> p = [r]).
  Proof.
    intros [Hw He Hd] Hr Hdk H1 H2 a'.
    assert (Hk : dkeys (set2 a r d [d]) = dkeys a) by apply dkeys_set2.
    assert (Hdk' : dhas (set2 a r d [d]) d = true) by (now rewrite (dhas_keys _ a)).
    assert (Hg : forall u v, get2 a' u v =
      if (if eq_dec u d then if eq_dec v r then true else false else false) then Some [r]
      else if (if eq_dec u r then if eq_dec v d then true else false else false) then Some [d]
      else get2 a u v).
    { intros u v. unfold a'. rewrite get2_set2 by auto. rewrite get2_set2 by auto. reflexivity. }
    assert (Hc : forall u v p, get2 a' u v = Some p ->
      (u = d /\ v = r /\ p = [r]) \/ (u = r /\ v = d /\ p = [d]) \/ get2 a u v = Some p).
    { intros u v p. rewrite Hg.
      destruct (eq_dec u d), (eq_dec v r), (eq_dec u r), (eq_dec v d); intros Hq; auto;
        injection Hq as <-; auto. }
    assert (Hn : forall u v, get2 a u v = Some [v] -> get2 a' u v = Some [v]).
    { intros u v Hq. rewrite Hg.
      destruct (eq_dec u d), (eq_dec v r), (eq_dec u r), (eq_dec v d); subst; auto. }
    split; [split|split; [|split]]; intros.
    - destruct (Hc _ _ _ H0) as [(-> & -> & ->)|[(-> & -> & ->)|Hq]].
      + constructor. apply in_or_app; cbn; auto.
      + constructor. apply in_or_app; cbn; auto.
      + eapply walk_mono; [|eauto]. intros; apply in_or_app; auto.
    - apply in_app_or in H0 as [H0|H0]; [auto|].
      rewrite Hg. destruct H0 as [[= <- <-]|[[= <- <-]|[]]].
      + destruct (eq_dec r r); [|congruence]. destruct (eq_dec d d); [|congruence].
        destruct (eq_dec r d), (eq_dec d r); subst; auto.
      + destruct (eq_dec r r); [|congruence]. destruct (eq_dec d d); [|congruence]. reflexivity.
    - destruct (Hc _ _ _ H0) as [(-> & Hx & ->)|[(-> & Hx & ->)|Hq]]; [congruence | congruence | eauto].
    - unfold a'. now rewrite dkeys_set2, dkeys_set2.
    - destruct (Hc _ _ _ H0) as [(Hx & -> & ->)|[(_ & -> & ->)|Hq]]; [congruence | congruence | eauto].
    - destruct (Hc _ _ _ H0) as [(_ & _ & ->)|[(_ & Hx & ->)|Hq]]; [congruence | congruence | eauto].
  Qed.

  Lemma add_run r ds : forall E a ns, sound E a -> dkeys a = ns -> rows_nodup a -> In r ns ->
    (forall v p, get2 a r v = Some p -> p = [v]) -> (forall u p, get2 a u r = Some p -> p = [r]) ->
    let b := fst (wan_add r ds a) in
    sound (E ++ flat_map (fun d => [(r, d); (d, r)]) (known ns ds)) b /\ dkeys b = ns /\ rows_nodup b /\
    (snd (wan_add r ds a) = if forallb (fun d => smem ns d) ds then Ok tt else Raise GenericException).
  Proof.
    induction ds as [|d ds IH]; intros E a ns Hs Hk Hn Hr H1 H2; cbn [wan_add known flat_map forallb fst snd].
    { rewrite app_nil_r. auto. }
    assert (Hh : dhas a d = smem ns d).
    { destruct (dhas a d) eqn:X; symmetry.
      - apply smem_true. rewrite <- Hk. now apply dhas_in.
      - apply not_true_iff_false. intro Y. apply smem_true in Y. rewrite <- Hk in Y.
        apply dhas_in in Y. congruence. }
    rewrite Hh. unfold smem. destruct (in_dec eq_dec d ns) as [Hd|Hd]; cbn [negb fst snd andb].
    - destruct (add_sound E r d a) as (g1 & g2 & g3 & g4); auto.
      { apply dhas_in. now rewrite Hk. } { apply dhas_in. now rewrite Hk. }
      cbn zeta in *.
      destruct (IH _ _ ns g1) as (f1 & f2 & f3 & f4); auto.
      + now rewrite g2.
      + apply set2_rows, set2_rows, Hn.
      + split; [|auto]. cbn [flat_map app]. rewrite <- app_assoc in f1. exact f1.
    - cbn. rewrite app_nil_r. auto.
  Qed.

  Lemma known_in (ns ds : list P) x : In x (known ns ds) -> In x ns.
  Proof.
    induction ds as [|d ds IH]; cbn; [tauto|].
    destruct (in_dec eq_dec d ns); cbn; [intros [<-|]; auto | tauto].
  Qed.

  Lemma g_step_wf o (g : graph P) : g_wf g -> g_wf (g_step o g).
  Proof.
    intros [Hn He]. destruct o as [p|r ds]; cbn.
    - destruct (in_dec eq_dec p (g_nodes g)); [now split|]. split; cbn.
      + now apply NoDup_snoc.
      + intros u v Hi. destruct (He _ _ Hi). split; apply in_or_app; auto.
    - destruct (in_dec eq_dec r (g_nodes g)) as [Hr|]; [|now split]. split; cbn; [auto|].
      intros u v Hi. apply in_app_or in Hi as [Hi|Hi].
      + apply filter_In in Hi as [Hi _]. auto.
      + apply in_flat_map in Hi as (d & Hd & Hi). apply known_in in Hd.
        destruct Hi as [[= <- <-]|[[= <- <-]|[]]]; auto.
  Qed.

  Definition set_ok (g : graph P) (o : wop P) : bool :=
    match o with
    | WReg p => negb (smem (g_nodes g) p)
    | WSet r ds => smem (g_nodes g) r && forallb (fun d => smem (g_nodes g) d) ds
    end.

  Lemma dhas_node g a p : dkeys a = g_nodes g -> dhas a p = smem (g_nodes (P:=P) g) p.
  Proof.
    intros Hk. destruct (dhas a p) eqn:X; symmetry.
    - apply smem_true. rewrite <- Hk. now apply dhas_in.
    - apply not_true_iff_false. intro Y. apply smem_true in Y. rewrite <- Hk in Y.
      apply dhas_in in Y. congruence.
  Qed.

  Lemma step_inv o g a : inv g a ->
    inv (g_step o g) (fst (wan_step o a)) /\
    (snd (wan_step o a) = if set_ok g o then Ok tt else Raise GenericException) /\
    (match o with WSet _ _ => set_ok g o = true -> good (g_edges (g_step o g)) (fst (wan_step o a)) | WReg _ => True end) /\
    (match o with WReg _ => good (g_edges g) a -> good (g_edges (g_step o g)) (fst (wan_step o a)) | WSet _ _ => True end).
  Proof.
    intros [Hwf Hk Hn Hs]. pose proof (g_step_wf o g Hwf) as Hwf'.
    destruct o as [p|r ds]; cbn [wan_step set_ok].
    - unfold wan_register. rewrite (dhas_node g) by auto. unfold smem. cbn [g_step] in *.
      destruct (in_dec eq_dec p (g_nodes g)) as [Hp|Hp]; cbn [fst snd negb].
      { split; [now split | auto]. }
      assert (Hnone : dget a p = None) by (apply dget_none; now rewrite Hk).
      assert (Hg : forall u v, get2 (dset a p []) u v = get2 a u v).
      { intros u v. unfold get2. rewrite dget_dset. destruct (eq_dec u p); subst; auto. now rewrite Hnone. }
      assert (Hs' : sound (g_edges g) (dset a p [])).
      { destruct Hs as [s1 s2 s3]. split; intros; rewrite ?Hg in *; eauto. }
      split; [split; auto|].
      + cbn. rewrite dkeys_dset_new, Hk; [auto | now rewrite Hk].
      + intros s row. rewrite dget_dset. destruct (eq_dec s p); [intros [= <-]; constructor | eauto].
      + split; [auto|]. split; [auto|]. intros [_ Hg0]. split; cbn; auto.
        intros u v Huv Hr. destruct (Hg0 u v Huv Hr) as (q & Hq & Hsh). exists q. rewrite Hg. auto.
    - unfold wan_set. rewrite (dhas_node g) by auto.
      destruct (smem (g_nodes g) r) eqn:Hm; cbn [g_step fst snd negb andb] in *;
      destruct (in_dec eq_dec r (g_nodes g)) as [Hr|Hr];
        try (exfalso; rewrite <- ?not_true_iff_false, smem_true in Hm; now auto).
      2: { split; [now split|]. split; auto. split; [discriminate|auto]. }
      assert (Hh : dhas a r = true) by (apply dhas_in; now rewrite Hk).
      destruct (add_run r ds _ (wan_clear r a) (g_nodes g) (clear_sound _ r a Hs Hn Hh)) as (f1 & f2 & f3 & f4); auto.
      { now rewrite clear_keys. } { now apply clear_rows. }
      { intros v p. rewrite clear_get2 by auto. destruct (eq_dec r r); congruence. }
      { intros u p. rewrite clear_get2 by auto. destruct (eq_dec u r); [discriminate|].
        destruct (eq_dec r r); congruence. }
      cbn zeta in *. destruct (wan_add r ds (wan_clear r a)) as [b [[]|e]] eqn:Ea; cbn [fst snd] in *.
      + assert (Hok : forallb (fun d => smem (g_nodes g) d) ds = true) by (destruct (forallb _ ds); congruence).
        rewrite Hok.
        destruct (update_good _ b f1) as [Hg Hk2].
        { intros u v Hi. rewrite f2. destruct Hwf' as [_ He]. cbn in He. apply He. exact Hi. }
        split; [|auto]. split; auto.
        * cbn. now rewrite Hk2.
        * now apply update_rows.
        * apply Hg.
      + assert (Hok : forallb (fun d => smem (g_nodes g) d) ds = false) by (destruct (forallb _ ds); congruence).
        rewrite Hok in *. split; [split; auto|].
        split; [auto|]. split; [discriminate|auto].
  Qed.

  Lemma run_inv os : forall g a, inv g a -> inv (g_run os g) (wan_run os a).
  Proof.
    induction os as [|o os IH]; cbn; intros; auto. apply IH. now apply step_inv.
  Qed.

  Lemma inv_new : inv g_new (routes_new (P:=P)).
  Proof.
    split.
    - split; [constructor | intros u v []].
    - reflexivity.
    - intros s row. discriminate.
    - split; intros; try discriminate. destruct H0.
  Qed.

  Lemma run_app os1 os2 (a : routes P) : wan_run (os1 ++ os2) a = wan_run os2 (wan_run os1 a).
  Proof. revert a. induction os1; cbn; intros; auto. Qed.
  Lemma g_run_app os1 os2 (g : graph P) : g_run (os1 ++ os2) g = g_run os2 (g_run os1 g).
  Proof. revert g. induction os1; cbn; intros; auto. Qed.

  Lemma regs_good ps : forall g a, inv g a -> good (g_edges g) a ->
    good (g_edges (g_run (map (@WReg P) ps) g)) (wan_run (map (@WReg P) ps) a).
  Proof.
    induction ps as [|p ps IH]; cbn; intros g a Hi Hg; auto.
    apply IH.
    - apply (step_inv (WReg p) g a Hi).
    - apply (step_inv (WReg p) g a Hi). exact Hg.
  Qed.

  (** ** Following next hops *)
  Lemma shortest_suffix E u w p v : shortest E u (w :: p) v -> p <> [] -> shortest E w p v.
  Proof.
    intros [Hw Hm] Hp. inversion Hw; subst; [congruence|]. split; auto.
    intros q Hq. specialize (Hm (w :: q)). cbn in Hm.
    assert (walk E u (w :: q) v) by (econstructor; eauto). specialize (Hm H0). lia.
  Qed.

  Lemma shortest_ne E u p v : shortest E u p v -> length p >= 2 -> forall w p', p = w :: p' -> w <> v.
  Proof.
    intros [Hw Hm] Hl w p' -> ->. inversion Hw; subst; [cbn in Hl; lia|].
    match goal with X : In (u, v) E |- _ => specialize (Hm [v] (walk_one _ _ _ X)) end. cbn in Hm, Hl. lia.
  Qed.

  Lemma follow_good E a : good E a -> forall n u v p, length p = n -> u <> v -> shortest E u p v ->
    follow (wan_next_hop a) n u v = Some v.
  Proof.
    intros [Hs Hg]. induction n as [|n IH]; intros u v p Hl Huv Hsh.
    { destruct Hsh as [Hw _]. apply walk_nonnil in Hw. destruct p; cbn in Hl; congruence. }
    destruct (Hg u v Huv) as (q & Hq & Hshq); [exists p; apply Hsh|].
    assert (Hlq : length q = S n).
    { destruct Hshq as [w1 m1], Hsh as [w2 m2]. specialize (m1 _ w2). specialize (m2 _ w1). lia. }
    cbn. unfold wan_next_hop. rewrite Hq. destruct q as [|w q]; [discriminate|].
    cbn in Hlq. injection Hlq as Hlq. destruct q as [|x q].
    - cbn in Hlq. subst n. cbn. destruct Hshq as [w1 _]. apply walk_last in w1 as [p' Hp'].
      destruct p' as [|y [|]]; cbn in Hp'; congruence.
    - apply (IH w v (x :: q)); auto.
      + eapply shortest_ne; [exact Hshq | cbn; lia | reflexivity].
      + eapply shortest_suffix; [exact Hshq | discriminate].
  Qed.
End W.
