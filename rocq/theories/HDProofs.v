From Coq Require Import List ZArith Bool Lia.
From Verif Require Import PyBase PyLemmas HDModel HDSpec.
Import ListNotations.

Section HDP.
  Context {K V : Type} `{EqDec K}.
  Notation hd := (hd K V).

  Section Ind.
    Variable P : hd -> Prop.
    Variable HP : forall t s, Forall (fun x => P (snd x)) s -> P (HD t s).
    Fixpoint hd_ind' (d : hd) : P d :=
      match d with
      | HD t s => HP t s ((fix go (s : list (K * hd)) : Forall (fun x => P (snd x)) s :=
          match s with
          | [] => Forall_nil _
          | x :: r => Forall_cons x (hd_ind' (snd x)) (go r)
          end) s)
      end.
  End Ind.

  Inductive wf : hd -> Prop :=
  | wf_HD t s : NoDup (dkeys t) -> NoDup (dkeys s) -> (forall k c, In (k, c) s -> wf c) -> wf (HD t s).

  Fixpoint paths (d : hd) : list (list K) :=
    match d with
    | HD t s => map (fun k => [k]) (dkeys t)
                ++ flat_map (fun x => map (cons (fst x)) (paths (snd x))) s
    end.

  Lemma paths_eq t s : paths (HD t s) = map (fun k => [k]) (dkeys t)
                ++ flat_map (fun x => map (cons (fst x)) (paths (snd x))) s.
  Proof. reflexivity. Qed.

  Lemma paths_nonempty d p : In p (paths d) -> p <> [].
  Proof.
    destruct d as [t s]. rewrite paths_eq, in_app_iff, in_map_iff, in_flat_map.
    intros [[k [<- _]]|[x [_ I]]]; [discriminate|]. apply in_map_iff in I as [q [<- _]]. discriminate.
  Qed.

  Lemma len_paths d : hd_len d = length (paths d).
  Proof.
    induction d as [t s IH] using hd_ind'. rewrite paths_eq, app_length, map_length. simpl.
    unfold dkeys. rewrite map_length. f_equal.
    induction s as [|[k c] s IHs]; simpl; auto. inversion IH; subst. simpl in *.
    rewrite app_length, map_length. rewrite IHs by auto. lia.
  Qed.

  Lemma paths_lookup d : wf d -> forall p, In p (paths d) <-> exists v, hd_lookup p d = Ok v.
  Proof.
    induction d as [t s IH] using hd_ind'. intros W p. inversion W as [? ? NT NS WS]; subst.
    rewrite paths_eq, in_app_iff, in_map_iff, in_flat_map. destruct p as [|k [|k2 r]].
    - simpl. split; [|intros [v E]; discriminate].
      intros [[? [? _]]|[x [_ I]]]; [discriminate|]. apply in_map_iff in I as [q [? _]]. discriminate.
    - simpl. split.
      + intros [[k' [E I]]|[x [I J]]].
        * inversion E; subst. apply dhas_in, dhas_true in I as [v I]. exists v. unfold dget_e. now rewrite I.
        * apply in_map_iff in J as [q [E J]]. inversion E; subst. now apply paths_nonempty in J.
      + intros [v E]. left. exists k. split; auto. unfold dget_e in E.
        destruct (dget t k) eqn:G; [|discriminate]. eapply dget_some_in_keys; eauto.
    - change (hd_lookup (k :: k2 :: r) (HD t s)) with
        (match dget s k with None => Raise KeyError | Some c => hd_lookup (k2 :: r) c end).
      rewrite Forall_forall in IH. split.
      + intros [[k' [E I]]|[[k' c] [I J]]]; [discriminate|].
        apply in_map_iff in J as [q [E J]]. inversion E; subst.
        rewrite (in_dget s k c) by auto. apply (IH (k, c) I (WS _ _ I) (k2 :: r)); auto.
      + intros [v E]. right. destruct (dget s k) as [c|] eqn:G; [|discriminate].
        apply dget_in in G. exists (k, c). split; auto. simpl. apply in_map.
        apply (IH (k, c) G (WS _ _ G) (k2 :: r)); eauto.
  Qed.

  Lemma nodup_map_cons (k : K) l : NoDup l -> NoDup (map (cons k) l).
  Proof. induction 1; simpl; constructor; auto. rewrite in_map_iff. intros [y [E I]]. congruence. Qed.
  Lemma nodup_app {A} (l m : list A) : NoDup l -> NoDup m -> (forall x, In x l -> ~ In x m) -> NoDup (l ++ m).
  Proof.
    induction 1; simpl; auto. intros NM D. constructor.
    - rewrite in_app_iff. intros [I|I]; auto. apply (D x); auto.
    - apply IHNoDup; auto.
  Qed.

  Lemma paths_nodup d : wf d -> NoDup (paths d).
  Proof.
    induction d as [t s IH] using hd_ind'. intros W. inversion W as [? ? NT NS WS]; subst.
    rewrite paths_eq. apply nodup_app.
    - clear -NT. induction NT; simpl; constructor; auto. rewrite in_map_iff. intros [y [E I]]. congruence.
    - clear NT W. induction s as [|[k c] s IHs]; simpl; [constructor|].
      inversion NS; subst. inversion IH; subst. apply nodup_app.
      + apply nodup_map_cons. apply H4. eapply WS. simpl; eauto.
      + apply IHs; auto. intros. eapply WS; simpl; eauto.
      + intros x I J. apply in_map_iff in I as [q [<- I]]. apply in_flat_map in J as [[k' c'] [A B]].
        apply in_map_iff in B as [q' [E B]]. simpl in *. inversion E; subst. apply H2.
        change k with (fst (k, c')). now apply in_map.
    - intros x I J. apply in_map_iff in I as [k [<- I]]. apply in_flat_map in J as [[k' c'] [A B]].
      apply in_map_iff in B as [q' [E B]]. inversion E; subst. now apply paths_nonempty in B.
  Qed.

  Lemma wf_empty : wf (hd_empty : hd).
  Proof. constructor; try constructor. intros ? ? []. Qed.

  Lemma lookup_empty ks : hd_lookup ks (hd_empty : hd) = Raise KeyError.
  Proof. destruct ks as [|k [|k2 r]]; reflexivity. Qed.

  Lemma lookup_keyerror ks : forall d : hd, forall e, hd_lookup ks d = Raise e -> e = KeyError.
  Proof.
    induction ks as [|k [|k2 r] IH]; intros d e E.
    - simpl in E; congruence.
    - simpl in E. unfold dget_e in E. destruct (dget _ _); congruence.
    - cbn [hd_lookup] in E. destruct (dget (hd_subs d) k); [|congruence]. eapply IH; eauto.
  Qed.

  Lemma in_dset (d : dict K hd) k v x : In x (dset d k v) -> x = (k, v) \/ In x d.
  Proof.
    induction d as [|[a b] r IH]; simpl; [intuition|]. destruct (eq_dec k a); simpl.
    - subst. intuition.
    - intros [E|E]; auto. destruct (IH E); auto.
  Qed.

  Lemma store_spec ks : forall v d, ks <> [] -> wf d ->
    exists d', hd_store ks v d = Ok d' /\ wf d' /\
      forall ks', hd_lookup ks' d' = if eq_dec ks' ks then Ok v else hd_lookup ks' d.
  Proof.
    induction ks as [|k [|k2 r] IH]; intros v d N W; [congruence| |].
    - eexists. split; [reflexivity|]. destruct d as [t s]. inversion W; subst. split.
      + constructor; simpl; auto using nodup_dset.
      + intros [|a [|b q]]; simpl.
        * destruct (eq_dec [] [k]); [discriminate|reflexivity].
        * unfold dget_e. rewrite dget_dset. destruct (eq_dec a k); destruct (eq_dec [a] [k]); congruence.
        * destruct (eq_dec (a :: b :: q) [k]); [discriminate|reflexivity].
    - cbn [hd_store]. set (sub := match dget (hd_subs d) k with Some s => s | None => hd_empty end).
      assert (WS : wf sub).
      { unfold sub. destruct (dget (hd_subs d) k) eqn:G; [|apply wf_empty].
        destruct d; inversion W as [? ? ? ? WC]; subst. eapply WC. eapply dget_in; eauto. }
      destruct (IH v sub) as (s' & E & W' & L); [discriminate|auto|]. cbn [hd_store] in E. rewrite E.
      eexists. split; [reflexivity|]. destruct d as [t s]. inversion W; subst. cbn [hd_terms hd_subs] in *. split.
      + constructor; auto using nodup_dset. intros a c I. apply in_dset in I as [I|I].
        * congruence.
        * eauto.
      + intros [|a [|b q]].
        * cbn [hd_lookup]. destruct (eq_dec [] (k :: k2 :: r)); [discriminate|reflexivity].
        * cbn [hd_lookup]. destruct (eq_dec [a] (k :: k2 :: r)); [discriminate|reflexivity].
        * change (hd_lookup (a :: b :: q) (HD t (dset s k s'))) with
            (match dget (dset s k s') a with None => Raise KeyError | Some c => hd_lookup (b :: q) c end).
          change (hd_lookup (a :: b :: q) (HD t s)) with
            (match dget s a with None => Raise KeyError | Some c => hd_lookup (b :: q) c end).
          rewrite dget_dset. destruct (eq_dec a k).
          -- subst a. rewrite L.
             destruct (eq_dec (b :: q) (k2 :: r)) as [Eq|Ne].
             ++ destruct (eq_dec (k :: b :: q) (k :: k2 :: r)); congruence.
             ++ destruct (eq_dec (k :: b :: q) (k :: k2 :: r)); [congruence|].
                unfold sub. destruct (dget s k); auto. apply lookup_empty.
          -- destruct (eq_dec (a :: b :: q) (k :: k2 :: r)); congruence.
  Qed.

  Lemma len0_lookup d : wf d -> hd_len d = 0%nat -> forall ks, hd_lookup ks d = Raise KeyError.
  Proof.
    intros W L ks. destruct (hd_lookup ks d) eqn:E.
    - assert (In ks (paths d)) by (apply paths_lookup; eauto).
      rewrite len_paths in L. destruct (paths d); [contradiction|discriminate].
    - apply lookup_keyerror in E. congruence.
  Qed.

  Lemma lookup2 k k2 r (t : dict K V) s : hd_lookup (k :: k2 :: r) (HD t s) =
    match dget s k with None => Raise KeyError | Some c => hd_lookup (k2 :: r) c end.
  Proof. reflexivity. Qed.
  Lemma delete2 k k2 r (t : dict K V) s : hd_delete (k :: k2 :: r) (HD t s) =
    match dget s k with
    | None => Raise KeyError
    | Some c => match hd_delete (k2 :: r) c with
                | Raise e => Raise e
                | Ok s' => if Nat.eqb (hd_len s') 0 then Ok (HD t (ddel s k)) else Ok (HD t (dset s k s'))
                end
    end.
  Proof. reflexivity. Qed.

  Lemma delete_spec ks : forall d, wf d ->
    match hd_lookup ks d with
    | Raise _ => hd_delete ks d = Raise KeyError
    | Ok _ => exists d', hd_delete ks d = Ok d' /\ wf d' /\
        forall ks', hd_lookup ks' d' = if eq_dec ks' ks then Raise KeyError else hd_lookup ks' d
    end.
  Proof.
    induction ks as [|k [|k2 r] IH]; intros d W; [reflexivity| |].
    - destruct d as [t s]. cbn [hd_lookup hd_delete hd_terms hd_subs]. unfold dget_e, ddel_e, dhas.
      destruct (dget t k) eqn:G; [|reflexivity]. eexists. split; [reflexivity|].
      inversion W; subst. split; [constructor; auto using nodup_ddel|].
      intros [|a [|b q]]; simpl.
      + destruct (eq_dec [] [k]); [discriminate|reflexivity].
      + unfold dget_e. rewrite dget_ddel by auto. destruct (eq_dec a k); destruct (eq_dec [a] [k]); congruence.
      + destruct (eq_dec (a :: b :: q) [k]); [discriminate|reflexivity].
    - destruct d as [t s]. rewrite lookup2, delete2.
      destruct (dget s k) as [c|] eqn:G; [|reflexivity].
      inversion W; subst. assert (WC : wf c) by (eapply H4; eapply dget_in; eauto).
      specialize (IH c WC). destruct (hd_lookup (k2 :: r) c) as [vv|ee] eqn:L.
      2:{ now rewrite IH. }
      destruct IH as (c' & E & W' & L'). rewrite E.
      destruct (Nat.eqb_spec (hd_len c') 0) as [Z|Z].
      + eexists. split; [reflexivity|]. split.
        * constructor; auto using nodup_ddel. intros a x I. apply in_ddel in I; auto. destruct I; eauto.
        * intros [|a [|b q]].
          -- cbn [hd_lookup]. destruct (eq_dec [] (k :: k2 :: r)); [discriminate|reflexivity].
          -- cbn [hd_lookup]. destruct (eq_dec [a] (k :: k2 :: r)); [discriminate|reflexivity].
          -- change (hd_lookup (a :: b :: q) (HD t (ddel s k))) with
               (match dget (ddel s k) a with None => Raise KeyError | Some c => hd_lookup (b :: q) c end).
             change (hd_lookup (a :: b :: q) (HD t s)) with
               (match dget s a with None => Raise KeyError | Some c => hd_lookup (b :: q) c end).
             rewrite dget_ddel by auto. destruct (eq_dec a k).
             ++ subst a. rewrite G. destruct (eq_dec (k :: b :: q) (k :: k2 :: r)); auto.
                pose proof (len0_lookup _ W' Z (b :: q)) as Q. rewrite L' in Q.
                destruct (eq_dec (b :: q) (k2 :: r)); congruence.
             ++ destruct (eq_dec (a :: b :: q) (k :: k2 :: r)); congruence.
      + eexists. split; [reflexivity|]. split.
        * constructor; auto using nodup_dset. intros a x I. apply in_dset in I as [I|I]; [congruence|eauto].
        * intros [|a [|b q]].
          -- cbn [hd_lookup]. destruct (eq_dec [] (k :: k2 :: r)); [discriminate|reflexivity].
          -- cbn [hd_lookup]. destruct (eq_dec [a] (k :: k2 :: r)); [discriminate|reflexivity].
          -- change (hd_lookup (a :: b :: q) (HD t (dset s k c'))) with
               (match dget (dset s k c') a with None => Raise KeyError | Some c => hd_lookup (b :: q) c end).
             change (hd_lookup (a :: b :: q) (HD t s)) with
               (match dget s a with None => Raise KeyError | Some c => hd_lookup (b :: q) c end).
             rewrite dget_dset. destruct (eq_dec a k).
             ++ subst a. rewrite G, L'. destruct (eq_dec (b :: q) (k2 :: r));
                  destruct (eq_dec (k :: b :: q) (k :: k2 :: r)); congruence.
             ++ destruct (eq_dec (a :: b :: q) (k :: k2 :: r)); congruence.
  Qed.

  (** iteration *)
  Lemma iter_paths join (J1 : forall p, join [p] = p) : forall d parent,
    hd_iter join parent d = map (fun p => join (parent ++ p)) (paths d).
  Proof.
    intros d. induction d as [t s IH] using hd_ind'. intros parent.
    rewrite paths_eq, map_app. simpl. f_equal.
    - rewrite map_map. apply map_ext. intros k. destruct parent; auto. simpl. now rewrite J1.
    - induction s as [|[k c] s IHs]; simpl; auto. inversion IH; subst. simpl in *.
      rewrite map_app, IHs by auto. f_equal. rewrite H2, map_map. apply map_ext.
      intros q. now rewrite <- app_assoc.
  Qed.

  Section Handler.
    Variable split : K -> list K.
    Variable join : list K -> K.
    Hypothesis JS : forall k, join (split k) = k.
    Hypothesis SN : forall k, split k <> [].
    Hypothesis J1 : forall p, join [p] = p.

    Lemma split_inj' a b : split a = split b -> a = b.
    Proof. intros E. rewrite <- (JS a), <- (JS b). congruence. Qed.

    Definition good (d : hd) (m : flat) : Prop :=
      wf d /\ (forall k, hd_get split k d = match m k with Some v => Ok v | None => Raise KeyError end) /\
      (forall p v, hd_lookup p d = Ok v -> exists k, p = split k).

    Lemma good_empty : good hd_empty flat_empty.
    Proof. split; [apply wf_empty|split].
      - intros. unfold hd_get. now rewrite lookup_empty.
      - intros p v. rewrite lookup_empty. discriminate. Qed.

    Lemma good_step o d m : good d m -> good (hd_step split o d) (flat_step o m).
    Proof.
      intros (W & G & P). destruct o as [k v|k]; unfold hd_step.
      - destruct (store_spec (split k) v d (SN k) W) as (d' & E & W' & L). unfold hd_set. rewrite E.
        split; auto. split.
        + intros k'. unfold hd_get. rewrite L. simpl. destruct (eq_dec k' k).
          * subst. destruct (eq_dec (split k) (split k)); congruence.
          * destruct (eq_dec (split k') (split k)) as [Q|Q]; [apply split_inj' in Q; congruence|]. apply G.
        + intros p x. rewrite L. destruct (eq_dec p (split k)); [eauto|]. apply P.
      - unfold hd_del. pose proof (delete_spec (split k) d W) as D. pose proof (G k) as Gk.
        unfold hd_get in Gk. destruct (hd_lookup (split k) d) eqn:L.
        + destruct D as (d' & E & W' & L'). rewrite E. split; auto. split.
          * intros k'. unfold hd_get. rewrite L'. simpl. destruct (eq_dec k' k).
            -- subst. destruct (eq_dec (split k) (split k)); congruence.
            -- destruct (eq_dec (split k') (split k)) as [Q|Q]; [apply split_inj' in Q; congruence|]. apply G.
          * intros p x. rewrite L'. destruct (eq_dec p (split k)); [discriminate|]. apply P.
        + rewrite D. split; auto. split; auto. intros k'. simpl. destruct (eq_dec k' k).
          * subst. rewrite G. destruct (m k); congruence.
          * apply G.
    Qed.

    Lemma good_run os : forall d m, good d m -> good (hd_run split os d) (flat_run os m).
    Proof. induction os; simpl; auto. intros. apply IHos. now apply good_step. Qed.
    Lemma good_reach os : good (hd_run split os hd_empty) (flat_run os flat_empty).
    Proof. apply good_run, good_empty. Qed.

    Lemma get_flat (os : list (hop K V)) k : hd_get split k (hd_run split os hd_empty) =
      match flat_run os flat_empty k with Some v => Ok v | None => Raise KeyError end.
    Proof. apply good_reach. Qed.

    Lemma outcomes (os : list (hop K V)) k v (d := hd_run split os hd_empty) :
      (exists d', hd_set split k v d = Ok d') /\
      (flat_run os flat_empty k <> None -> exists d', hd_del split k d = Ok d') /\
      (flat_run os flat_empty k = None -> hd_del split k d = Raise KeyError).
    Proof.
      destruct (good_reach os) as (W & G & P). fold d in W, G, P.
      destruct (store_spec (split k) v d (SN k) W) as (d' & E & _).
      pose proof (delete_spec (split k) d W) as D. specialize (G k). unfold hd_get in G.
      unfold hd_set, hd_del. split; [eauto|]. rewrite G in D. split; intros Q.
      - destruct (flat_run os flat_empty k); [|congruence]. destruct D as (d2 & E2 & _). eauto.
      - rewrite Q in D. exact D.
    Qed.

    Lemma keys_spec (os : list (hop K V)) (d := hd_run split os hd_empty) :
      NoDup (hd_keys join d) /\
      (forall k, In k (hd_keys join d) <-> exists v, hd_get split k d = Ok v) /\
      hd_len d = length (hd_keys join d).
    Proof.
      destruct (good_reach os) as (W & G & P). fold d in W, G, P. unfold hd_keys.
      rewrite iter_paths by exact J1. cbn [app].
      assert (Q : forall p, In p (paths d) -> exists k, p = split k).
      { intros p I. apply (paths_lookup d W) in I as [v I]. eauto. }
      split; [|split].
      - pose proof (paths_nodup d W) as N. revert N Q. generalize (paths d). induction l as [|p l IH]; simpl; intros N Q; [constructor|].
        inversion N; subst. constructor; auto. intros C. apply in_map_iff in C as [q [E I]].
        destruct (Q p) as [a ->]; auto. destruct (Q q) as [b ->]; auto. rewrite !JS in E. subst. contradiction.
      - intros k. rewrite in_map_iff. split.
        + intros [p [E I]]. destruct (Q p I) as [a ->]. rewrite JS in E. subst. now apply (paths_lookup d W).
        + intros [v E]. exists (split k). rewrite JS. split; auto. apply (paths_lookup d W). eauto.
      - rewrite map_length. apply len_paths.
    Qed.
  End Handler.
End HDP.

Lemma dot_JS k : dot_join (dot_split k) = k.
Proof. apply join_split. Qed.
Lemma dot_SN k : dot_split k <> [].
Proof. apply split_on_nonempty. Qed.
Lemma dot_J1 p : dot_join [p] = p.
Proof. reflexivity. Qed.
