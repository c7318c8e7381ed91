(** * Proofs about logging *)
From Coq Require Import List ZArith Bool Lia Arith String.
From Verif Require Import PyBase PyLemmas LogModel LogSpec.
Import ListNotations.
Open Scope nat_scope.

(** ** Strings *)
Lemma starts_spec p s : starts p s = true <-> exists r, s = p ++ r.
Proof.
  revert s. induction p as [|x p IH]; intros s; cbn [starts].
  - split; [intros _; now exists s|reflexivity].
  - destruct s as [|y s]; [split; [discriminate|intros [r [=]]]|]. rewrite andb_true_iff, Z.eqb_eq, IH. split.
    + intros [-> [r ->]]. now exists r.
    + intros [r E]. cbn in E. injection E as -> ->. split; [reflexivity|eauto].
Qed.
Lemma substr_spec p s : substr p s = true <-> exists a b, s = a ++ p ++ b.
Proof.
  induction s as [|x s IH]; cbn [substr]; rewrite orb_true_iff, starts_spec.
  - split; [intros [[r E]|]; [|discriminate]; now exists [], r|]. intros (a & b & E). left. destruct a; [now exists b|discriminate].
  - rewrite IH. split.
    + intros [[r E]|(a & b & E)]; [now exists [], r|]. exists (x :: a), b. now rewrite E.
    + intros ([|y a] & b & E); [left; now exists b|]. right. cbn in E. injection E as -> E. eauto.
Qed.

(** ** Tags *)
Lemma join_last c ps d : ps <> [] -> join_on c ps = last ps d \/ exists b, join_on c ps = b ++ c :: last ps d.
Proof.
  induction ps as [|p [|q ps] IH]; intro N; [congruence|now left|]. right. specialize (IH ltac:(discriminate)).
  change (join_on c (p :: q :: ps)) with (p ++ c :: join_on c (q :: ps)). change (last (p :: q :: ps) d) with (last (q :: ps) d).
  destruct IH as [->|[b ->]]; [now exists p|]. exists (p ++ c :: b). now rewrite <- app_assoc.
Qed.
Lemma last_part name : ~ In ch_dot (last (split_on ch_dot name) []) /\ (name = last (split_on ch_dot name) [] \/ exists b, name = b ++ ch_dot :: last (split_on ch_dot name) []).
Proof.
  split.
  - pose proof (split_parts_clean ch_dot name) as F. rewrite Forall_forall in F. destruct (split_on ch_dot name) as [|p ps] eqn:E; [now apply split_on_nonempty in E|].
    apply F. destruct (@exists_last _ (p :: ps)) as (l & x & ->); [discriminate|]. rewrite last_last. apply in_or_app. right. now left.
  - pose proof (join_last ch_dot (split_on ch_dot name) [] (split_on_nonempty _ _)) as J. rewrite join_split in J. exact J.
Qed.
Lemma dot_unique a b u v : ~ In ch_dot u -> ~ In ch_dot v -> a ++ ch_dot :: u = b ++ ch_dot :: v -> u = v.
Proof.
  revert b. induction a as [|x a IH]; intros [|y b] U V E; cbn in E.
  - now injection E.
  - injection E as E1 E2. subst u y. destruct U. apply in_or_app. right. now left.
  - injection E as E1 E2. subst v x. destruct V. apply in_or_app. right. now left.
  - injection E as _ E. exact (IH b U V E).
Qed.
Lemma key_nodot : ~ In ch_dot tag_key.
Proof. vm_compute. intuition discriminate. Qed.
Lemma tagged_last name t : tagged_as name t <-> last (split_on ch_dot name) [] = tag_key ++ t.
Proof.
  destruct (last_part name) as [N D]. set (p := last (split_on ch_dot name) []) in *.
  assert (A : ~ In 46%Z t -> ~ In ch_dot (tag_key ++ t)) by (intros X I; apply in_app_or in I as [I|I]; [now apply key_nodot in I|exact (X I)]).
  split.
  - intros [T E]. destruct D as [D|[b D]]; destruct E as [E|[b' E]].
    + rewrite <- D. exact E.
    + exfalso. apply N. rewrite <- D, E. apply in_or_app. right. now left.
    + exfalso. apply (A T). change (lit "__playlogtag__") with tag_key in E. rewrite <- E, D. apply in_or_app. right. now left.
    + change (lit ".__playlogtag__" ++ t) with (ch_dot :: tag_key ++ t) in E. apply (dot_unique b b'); [exact N|exact (A T)|congruence].
  - intro E. split.
    + intro I. apply N. rewrite E. apply in_or_app. now right.
    + destruct D as [D|[b D]]; [left; now rewrite D, E|]. right. exists b. rewrite D, E. reflexivity.
Qed.
Lemma tag_of_get name t : tag_of name t <-> t = get_tag name.
Proof.
  unfold tag_of, get_tag. setoid_rewrite tagged_last. set (p := last (split_on ch_dot name) []). destruct (starts tag_key p) eqn:S.
  - apply starts_spec in S as [r S]. rewrite S. rewrite skipn_app, skipn_all, Nat.sub_diag. cbn [skipn app]. split.
    + intros [E|[_ E]]; [now apply app_inv_head in E|]. now destruct (E r).
    + intros ->. now left.
  - assert (N : forall u, p <> tag_key ++ u) by (intros u E; enough (starts tag_key p = true) by congruence; apply starts_spec; eauto). split.
    + intros [E|[-> _]]; [now apply N in E|reflexivity].
    + intros ->. right. now split.
Qed.

(** ** Filters *)
Definition flt (mods : list pystr) (tags : tagspec) : filter := Filter (match mods with [] => true | _ => false end) mods [] tags.
Lemma configure_flt mods tags f : configure (Some mods) tags f = flt mods tags.
Proof. unfold configure, flt. destruct mods; reflexivity. Qed.
Lemma admits_flt mods tags name : admits mods tags name <-> log_logger (flt mods tags) name = true.
Proof.
  unfold admits. assert (T : (forall t, tag_of name t -> tag_chosen t tags) <-> log_tag (flt mods tags) (get_tag name) = true).
  { transitivity (tag_chosen (get_tag name) tags); [split; [intro H; apply H; now apply tag_of_get|intros H t X; apply tag_of_get in X; now subst]|].
    unfold tag_chosen, log_tag. assert (forall t, smem (f_exclude (flt mods tags)) t = false) as -> by reflexivity. cbn [f_tags flt]. destruct (get_tag name) as [|x t].
    - split; [|now left]. intros _. destruct tags; [reflexivity|apply orb_true_r|reflexivity].
    - destruct tags as [|s|l].
      + split; [intros [X|[]]; discriminate|discriminate].
      + cbv beta iota. rewrite orb_true_iff. unfold eqb. destruct (eq_dec s (lit "verbose")) as [->|D]; [split; [now left|right; now left]|]. destruct s as [|c s].
        * split; [intros [X|[X|(a & b & X)]]; [discriminate|discriminate|]|intros [X|X]; discriminate]. destruct a; discriminate.
        * rewrite substr_spec. split; [intros [X|[X|X]]; [discriminate|congruence|now right]|intros [X|X]; [discriminate|right; now right]].
      + rewrite smem_true. split; [intros [X|X]; [discriminate|exact X]|now right]. }
  rewrite T. unfold log_logger, below. cbn [flt f_global f_mods]. destruct mods as [|m ms].
  - split; [now intros [_ H]|intro H; split; [now left|exact H]].
  - rewrite andb_true_iff. enough (E : (m :: ms = [] \/ (exists m0 r, In m0 (m :: ms) /\ name = m0 ++ lit "." ++ r)) <-> existsb (fun m0 => starts (m0 ++ [ch_dot]) name) (m :: ms) = true) by (rewrite E; reflexivity).
    rewrite existsb_exists. split.
    + intros [X|(m0 & r & I & E)]; [discriminate|]. exists m0. split; [exact I|]. apply starts_spec. exists r. rewrite <- app_assoc. exact E.
    + intros (m0 & I & E). right. apply starts_spec in E as [r E]. exists m0, r. split; [exact I|]. rewrite <- app_assoc in E. exact E.
Qed.

(** ** Histories *)
Lemma snoc_dec {A} (os : list A) o a x b : os ++ [o] = a ++ x :: b -> (b = [] /\ x = o /\ a = os) \/ exists b', b = b' ++ [o] /\ os = a ++ x :: b'.
Proof.
  destruct b as [|y b] using rev_ind; intro E.
  - apply app_inj_tail in E as [-> ->]. now left.
  - right. exists b. rewrite app_comm_cons, app_assoc in E. apply app_inj_tail in E as [-> ->]. now split.
Qed.
Lemma in_snoc {A} (P : A -> Prop) (b : list A) o : (forall x, In x (b ++ [o]) -> P x) <-> (forall x, In x b -> P x) /\ P o.
Proof.
  split; [intro H; split; [intros x I|]; apply H, in_or_app; [now left|right; now left]|]. intros [H1 H2] x I. apply in_app_or in I as [I|[<-|[]]]; auto.
Qed.
Lemma added_snoc os o ms : added (os ++ [o]) ms <-> match o with OpLogging _ (x :: r) => ms = x :: r | _ => added os ms end.
Proof.
  unfold added. rewrite in_snoc.
  assert (G : gives o \/ ~ gives o) by (destruct o as [l [|x m]| | |]; cbn; tauto). destruct G as [G|G].
  - destruct o as [l [|x m]| | |]; try contradiction. split.
    + intros [(a & l' & b & E & N & H)|[_ [_ X]]]; [|now destruct X]. apply snoc_dec in E as [(-> & E & ->)|(b' & -> & ->)]; [congruence|]. apply in_snoc in H as [_ H]. now destruct H.
    + intros ->. left. exists os, l, []. split; [reflexivity|]. split; [discriminate|intros o []].
  - replace (match o with OpLogging _ (x :: r) => ms = x :: r | _ => (exists a l b, os = a ++ OpLogging l ms :: b /\ ms <> [] /\ (forall o0, In o0 b -> ~ gives o0)) \/ ms = [] /\ (forall o0, In o0 os -> ~ gives o0) end)
      with ((exists a l b, os = a ++ OpLogging l ms :: b /\ ms <> [] /\ (forall o0, In o0 b -> ~ gives o0)) \/ ms = [] /\ (forall o0, In o0 os -> ~ gives o0)) by (destruct o as [l [|x m]| | |]; cbn in G; tauto || reflexivity).
    split.
    + intros [(a & l & b & E & N & H)|(-> & H & _)]; [|now right]. apply snoc_dec in E as [(-> & E & ->)|(b' & -> & ->)].
      * exfalso. apply G. rewrite <- E. destruct ms; [congruence|exact I].
      * left. apply in_snoc in H as [H _]. now exists a, l, b'.
    + intros [(a & l & b & -> & N & H)|(-> & H)]; [|right; now repeat split]. left. exists a, l, (b ++ [o]). split; [now rewrite <- app_assoc|]. split; [exact N|]. now apply in_snoc.
Qed.
Lemma added_fun os : forall m m', added os m -> added os m' -> m = m'.
Proof.
  induction os as [|o os IH] using rev_ind; intros m m'.
  - intros [(a & l & b & E & _)|[-> _]]; [destruct a; discriminate|]. intros [(a & l & b & E & _)|[-> _]]; [destruct a; discriminate|reflexivity].
  - rewrite !added_snoc. destruct o as [l [|x r]| | |]; try apply IH. congruence.
Qed.
Lemma current_snoc os o h lv mods tags : current (os ++ [o]) h lv mods tags <->
  match o with
  | OpEnable h' l g t => if Nat.eqb h' h then l = lv /\ t = tags /\ chosen os g mods else current os h lv mods tags
  | OpDisable h' => h' <> h /\ current os h lv mods tags
  | OpClear => False
  | OpLogging _ _ => current os h lv mods tags
  end.
Proof.
  unfold current at 1. split.
  - intros (a & g & b & E & C & H). apply snoc_dec in E as [(-> & E & ->)|(b' & -> & ->)].
    + subst o. rewrite Nat.eqb_refl. now repeat split.
    + apply in_snoc in H as [H1 H2]. assert (X : current (a ++ OpEnable h lv g tags :: b') h lv mods tags) by (now exists a, g, b').
      destruct o as [l m|h' l g' t|h'|]; cbn [concerns] in H2; [exact X| |now split|now destruct H2]. destruct (Nat.eqb_spec h' h); [contradiction|exact X].
  - assert (K : ~ concerns h o -> current os h lv mods tags -> exists a given b, os ++ [o] = a ++ OpEnable h lv given tags :: b /\ chosen a given mods /\ (forall o0, In o0 b -> ~ concerns h o0)).
    { intros N (a & g & b & -> & C & H). exists a, g, (b ++ [o]). split; [now rewrite <- app_assoc|]. split; [exact C|]. now apply in_snoc. }
    destruct o as [l m|h' l g' t|h'|]; cbn [concerns] in K.
    + apply K. tauto.
    + destruct (Nat.eqb_spec h' h) as [->|D]; [|now apply K]. intros (-> & -> & C). exists os, g', []. split; [reflexivity|]. split; [exact C|intros o []].
    + intros [D X]. now apply K.
    + intros [].
Qed.
Lemma stale_snoc os o h m t : stale (os ++ [o]) h m t <-> stale os h m t \/ (o = OpClear /\ exists l, current os h l m t).
Proof.
  unfold stale. split.
  - intros (a & l & b & E & C). apply snoc_dec in E as [(-> & E & ->)|(b' & -> & ->)]; [right; split; [now symmetry|eauto]|]. left. now exists a, l, b'.
  - intros [(a & l & b & -> & C)|(-> & l & C)]; [exists a, l, (b ++ [o]); split; [now rewrite <- app_assoc|exact C]|]. now exists os, l, [].
Qed.
Lemma chosen_fun os g m m' : chosen os g m -> chosen os g m' -> m = m'.
Proof. intros (x & A & ->) (x' & A' & ->). now rewrite (added_fun _ _ _ A A'). Qed.
Lemma current_fun os h : forall l m t l' m' t', current os h l m t -> current os h l' m' t' -> l = l' /\ m = m' /\ t = t'.
Proof.
  induction os as [|o os IH] using rev_ind; intros l m t l' m' t'.
  - intros (a & g & b & E & _). destruct a; discriminate.
  - rewrite !current_snoc. destruct o as [x y|h' x g y|h'|].
    + apply IH.
    + destruct (Nat.eqb h' h); [|apply IH]. intros (-> & -> & C) (-> & -> & C'). split; [reflexivity|]. split; [exact (chosen_fun _ _ _ _ C C')|reflexivity].
    + intros [_ C] [_ C']. exact (IH _ _ _ _ _ _ C C').
    + intros [].
Qed.

(** ** The state after a history *)
Definition tail_of (s : lstate) (h : nat) : list nat := match dget (l_handlers s) h with Some f => [f] | None => [] end.
Record inv (os : list op) (s : lstate) : Prop := {
  i_more : added os (l_more s);
  i_dup : NoDup (dkeys (l_handlers s));
  i_none : forall h l m t, dget (l_handlers s) h = None -> ~ current os h l m t;
  i_some : forall h f, dget (l_handlers s) h = Some f -> exists m t, current os h (l_hlevel s h) m t /\ l_heap s f = flt m t;
  i_old : forall h, exists old, l_filters s h = old ++ tail_of s h /\ (forall m t, stale os h m t -> exists f, In f old /\ l_heap s f = flt m t) /\
          (forall f, In f old -> exists m t, stale os h m t /\ l_heap s f = flt m t);
  i_nodup : forall h, NoDup (l_filters s h);
  i_next : forall h f, In f (l_filters s h) -> f < l_next s;
  i_own : forall h h' f, In f (l_filters s h) -> In f (l_filters s h') -> h = h'
}.
Lemma tail_in s h f : dget (l_handlers s) h = Some f -> tail_of s h = [f].
Proof. unfold tail_of. now intros ->. Qed.
Lemma inv_in os s h f : inv os s -> dget (l_handlers s) h = Some f -> In f (l_filters s h).
Proof. intros I D. destruct (i_old _ _ I h) as (old & -> & _). rewrite (tail_in _ _ _ D). apply in_or_app. right. now left. Qed.
Lemma inv_new root : inv [] (log_new root).
Proof.
  constructor; cbn.
  - right. split; [reflexivity|intros o []].
  - constructor.
  - intros h l m t _ (a & g & b & E & _). destruct a; discriminate.
  - discriminate.
  - intro h. exists []. split; [reflexivity|]. split; [intros m t (a & l & b & E & _); destruct a; discriminate|intros f []].
  - constructor.
  - intros h f [].
  - intros h h' f [].
Qed.
Lemma upd_same {A} (f : nat -> A) k v : upd f k v k = v.
Proof. unfold upd. now rewrite Nat.eqb_refl. Qed.
Lemma upd_other {A} (f : nat -> A) k v x : x <> k -> upd f k v x = f x.
Proof. unfold upd. intro N. destruct (Nat.eqb_spec x k); [contradiction|reflexivity]. Qed.
Lemma stale_more os o h m t : o <> OpClear -> (stale (os ++ [o]) h m t <-> stale os h m t).
Proof. intro N. rewrite stale_snoc. split; [intros [H|[E _]]; [exact H|contradiction]|now left]. Qed.
Lemma inv_step os o s : inv os s -> inv (os ++ [o]) (run_op o s).
Proof.
  intros I. destruct I as [I1 I2 I3 I4 I5 I6 I7 I8]. destruct o as [level more|h level g tags|h|]; cbn [run_op].
  - unfold enable_logging. constructor; cbn [l_more l_handlers l_hlevel l_heap l_filters l_next]; try assumption.
    + rewrite added_snoc. destruct more; [exact I1|reflexivity].
    + intros h l m t D C. apply current_snoc in C. exact (I3 _ _ _ _ D C).
    + intros h f D. destruct (I4 h f D) as (m & t & C & E). exists m, t. split; [now apply current_snoc|exact E].
    + intro h. destruct (I5 h) as (old & E & A & B). exists old. split; [exact E|]. split.
      * intros m t St. apply stale_more in St; [|discriminate]. exact (A _ _ St).
      * intros f I. destruct (B f I) as (m & t & St & H). exists m, t. split; [apply stale_more; [discriminate|exact St]|exact H].
  - unfold enable_handler. set (ms := match g with None => lit "playground" :: l_more s | Some l => l ++ l_more s end).
    assert (C0 : chosen os g ms) by (exists (l_more s); split; [exact I1|reflexivity]).
    destruct (dget (l_handlers s) h) as [f|] eqn:D; constructor; cbn [l_more l_handlers l_hlevel l_heap l_filters l_next]; try assumption.
    + now apply added_snoc.
    + intros h' l m t D' C. apply current_snoc in C. destruct (Nat.eqb_spec h h') as [->|N]; [congruence|exact (I3 _ _ _ _ D' C)].
    + intros h' f' D'. destruct (Nat.eq_dec h' h) as [->|N].
      * assert (f' = f) by congruence. subst f'. exists ms, tags. rewrite !upd_same. split; [apply current_snoc; rewrite Nat.eqb_refl; now repeat split|apply configure_flt].
      * destruct (I4 h' f' D') as (m & t & C & E). exists m, t. rewrite upd_other by exact N. split.
        { apply current_snoc. destruct (Nat.eqb_spec h h'); [congruence|exact C]. }
        rewrite upd_other; [exact E|]. intros ->. apply N. eapply I8.
        { destruct (I5 h') as (old & -> & _). unfold tail_of. rewrite D'. apply in_or_app. right. now left. }
        { destruct (I5 h) as (old & -> & _). unfold tail_of. rewrite D. apply in_or_app. right. now left. }
    + intro h'. destruct (I5 h') as (old & E & A & B). exists old. split; [exact E|].
      assert (K : forall x, In x old -> x <> f).
      { intros x I ->. assert (h = h') by (eapply I8; [destruct (I5 h) as (o2 & -> & _); unfold tail_of; rewrite D; apply in_or_app; right; now left|rewrite E; apply in_or_app; now left]).
        subst h'. pose proof (I6 h) as ND. rewrite E in ND. unfold tail_of in ND. rewrite D in ND. apply NoDup_remove_2 in ND. rewrite app_nil_r in ND. contradiction. }
      split.
      * intros m t St. apply stale_more in St; [|discriminate]. destruct (A _ _ St) as (x & I & H). exists x. split; [exact I|]. rewrite upd_other by now apply K. exact H.
      * intros x I. destruct (B x I) as (m & t & St & H). exists m, t. split; [apply stale_more; [discriminate|exact St]|]. rewrite upd_other by now apply K. exact H.
    + now apply added_snoc.
    + now apply nodup_dset.
    + intros h' l m t D' C. apply current_snoc in C. destruct (Nat.eqb_spec h h') as [->|N]; [rewrite dget_dset_same in D'; discriminate|]. rewrite dget_dset_other in D' by congruence. exact (I3 _ _ _ _ D' C).
    + intros h' f' D'. destruct (Nat.eq_dec h' h) as [->|N].
      * rewrite dget_dset_same in D'. injection D' as <-. exists ms, tags. rewrite !upd_same. split; [apply current_snoc; rewrite Nat.eqb_refl; now repeat split|apply configure_flt].
      * rewrite dget_dset_other in D' by exact N. destruct (I4 h' f' D') as (m & t & C & E). exists m, t. rewrite upd_other by exact N. split.
        { apply current_snoc. destruct (Nat.eqb_spec h h'); [congruence|exact C]. }
        rewrite upd_other; [exact E|]. intros ->. enough (l_next s < l_next s) by lia. apply (I7 h'). destruct (I5 h') as (old & -> & _). unfold tail_of. rewrite D'. apply in_or_app. right. now left.
    + intro h'. destruct (I5 h') as (old & E & A & B). exists old.
      assert (K : forall x, In x old -> x <> l_next s).
      { intros x I ->. enough (l_next s < l_next s) by lia. apply (I7 h'). rewrite E. apply in_or_app. now left. }
      split; [|split].
      * unfold tail_of in *. cbn [l_handlers]. destruct (Nat.eq_dec h' h) as [->|N].
        { rewrite dget_dset_same, upd_same, E, D, app_nil_r. reflexivity. }
        { rewrite dget_dset_other by exact N. rewrite upd_other by exact N. exact E. }
      * intros m t St. apply stale_more in St; [|discriminate]. destruct (A _ _ St) as (x & I & H). exists x. split; [exact I|]. rewrite upd_other by now apply K. exact H.
      * intros x I. destruct (B x I) as (m & t & St & H). exists m, t. split; [apply stale_more; [discriminate|exact St]|]. rewrite upd_other by now apply K. exact H.
    + intro h'. destruct (Nat.eq_dec h' h) as [->|N]; [rewrite upd_same|rewrite upd_other by exact N; apply I6]. apply NoDup_snoc; [apply I6|]. intro I. apply I7 in I. lia.
    + intros h' f' I. destruct (Nat.eq_dec h' h) as [->|N]; [rewrite upd_same in I|rewrite upd_other in I by exact N; apply I7 in I; lia].
      apply in_app_or in I as [I|[<-|[]]]; [apply I7 in I; lia|lia].
    + intros h1 h2 f' A B. destruct (Nat.eq_dec h1 h) as [->|N1]; [rewrite upd_same in A|rewrite upd_other in A by exact N1];
        (destruct (Nat.eq_dec h2 h) as [->|N2]; [rewrite upd_same in B|rewrite upd_other in B by exact N2]); [reflexivity| | |exact (I8 _ _ _ A B)].
      * apply in_app_or in A as [A|[<-|[]]]; [exact (I8 _ _ _ A B)|]. apply I7 in B. lia.
      * apply in_app_or in B as [B|[<-|[]]]; [exact (I8 _ _ _ A B)|]. apply I7 in A. lia.
  - unfold disable_handler. destruct (dget (l_handlers s) h) as [f|] eqn:D.
    + assert (SR : forall old, NoDup (old ++ [f]) -> sremove (old ++ [f]) f = old).
      { induction old as [|x old IH]; intro ND; cbn [app sremove]; [destruct (eq_dec f f); [reflexivity|congruence]|]. inversion ND as [|? ? N1 N2]; subst.
        destruct (eq_dec f x) as [->|N]; [exfalso; apply N1, in_or_app; right; now left|]. now rewrite IH. }
      constructor; cbn [l_more l_handlers l_hlevel l_heap l_filters l_next].
      * now apply added_snoc.
      * now apply nodup_ddel.
      * intros h' l m t D' C. apply current_snoc in C as [N C]. rewrite dget_ddel_other in D' by congruence. exact (I3 _ _ _ _ D' C).
      * intros h' f' D'. rewrite dget_ddel in D' by exact I2. destruct (eq_dec h' h) as [->|N]; [discriminate|]. destruct (I4 h' f' D') as (m & t & C & E). exists m, t.
        split; [|exact E]. apply current_snoc. split; [congruence|exact C].
      * intro h'. destruct (I5 h') as (old & E & A & B). exists old. split; [|split].
        { unfold tail_of in *. cbn [l_handlers]. rewrite dget_ddel by exact I2. destruct (eq_dec h' h) as [->|N].
          - rewrite upd_same, app_nil_r, E, D. apply SR. rewrite <- (tail_in _ _ _ D). unfold tail_of. rewrite <- E. apply I6.
          - rewrite upd_other by exact N. exact E. }
        { intros m t St. apply stale_more in St; [|discriminate]. exact (A _ _ St). }
        { intros x I. destruct (B x I) as (m & t & St & H). exists m, t. split; [apply stale_more; [discriminate|exact St]|exact H]. }
      * intro h'. destruct (Nat.eq_dec h' h) as [->|N]; [rewrite upd_same; now apply nodup_sremove|rewrite upd_other by exact N; apply I6].
      * intros h' f' I. destruct (Nat.eq_dec h' h) as [->|N]; [rewrite upd_same in I; apply in_sremove in I as [I _]; [|apply I6]; exact (I7 _ _ I)|rewrite upd_other in I by exact N; exact (I7 _ _ I)].
      * assert (U : forall h' f', In f' (upd (l_filters s) h (sremove (l_filters s h) f) h') -> In f' (l_filters s h')).
        { intros h' f' I. destruct (Nat.eq_dec h' h) as [->|N]; [rewrite upd_same in I; apply in_sremove in I as [I _]; [exact I|apply I6]|now rewrite upd_other in I by exact N]. }
        intros h1 h2 f' A B. exact (I8 _ _ _ (U _ _ A) (U _ _ B)).
    + constructor; try assumption.
      * now apply added_snoc.
      * intros h' l m t D' C. apply current_snoc in C as [N C]. exact (I3 _ _ _ _ D' C).
      * intros h' f' D'. destruct (I4 h' f' D') as (m & t & C & E). exists m, t. split; [|exact E]. apply current_snoc. split; [congruence|exact C].
      * intro h'. destruct (I5 h') as (old & E & A & B). exists old. split; [exact E|]. split.
        { intros m t St. apply stale_more in St; [|discriminate]. exact (A _ _ St). }
        { intros x I. destruct (B x I) as (m & t & St & H). exists m, t. split; [apply stale_more; [discriminate|exact St]|exact H]. }
  - unfold clear_handlers. constructor; cbn [l_more l_handlers l_hlevel l_heap l_filters l_next]; try assumption.
    + now apply added_snoc.
    + constructor.
    + intros h l m t _ C. now apply current_snoc in C.
    + discriminate.
    + intro h. destruct (I5 h) as (old & E & A & B). exists (l_filters s h). split; [unfold tail_of; cbn; now rewrite app_nil_r|].
      split.
      * intros m t St. apply stale_snoc in St as [St|[_ (l & C)]].
        { destruct (A _ _ St) as (x & I & H). exists x. split; [rewrite E; apply in_or_app; now left|exact H]. }
        destruct (dget (l_handlers s) h) as [f|] eqn:D; [|now apply (I3 _ _ _ _ D) in C].
        destruct (I4 h f D) as (m' & t' & C' & H). destruct (current_fun _ _ _ _ _ _ _ _ C C') as (_ & <- & <-). exists f. split; [|exact H].
        rewrite E. unfold tail_of. rewrite D. apply in_or_app. right. now left.
      * intros x I. rewrite E in I. apply in_app_or in I as [I|I].
        { destruct (B x I) as (m & t & St & H). exists m, t. split; [apply stale_snoc; now left|exact H]. }
        unfold tail_of in I. destruct (dget (l_handlers s) h) as [f|] eqn:D; [|destruct I]. destruct I as [<-|[]]. destruct (I4 h f D) as (m & t & C & H). exists m, t.
        split; [|exact H]. apply stale_snoc. right. eauto.
Qed.
Lemma inv_run root os : inv os (run_ops os (log_new root)).
Proof.
  induction os as [|o os IH] using rev_ind; [apply inv_new|]. unfold run_ops in *. rewrite fold_left_app. cbn [fold_left]. now apply inv_step.
Qed.

Lemma last_snoc os o l : last_level (os ++ [o]) l <-> match o with OpLogging l' _ => l' = l | _ => last_level os l end.
Proof.
  unfold last_level. split.
  - intros (a & m & b & E & H). apply snoc_dec in E as [(-> & <- & ->)|(b' & -> & ->)]; [reflexivity|]. apply in_snoc in H as [H1 H2]. destruct o; [now destruct H2|..]; now exists a, m, b'.
  - assert (K : ~ is_logging o -> (exists a m b, os = a ++ OpLogging l m :: b /\ (forall o0, In o0 b -> ~ is_logging o0)) -> exists a m b, os ++ [o] = a ++ OpLogging l m :: b /\ (forall o0, In o0 b -> ~ is_logging o0)).
    { intros N (a & m & b & -> & H). exists a, m, (b ++ [o]). split; [now rewrite <- app_assoc|]. now apply in_snoc. }
    destruct o as [l' m| | |]; try (apply K; intros []). intros ->. exists os, m, []. split; [reflexivity|intros o []].
Qed.
Lemma level_run root os : let s := run_ops os (log_new root) in
  (l_on s = true -> last_level os (l_level s)) /\ (forall l, last_level os l -> l_on s = true /\ l = l_level s).
Proof.
  induction os as [|o os IH] using rev_ind; cbn; [split; [discriminate|intros l (a & m & b & E & _); destruct a; discriminate]|].
  unfold run_ops in *. rewrite fold_left_app. cbn [fold_left]. destruct IH as [A B]. setoid_rewrite last_snoc.
  destruct o as [l m|h l g t|h|]; cbn [run_op].
  - cbn. split; [reflexivity|]. intros l' <-. now split.
  - unfold enable_handler. destruct (dget _ h); cbn; split; assumption.
  - unfold disable_handler. destruct (dget _ h); cbn; split; assumption.
  - cbn. now split.
Qed.
Lemma root_run root os lv : Z.le (l_root (run_ops os (log_new root))) lv <-> Z.le root lv \/ exists l m, In (OpLogging l m) os /\ Z.le l lv.
Proof.
  induction os as [|o os IH] using rev_ind; [cbn; split; [now left|intros [H|(? & ? & [] & _)]; exact H]|].
  unfold run_ops in *. rewrite fold_left_app. cbn [fold_left].
  assert (K : (forall l m, o <> OpLogging l m) -> (Z.le root lv \/ (exists l m, In (OpLogging l m) (os ++ [o]) /\ Z.le l lv)) <-> (Z.le root lv \/ exists l m, In (OpLogging l m) os /\ Z.le l lv)).
  { intro N. split; (intros [H|(l & m & I & H)]; [now left|right; exists l, m; split; [|exact H]]); [apply in_app_or in I as [I|[I|[]]]; [exact I|now apply N in I]|apply in_or_app; now left]. }
  destruct o as [l m|h l g t|h|]; cbn [run_op].
  - clear K. cbn. set (r := l_root (fold_left (fun s o => run_op o s) os (log_new root))) in *. split.
    + destruct (Z.ltb_spec l r) as [L|L].
      * intro H. right. exists l, m. split; [apply in_or_app; right; now left|exact H].
      * intro H. apply IH in H as [H|(l' & m' & I & H)]; [now left|]. right. exists l', m'. split; [apply in_or_app; now left|exact H].
    + intro H. assert (X : Z.le r lv \/ Z.le l lv).
      { destruct H as [H|(l' & m' & I & H)]; [left; apply IH; now left|]. apply in_app_or in I as [I|[I|[]]]; [left; apply IH; right; eauto|right; congruence]. }
      destruct (Z.ltb_spec l r); lia.
  - rewrite K by discriminate. rewrite <- IH. unfold enable_handler. destruct (dget _ h); reflexivity.
  - rewrite K by discriminate. rewrite <- IH. unfold disable_handler. destruct (dget _ h); reflexivity.
  - rewrite K by discriminate. rewrite <- IH. reflexivity.
Qed.

(** ** Presets *)
Lemma preset_eq p aux file s0 : enable_preset (preset_name p) aux file s0 =
  let s := clear_handlers s0 in
  match p with
  | PNone => (enable_logging 50 [] s, Ok tt)
  | PMinimal => with_file file 40 (enable_logging 0 [] s)
  | PQuiet => with_file file 20 (enable_logging 0 [] s)
  | PVerbose => with_file file 10 (enable_handler stderr 40 None TNone (enable_logging 0 [asyncio] s))
  | PDebug => with_file file 0 (enable_handler stderr 0 None TNone (enable_logging 0 [asyncio] s))
  | PTest => (enable_handler stderr 0 None TNone (enable_logging 0 [asyncio] s), Ok tt)
  | PMax => with_file file 10 (enable_handler stderr 0 None TNone (enable_logging 0 (asyncio :: aux) s))
  end.
Proof. destruct p; reflexivity. Qed.

Definition base_level (p : preset) : Z := (match p with PNone => 50 | _ => 0 end)%Z.
Lemma preset_shape p aux file s0 : fst (enable_preset (preset_name p) aux (Some file) s0) =
  let s1 := enable_logging (base_level p) (match extra p aux with Some ms => ms | None => [] end) (clear_handlers s0) in
  let s2 := match to_stderr p with Some l => enable_handler 0 l None TNone s1 | None => s1 end in
  match to_file p with Some l => enable_handler file l None TNone s2 | None => s2 end.
Proof. rewrite preset_eq. destruct p; reflexivity. Qed.
Lemma Forall2_impl_in {A B} (R R' : A -> B -> Prop) l l' : (forall x y, In x l -> In y l' -> R x y -> R' x y) -> Forall2 R l l' -> Forall2 R' l l'.
Proof.
  intros H F. induction F as [|x y l l' X F IH]; constructor.
  - apply H; [now left|now left|exact X].
  - apply IH. intros a b I J. apply H; now right.
Qed.
(** the modules a preset's filters have *)
Definition named (ms : list pystr) : filter := flt (lit "playground" :: ms) TNone.
Definition more_of (c : call) (old : list pystr) : list pystr := match extra (c_preset c) (c_aux c) with Some ms => ms | None => old end.
Definition has_stderr (c : call) : bool := match to_stderr (c_preset c) with Some _ => true | None => false end.
Definition has_file (c : call) : bool := match to_file (c_preset c) with Some _ => true | None => false end.

Lemma preset_effect c s0 : c_file c <> 0 ->
  let s := fst (enable_preset (preset_name (c_preset c)) (c_aux c) (Some (c_file c)) s0) in
  l_on s = true /\ l_more s = more_of c (l_more s0) /\ l_next s0 <= l_next s /\
  l_level s = (match c_preset c with PNone => 50 | _ => 0 end)%Z /\
  (Z.le (l_root s) 0 \/ c_preset c = PNone) /\
  (forall f, f < l_next s0 -> l_heap s f = l_heap s0 f) /\
  (exists F, l_filters s 0 = l_filters s0 0 ++ F /\ (forall f, In f F -> l_next s0 <= f < l_next s) /\
     if has_stderr c then exists f, F = [f] /\ l_heap s f = named (more_of c (l_more s0)) else F = []) /\
  (exists F, l_filters s (c_file c) = l_filters s0 (c_file c) ++ F /\ (forall f, In f F -> l_next s0 <= f < l_next s) /\
     if has_file c then exists f, F = [f] /\ l_heap s f = named (more_of c (l_more s0)) else F = []) /\
  (forall h, h <> 0 -> h <> c_file c -> l_filters s h = l_filters s0 h) /\
  (forall h, dhas (l_handlers s) h = (Nat.eqb h 0 && has_stderr c) || (Nat.eqb h (c_file c) && has_file c)) /\
  (forall l, to_stderr (c_preset c) = Some l -> l_hlevel s 0 = l) /\
  (forall l, to_file (c_preset c) = Some l -> l_hlevel s (c_file c) = l).
Proof.
  intro N0. rewrite preset_shape. unfold more_of, has_stderr, has_file. set (file := c_file c) in *. set (p := c_preset c). set (aux := c_aux c).
  assert (RT : Z.le (if Z.ltb (base_level p) (l_root s0) then base_level p else l_root s0) 0 \/ p = PNone) by (destruct p; [now right|left; cbn [base_level]; destruct (Z.ltb_spec 0 (l_root s0)); lia..]).
  assert (MO : match match extra p aux with Some ms => ms | None => [] end with [] => l_more s0 | x :: r => x :: r end = match extra p aux with Some ms => ms | None => l_more s0 end) by (destruct p; reflexivity).
  assert (BL : base_level p = match p with PNone => 50 | _ => 0 end%Z) by reflexivity.
  set (s1 := enable_logging (base_level p) (match extra p aux with Some ms => ms | None => [] end) (clear_handlers s0)).
  assert (M1 : l_more s1 = match extra p aux with Some ms => ms | None => l_more s0 end).
  { subst s1. cbn [enable_logging l_more clear_handlers]. rewrite <- MO. destruct (match extra p aux with Some ms => ms | None => [] end); reflexivity. }
  rewrite <- M1. clear MO M1.
  assert (NE : Nat.eqb file 0 = false) by (now apply Nat.eqb_neq). assert (NE' : Nat.eqb 0 file = false) by (apply Nat.eqb_neq; congruence).
  assert (H1 : l_handlers s1 = []) by reflexivity. assert (X1 : l_next s1 = l_next s0) by reflexivity. assert (F1 : l_filters s1 = l_filters s0) by reflexivity. assert (P1 : l_heap s1 = l_heap s0) by reflexivity.
  assert (O1 : l_on s1 = true) by reflexivity. assert (L1 : l_level s1 = base_level p) by reflexivity. assert (R1 : Z.le (l_root s1) 0 \/ p = PNone) by exact RT. clearbody s1.
  assert (EN : forall h l s, dget (l_handlers s) h = None -> enable_handler h l None TNone s =
     LState (l_root s) (l_on s) (l_level s) (dset (l_handlers s) h (l_next s)) (l_more s) (upd (l_hlevel s) h l) (upd (l_filters s) h (l_filters s h ++ [l_next s])) (upd (l_heap s) (l_next s) (named (l_more s))) (S (l_next s))).
  { intros h l s D. unfold enable_handler. rewrite D, configure_flt. reflexivity. }
  destruct (to_stderr p) as [ls|]; destruct (to_file p) as [lf|].
  - rewrite (EN 0 ls s1) by (now rewrite H1). rewrite EN by (rewrite H1; cbn [l_handlers dset dget]; destruct (eq_dec file 0); [contradiction|reflexivity]).
    rewrite H1. cbn [l_handlers l_more l_next l_root l_on l_level l_hlevel l_filters l_heap dset]. destruct (eq_dec file 0); [contradiction|].
    rewrite ?upd_same, ?F1, ?P1, ?X1. repeat match goal with |- _ /\ _ => split end; try assumption; try lia; try (exact eq_refl).
    + intros f Lf. rewrite !upd_other by lia. reflexivity.
    + exists [l_next s0]. rewrite upd_other by congruence. rewrite upd_same. split; [reflexivity|]. split; [intros f [<-|[]]; lia|]. eexists. split; [reflexivity|]. rewrite upd_other by lia. apply upd_same.
    + exists [S (l_next s0)]. rewrite upd_other by congruence. split; [reflexivity|]. split; [intros f [<-|[]]; lia|]. eexists. split; [reflexivity|]. apply upd_same.
    + intros h A B. rewrite !upd_other by congruence. reflexivity.
    + intro h. unfold dhas. cbn [dget]. destruct (eq_dec h 0) as [->|D]; [reflexivity|]. destruct (eq_dec h file) as [->|D']; [now rewrite Nat.eqb_refl, orb_true_r|].
      apply Nat.eqb_neq in D, D'. now rewrite D, D'.
    + intros l [= <-]. rewrite upd_other by congruence. apply upd_same.
    + intros l [= <-]. reflexivity.
  - rewrite (EN 0 ls s1) by (now rewrite H1). rewrite H1. cbn [l_handlers l_more l_next l_root l_on l_level l_hlevel l_filters l_heap dset].
    rewrite ?upd_same, ?F1, ?P1, ?X1. repeat match goal with |- _ /\ _ => split end; try assumption; try lia; try (exact eq_refl).
    + intros f Lf. rewrite !upd_other by lia. reflexivity.
    + exists [l_next s0]. split; [reflexivity|]. split; [intros f [<-|[]]; lia|]. eexists. split; [reflexivity|]. apply upd_same.
    + exists []. rewrite upd_other by congruence. rewrite app_nil_r. split; [reflexivity|]. split; [intros f []|reflexivity].
    + intros h A B. rewrite !upd_other by congruence. reflexivity.
    + intro h. unfold dhas. cbn [dget]. destruct (eq_dec h 0) as [->|D]; [reflexivity|]. apply Nat.eqb_neq in D. now rewrite D, andb_false_r.
    + intros l [= <-]. reflexivity.
    + discriminate.
  - rewrite (EN file lf s1) by (now rewrite H1). rewrite H1. cbn [l_handlers l_more l_next l_root l_on l_level l_hlevel l_filters l_heap dset].
    rewrite ?upd_same, ?F1, ?P1, ?X1. repeat match goal with |- _ /\ _ => split end; try assumption; try lia; try (exact eq_refl).
    + intros f Lf. rewrite !upd_other by lia. reflexivity.
    + exists []. rewrite upd_other by congruence. rewrite app_nil_r. split; [reflexivity|]. split; [intros f []|reflexivity].
    + exists [l_next s0]. split; [reflexivity|]. split; [intros f [<-|[]]; lia|]. eexists. split; [reflexivity|]. apply upd_same.
    + intros h A B. rewrite !upd_other by congruence. reflexivity.
    + intro h. unfold dhas. cbn [dget]. rewrite andb_false_r. cbn [orb]. rewrite andb_true_r. destruct (eq_dec h file) as [->|D]; [now rewrite Nat.eqb_refl|]. apply Nat.eqb_neq in D. now rewrite D.
    + discriminate.
    + intros l [= <-]. reflexivity.
  - rewrite H1, ?F1, ?P1, ?X1. repeat match goal with |- _ /\ _ => split end; try assumption; try lia; try (exact eq_refl).
    + intros f Lf. reflexivity.
    + exists []. rewrite app_nil_r. split; [reflexivity|]. split; [intros f []|reflexivity].
    + exists []. rewrite app_nil_r. split; [reflexivity|]. split; [intros f []|reflexivity].
    + reflexivity.
    + intro h. now rewrite !andb_false_r.
    + discriminate.
    + discriminate.
Qed.

(** ** After a sequence of presets *)
Definition stderr_calls (cs : list call) : list call := List.filter has_stderr cs.
Record pinv (cs : list call) (s : lstate) : Prop := {
  p_more : extra_after cs (l_more s);
  p_err : exists F, l_filters s 0 = F /\ Forall2 (fun f c => exists ms, extra (c_preset c) (c_aux c) = Some ms /\ l_heap s f = named ms) F (stderr_calls cs);
  p_other : forall h, h <> 0 -> ~ In h (map c_file cs) -> l_filters s h = [];
  p_next : forall h f, In f (l_filters s h) -> f < l_next s
}.
Lemma extra_snoc cs c old : extra_after cs old -> extra_after (cs ++ [c]) (more_of c old).
Proof.
  unfold more_of. intro E. destruct (extra (c_preset c) (c_aux c)) as [ms|] eqn:X.
  - left. exists cs, c, []. split; [reflexivity|]. split; [exact X|intros d []].
  - destruct E as [(a & d & b & -> & Y & H)|[-> H]].
    + left. exists a, d, (b ++ [c]). split; [now rewrite <- app_assoc|]. split; [exact Y|]. now apply in_snoc.
    + right. split; [reflexivity|]. now apply in_snoc.
Qed.
Lemma stderr_extra c : has_stderr c = true -> exists ms, extra (c_preset c) (c_aux c) = Some ms.
Proof. unfold has_stderr. destruct (c_preset c); cbn; try discriminate; intros _; eauto. Qed.
Lemma run_calls_snoc cs c s : run_calls (cs ++ [c]) s = fst (enable_preset (preset_name (c_preset c)) (c_aux c) (Some (c_file c)) (run_calls cs s)).
Proof. unfold run_calls. rewrite fold_left_app. reflexivity. Qed.
Lemma pinv_run root cs : (forall c, In c cs -> c_file c <> 0) -> pinv cs (run_calls cs (log_new root)).
Proof.
  induction cs as [|c cs IH] using rev_ind; intro N.
  - constructor; cbn; try easy. + right. split; [reflexivity|intros d []]. + exists []. split; [reflexivity|constructor].
  - apply in_snoc in N as [N Nc]. specialize (IH N). destruct IH as [I1 (F0 & I2 & I3) I4 I5]. rewrite run_calls_snoc. set (s0 := run_calls cs (log_new root)) in *.
    destruct (preset_effect c s0 Nc) as (A1 & A2 & A3 & _ & _ & A6 & (F & A7 & A8 & A9) & (G & B1 & B2 & B3) & B4 & _). set (s := fst (enable_preset _ _ _ s0)) in *.
    constructor.
    + rewrite A2. now apply extra_snoc.
    + exists (F0 ++ F). split; [now rewrite A7, I2|]. unfold stderr_calls. rewrite filter_app. apply Forall2_app.
      * eapply Forall2_impl_in; [|exact I3]. intros f d If Id (ms & X & Y). exists ms. split; [exact X|]. rewrite A6; [exact Y|]. apply (I5 0). now rewrite I2.
      * cbn [List.filter]. destruct (has_stderr c) eqn:HS.
        { destruct A9 as (f & -> & H). constructor; [|constructor]. destruct (stderr_extra c HS) as [ms X]. exists ms. split; [exact X|]. unfold more_of in H. now rewrite X in H. }
        { subst F. constructor. }
    + intros h H0 H1. rewrite map_app in H1. assert (~ In h (map c_file cs) /\ h <> c_file c) as [X Y].
      { split; intro Z; apply H1, in_or_app; [now left|right; left; now symmetry]. }
      rewrite B4 by assumption. now apply I4.
    + intros h f If. destruct (Nat.eq_dec h 0) as [->|D].
      * rewrite A7 in If. apply in_app_or in If as [If|If]; [apply I5 in If; lia|apply A8 in If; lia].
      * destruct (Nat.eq_dec h (c_file c)) as [->|D'].
        { rewrite B1 in If. apply in_app_or in If as [If|If]; [apply I5 in If; lia|apply B2 in If; lia]. }
        { rewrite B4 in If by assumption. apply I5 in If. lia. }
Qed.
