(** * Lemmas about the callback service *)
From Coq Require Import List ZArith Bool Lia.
From Verif Require Import PyBase PyLemmas ClientModel CallbackModel CallbackSpec.
Import ListNotations.
Open Scope Z_scope.

Ltac cmapp := intros; match goal with |- ?f _ (_ ++ _) = _ => unfold f | |- ?f (_ ++ _) = _ => unfold f end; now rewrite map_app, concat_app.
Lemma made_app a b : made (a ++ b) = made a ++ made b. Proof. cmapp. Qed.
Lemma conns_app q a b : conns q (a ++ b) = conns q a ++ conns q b. Proof. cmapp. Qed.
Lemma notes_app q a b : notes q (a ++ b) = notes q a ++ notes q b. Proof. cmapp. Qed.
Lemma all_notes_app a b : all_notes (a ++ b) = all_notes a ++ all_notes b. Proof. cmapp. Qed.
Lemma received_app q a b : received q (a ++ b) = received q a ++ received q b. Proof. cmapp. Qed.
Lemma all_builds_app a b : all_builds (a ++ b) = all_builds a ++ all_builds b. Proof. cmapp. Qed.
Lemma builds_app q a b : builds q (a ++ b) = builds q a ++ builds q b. Proof. cmapp. Qed.
Lemma delivered_app q a b : delivered q (a ++ b) = delivered q a ++ delivered q b. Proof. cmapp. Qed.
Lemma losses_app q a b : losses q (a ++ b) = losses q a ++ losses q b. Proof. cmapp. Qed.
Lemma built_for_app q a b : built_for q (a ++ b) = built_for q a ++ built_for q b. Proof. cmapp. Qed.
Lemma is_lost_app q a b : is_lost q (a ++ b) = is_lost q a || is_lost q b.
Proof. unfold is_lost. apply existsb_app. Qed.
Lemma app_on_app q a b : app_on q (a ++ b) = match app_on q a with Some x => Some x | None => app_on q b end.
Proof.
  unfold app_on. rewrite all_builds_app. induction (all_builds a) as [|[[q' p'] n] r IH]; cbn [app find]; [reflexivity|].
  cbn [fst snd]. destruct (Nat.eqb p' q); [reflexivity|exact IH].
Qed.

(** the log of a build *)
Section BuildLog.
  Variables (port : Z) (p : proto) (n : note) (a : nat) (bl : list bytes).
  Let bg := BBuild port p n :: map (BDeliver p a) bl.
  Lemma bg_builds : all_builds bg = [(port, p, n)].
  Proof. unfold bg, all_builds. cbn. f_equal. induction bl; cbn; auto. Qed.
  Lemma bg_builds_port q : builds q bg = if Z.eq_dec port q then [(p, n)] else [].
  Proof.
    unfold bg, builds. cbn. assert (E : concat (map (fun x => match x with BBuild q0 p0 n0 => if Z.eq_dec q0 q then [(p0, n0)] else [] | _ => [] end) (map (BDeliver p a) bl)) = []) by (induction bl; cbn; auto).
    rewrite E. destruct (Z.eq_dec port q); reflexivity.
  Qed.
  Lemma bg_delivered q : delivered q bg = if Nat.eq_dec p q then map (pair a) bl else [].
  Proof. unfold bg, delivered. cbn. induction bl as [|b r IH]; cbn; [destruct (Nat.eq_dec p q); reflexivity|]. destruct (Nat.eq_dec p q); cbn; [now rewrite IH|exact IH]. Qed.
  Lemma bg_losses q : losses q bg = [].
  Proof. unfold bg, losses. cbn. induction bl; cbn; auto. Qed.
  Lemma bg_is_lost q : is_lost q bg = false.
  Proof. unfold bg, is_lost. cbn. induction bl; cbn; auto. Qed.
  Lemma bg_built_for id : built_for id bg = if Z.eq_dec (id_of n) id then [p] else [].
  Proof.
    unfold bg, built_for. cbn. assert (E : concat (map (fun x => match x with BBuild _ p0 n0 => if Z.eq_dec (id_of n0) id then [p0] else [] | _ => [] end) (map (BDeliver p a) bl)) = []) by (induction bl; cbn; auto).
    rewrite E, app_nil_r. reflexivity.
  Qed.
  Lemma bg_app_on q : app_on q bg = if Nat.eq_dec p q then Some (app_of n) else None.
  Proof. unfold app_on. rewrite bg_builds. cbn. destruct (Nat.eqb_spec p q), (Nat.eq_dec p q); congruence. Qed.
End BuildLog.

Record inv (es : list bevent) (s : cbs) (g : list blog) : Prop := {
  j_proto : forall p, match dget (b_protos s) p with
    | None => ~ In p (made es) /\ app_on p g = None /\ delivered p g = []
    | Some st => In p (conns (p_port st) es) /\ p_port st <> 0 /\ app_on p g = p_app st /\
        delivered p g = match p_app st with Some a => map (pair a) (received p es) | None => [] end /\
        p_backlog st = match p_app st with Some _ => [] | None => received p es end
    end;
  j_data : forall port p, dget (b_data s) port = Some p -> exists st, dget (b_protos s) p = Some st /\ p_port st = port /\ p_app st = None;
  j_keys : NoDup (dkeys (b_data s)) /\ NoDup (dkeys (b_info s)) /\ NoDup (dkeys (b_back s));
  j_spawn : forall id, spawned s id = filter (fun p => negb (is_lost p g)) (built_for id g);
  j_back : forall p id, dget (b_back s) p = Some id <-> In p (built_for id g) /\ is_lost p g = false;
  j_nodup : NoDup (map (fun b => snd (fst b)) (all_builds g));
  j_sound : forall q p n, In (q, p, n) (all_builds g) -> In p (conns q es) /\ In n (notes q es);
  j_info : forall port n, dget (b_info s) port = Some n -> In n (notes port es);
  j_lost : forall p, is_lost p g = true -> In (QLost p) es;
}.
Lemma in_made_conns p q es : In p (conns q es) -> In p (made es).
Proof.
  induction es as [|e r IH]; cbn; [auto|]. intros I. apply in_app_or in I. apply in_or_app. destruct I as [I|I]; [left|right; auto].
  destruct e; cbn in *; auto. destruct (Z.eq_dec port q); auto; try contradiction.
Qed.
Lemma app_on_builds p g : app_on p g = None <-> ~ In p (map (fun b => snd (fst b)) (all_builds g)).
Proof.
  unfold app_on. induction (all_builds g) as [|[[q p'] n] r IH]; cbn [find map In fst snd]; [tauto|].
  destruct (Nat.eqb_spec p' p) as [->|N]; [split; [discriminate|intros X; exfalso; apply X; now left]|]. rewrite IH. tauto.
Qed.
Lemma built_for_in p id g : In p (built_for id g) <-> exists q n, In (q, p, n) (all_builds g) /\ id_of n = id.
Proof.
  induction g as [|x r IH]; [cbn; split; [contradiction|intros (q & n & [] & _)]|].
  change (x :: r) with ([x] ++ r). rewrite built_for_app, all_builds_app, in_app_iff, IH. split.
  - intros [I|(q & n & I & E)]; [|exists q, n; split; [apply in_or_app; now right|exact E]].
    destruct x as [q p' n| | |]; cbn in I; try contradiction. rewrite app_nil_r in I. destruct (Z.eq_dec (id_of n) id) as [E|]; [|contradiction]. destruct I as [<-|[]].
    exists q, n. cbn. auto.
  - intros (q & n & I & E). apply in_app_or in I. destruct I as [I|I]; [left|right; eauto].
    destruct x as [q' p' n'| | |]; cbn in I; try contradiction. destruct I as [I|[]]. injection I as -> -> ->. cbn. destruct (Z.eq_dec (id_of n) id); [now left|contradiction].
Qed.
Lemma is_lost_false_unbuilt es s g p : inv es s g -> app_on p g = None -> forall id, ~ In p (built_for id g).
Proof. intros I A id B. apply app_on_builds in A. apply A. apply built_for_in in B. destruct B as (q & n & B & _). apply in_map_iff. exists (q, p, n). auto. Qed.

(** only built connections appear as lost in the log *)
Definition lost_built (g : list blog) : Prop := forall p, is_lost p g = true -> app_on p g <> None.

Lemma build_ok es s g port p n : inv es s g -> lost_built g -> dget (b_info s) port = Some n -> dget (b_data s) port = Some p ->
  exists s' g', build_stack port p n s = (s', g') /\ inv es s' (g ++ g') /\ lost_built (g ++ g') /\
    all_builds g' = [(port, p, n)] /\ (forall q, builds q g' = if Z.eq_dec port q then [(p, n)] else []) /\
    b_data s' = ddel (b_data s) port /\ b_info s' = ddel (b_info s) port /\ (forall q, losses q g' = []).
Proof.
  intros I LB Hn Hp. destruct (j_data _ _ _ I _ _ Hp) as (st & Hs & Hport & Ha). destruct n as [[id k] a] eqn:En. unfold build_stack.
  rewrite Hs. eexists _, _. split; [reflexivity|].
  pose proof (j_proto _ _ _ I p) as Jp. rewrite Hs, Ha in Jp. destruct Jp as (Jc & Jz & Jo & Jd & Jb).
  pose proof (bg_app_on port p n a (p_backlog st)) as BA. rewrite <- En in *.
  assert (An : app_of n = a) by (now subst n). assert (Idn : id_of n = id) by (now subst n).
  assert (LF : is_lost p g = false). { destruct (is_lost p g) eqn:E; [|reflexivity]. apply LB in E. congruence. }
  split; [|split].
  - constructor; cbn [b_protos b_data b_info b_spawn b_back].
    + intros q. rewrite dget_dset, app_on_app, delivered_app, bg_delivered, BA. pose proof (j_proto _ _ _ I q) as Jq.
      destruct (eq_dec q p) as [->|N].
      * cbn [p_port p_app p_backlog]. rewrite Jo, Jd. destruct (Nat.eq_dec p p); [|congruence]. cbn [app]. rewrite An, Jb. auto.
      * destruct (Nat.eq_dec p q); [congruence|]. rewrite app_nil_r. destruct (dget (b_protos s) q) as [st2|].
        -- destruct Jq as (a1 & a2 & a3 & a4 & a5). rewrite a3. split; [exact a1|]. split; [exact a2|]. split; [destruct (p_app st2); reflexivity|]. auto.
        -- destruct Jq as (a1 & a2 & a3). rewrite a2. auto.
    + intros q p2 E. rewrite dget_ddel in E by apply I. destruct (eq_dec q port) as [|N]; [discriminate|].
      destruct (j_data _ _ _ I _ _ E) as (st2 & H2 & Hq & Ha2). exists st2. split; [|auto]. rewrite dget_dset_other; [exact H2|]. intros ->. congruence.
    + destruct (j_keys _ _ _ I) as (K1 & K2 & K3). split; [now apply nodup_ddel|]. split; [now apply nodup_ddel|]. now apply nodup_dset.
    + intros i. unfold spawned at 1. cbn [b_spawn]. rewrite dget_dset, built_for_app, bg_built_for, filter_app, Idn.
      assert (F : forall l, filter (fun q => negb (is_lost q (g ++ BBuild port p n :: map (BDeliver p a) (p_backlog st)))) l = filter (fun q => negb (is_lost q g)) l).
      { intros l. apply filter_ext. intros q. now rewrite is_lost_app, bg_is_lost, orb_false_r. }
      rewrite !F. destruct (eq_dec i id) as [->|N].
      * rewrite (j_spawn _ _ _ I). destruct (Z.eq_dec id id); [|congruence]. cbn. now rewrite LF.
      * destruct (Z.eq_dec id i); [congruence|]. cbn. rewrite app_nil_r. apply (j_spawn _ _ _ I).
    + intros q i. rewrite dget_dset, built_for_app, bg_built_for, is_lost_app, bg_is_lost, orb_false_r, in_app_iff, Idn.
      destruct (eq_dec q p) as [->|N].
      * split.
        -- intros E. injection E as <-. destruct (Z.eq_dec id id); [|congruence]. split; [right; now left|exact LF].
        -- intros [[B|B] _]; [exfalso; exact (is_lost_false_unbuilt _ _ _ _ I Jo _ B)|]. destruct (Z.eq_dec id i); [congruence|contradiction].
      * rewrite (j_back _ _ _ I). split; [intros [A B]; auto|]. intros [[A|A] B]; [auto|]. destruct (Z.eq_dec id i); [|contradiction]. destruct A as [->|[]]. congruence.
    + rewrite all_builds_app, bg_builds, map_app. cbn [map fst snd]. apply NoDup_snoc; [apply I|]. now apply app_on_builds.
    + intros q p2 n2 B. rewrite all_builds_app, bg_builds in B. apply in_app_or in B. destruct B as [B|[B|[]]]; [now apply (j_sound _ _ _ I)|].
      injection B as <- <- <-. split; [now rewrite Hport in Jc|]. now apply (j_info _ _ _ I).
    + intros q n2 E. rewrite dget_ddel in E by apply I. destruct (eq_dec q port); [discriminate|]. now apply (j_info _ _ _ I).
    + intros q L. rewrite is_lost_app, bg_is_lost, orb_false_r in L. now apply (j_lost _ _ _ I).
  - intros q L. rewrite is_lost_app, bg_is_lost, orb_false_r in L. apply LB in L. rewrite app_on_app. destruct (app_on q g); congruence.
  - split; [apply bg_builds|]. split; [intros q; apply bg_builds_port|]. split; [reflexivity|]. split; [reflexivity|]. intros q. apply bg_losses.
Qed.

Lemma try_build_ok es s g port : inv es s g -> lost_built g ->
  exists s' g', try_build port s = (s', g') /\ inv es s' (g ++ g') /\ lost_built (g ++ g') /\ (forall q, losses q g' = []) /\
    match dget (b_data s) port, dget (b_info s) port with
    | Some p, Some n => all_builds g' = [(port, p, n)] /\ (forall q, builds q g' = if Z.eq_dec port q then [(p, n)] else []) /\
                        b_data s' = ddel (b_data s) port /\ b_info s' = ddel (b_info s) port
    | _, _ => g' = [] /\ s' = s
    end.
Proof.
  intros I LB. unfold try_build. destruct (dget (b_info s) port) as [n|] eqn:En, (dget (b_data s) port) as [p|] eqn:Ep;
    try (exists s, []; rewrite app_nil_r; split; [reflexivity|]; split; [exact I|]; split; [exact LB|]; split; [reflexivity|]; split; reflexivity).
  destruct (build_ok es s g port p n I LB En Ep) as (s' & g' & E & I' & L' & B1 & B2 & B3 & B4 & B5). exists s', g'. auto 10.
Qed.

Lemma wb_snoc es e : well_behaved (es ++ [e]) -> well_behaved es /\
  match e with
  | QMade p port => port <> 0 /\ ~ In p (made es)
  | QData p _ | QLost p => In p (made es) /\ ~ In (QLost p) es
  | _ => True
  end.
Proof.
  intros W. split; [|exact (W es e [] eq_refl)]. intros b x a ->. apply (W b x (a ++ [e])). now rewrite <- app_assoc.
Qed.
Lemma received_none p es : well_behaved es -> ~ In p (made es) -> received p es = [].
Proof.
  intros W. induction es as [|e r IH] using rev_ind; [reflexivity|]. apply wb_snoc in W. destruct W as [W Wx]. rewrite made_app, received_app. intros N.
  rewrite IH; [|exact W|intros I; apply N; apply in_or_app; now left]. destruct e as [|? ?|q b| |]; try reflexivity. cbn. destruct (Nat.eq_dec q p) as [->|]; [|reflexivity].
  exfalso. apply N. apply in_or_app. left. apply Wx.
Qed.
Lemma conns_mono q es e p : In p (conns q es) -> In p (conns q (es ++ [e])).
Proof. intros. rewrite conns_app. apply in_or_app. now left. Qed.
Lemma notes_mono q es e p : In p (notes q es) -> In p (notes q (es ++ [e])).
Proof. intros. rewrite notes_app. apply in_or_app. now left. Qed.

(** an event that is only recorded *)
Lemma inv_record es e s g : inv es s g -> made [e] = [] -> (forall p, received p [e] = []) -> inv (es ++ [e]) s g.
Proof.
  intros I M R. constructor; try apply I.
  - intros p. pose proof (j_proto _ _ _ I p) as J. rewrite made_app, M, app_nil_r, received_app, R, app_nil_r. destruct (dget (b_protos s) p); [|exact J].
    destruct J as (a & b). split; [now apply conns_mono|exact b].
  - intros q p n B. destruct (j_sound _ _ _ I _ _ _ B). split; [now apply conns_mono|now apply notes_mono].
  - intros q n E. apply notes_mono. now apply (j_info _ _ _ I).
  - intros p L. apply in_or_app. left. now apply (j_lost _ _ _ I).
Qed.
Lemma step_ok es e s g : inv es s g -> lost_built g -> well_behaved (es ++ [e]) ->
  exists s' g', cb_step e s = (s', g') /\ inv (es ++ [e]) s' (g ++ g') /\ lost_built (g ++ g').
Proof.
  intros I LB W. pose proof W as W0. apply wb_snoc in W. destruct W as [W Wx]. destruct e as [p port|port n|p b|p|id]; cbn [cb_step].
  - destruct Wx as [Wz Wn].
    set (s1 := Cbs (dset (b_protos s) p (PState port None [])) (dset (b_data s) port p) (b_info s) (b_spawn s) (b_back s)).
    assert (Pn : dget (b_protos s) p = None). { pose proof (j_proto _ _ _ I p) as J. destruct (dget (b_protos s) p); [|reflexivity]. exfalso. apply Wn. destruct J as [J _]. exact (in_made_conns _ _ _ J). }
    pose proof (j_proto _ _ _ I p) as Jp. rewrite Pn in Jp.
    assert (I1 : inv (es ++ [QMade p port]) s1 g).
    { constructor; cbn [s1 b_protos b_data b_info b_spawn b_back]; try apply I.
      - intros q. rewrite dget_dset. destruct (eq_dec q p) as [->|N].
        + cbn [p_port p_app p_backlog]. split; [rewrite conns_app; apply in_or_app; right; cbn; destruct (Z.eq_dec port port); [now left|congruence]|].
          rewrite received_app, (received_none p es W Wn). cbn. tauto.
        + pose proof (j_proto _ _ _ I q) as J. rewrite received_app, made_app. cbn [received map concat app]. rewrite app_nil_r. destruct (dget (b_protos s) q).
          * destruct J as (a & J). split; [now apply conns_mono|exact J].
          * destruct J as (a & J). split; [|exact J]. intros X. apply in_app_or in X. destruct X as [X|[X|[]]]; [auto|congruence].
      - intros q p2 E. rewrite dget_dset in E. destruct (eq_dec q port) as [->|N].
        + injection E as <-. eexists. rewrite dget_dset_same. split; [reflexivity|]. auto.
        + destruct (j_data _ _ _ I _ _ E) as (st & H & R). exists st. split; [|exact R]. rewrite dget_dset_other; [exact H|]. intros ->. congruence.
      - destruct (j_keys _ _ _ I) as (K1 & K2 & K3). split; [now apply nodup_dset|]. auto.
      - intros q p2 n B. destruct (j_sound _ _ _ I _ _ _ B). split; [now apply conns_mono|now apply notes_mono].
      - intros q n E. apply notes_mono. now apply (j_info _ _ _ I).
      - intros q L. apply in_or_app. left. now apply (j_lost _ _ _ I). }
    destruct (try_build_ok _ s1 g port I1 LB) as (s' & g' & E & I' & L' & _). exists s', g'. auto.
  - set (s1 := Cbs (b_protos s) (b_data s) (dset (b_info s) port n) (b_spawn s) (b_back s)).
    assert (I1 : inv (es ++ [QNote port n]) s1 g).
    { assert (I0 : inv (es ++ [QNote port n]) s g) by (apply inv_record; auto).
      constructor; cbn [s1 b_protos b_data b_info b_spawn b_back]; try apply I0.
      - destruct (j_keys _ _ _ I) as (K1 & K2 & K3). split; [auto|]. split; [now apply nodup_dset|auto].
      - intros q n2 E. rewrite dget_dset in E. destruct (eq_dec q port) as [->|N].
        + injection E as <-. rewrite notes_app. apply in_or_app. right. cbn. destruct (Z.eq_dec port port); [now left|congruence].
        + now apply (j_info _ _ _ I0). }
    destruct (try_build_ok _ s1 g port I1 LB) as (s' & g' & E & I' & L' & _). exists s', g'. auto.
  - destruct Wx as [Wm Wl]. pose proof (j_proto _ _ _ I p) as Jp. destruct (dget (b_protos s) p) as [st|] eqn:Ps; [|tauto].
    assert (Rp : received p [QData p b] = [b]) by (cbn; destruct (Nat.eq_dec p p); [reflexivity|congruence]).
    assert (Rq : forall q, q <> p -> received q [QData p b] = []) by (intros q N; cbn; destruct (Nat.eq_dec p q); [congruence|reflexivity]).
    assert (Old : forall q, q <> p -> match dget (b_protos s) q with
        | None => ~ In q (made (es ++ [QData p b])) /\ app_on q g = None /\ delivered q g = []
        | Some st => In q (conns (p_port st) (es ++ [QData p b])) /\ p_port st <> 0 /\ app_on q g = p_app st /\
           delivered q g = match p_app st with Some a => map (pair a) (received q (es ++ [QData p b])) | None => [] end /\
           p_backlog st = match p_app st with Some _ => [] | None => received q (es ++ [QData p b]) end end).
    { intros q N. pose proof (j_proto _ _ _ I q) as Jq. rewrite made_app, received_app, (Rq q N), !app_nil_r. destruct (dget (b_protos s) q); [|exact Jq]. destruct Jq as (a & J). split; [now apply conns_mono|exact J]. }
    destruct Jp as (a1 & a2 & a3 & a4 & a5). destruct (p_app st) as [a|] eqn:Pa.
    + exists s, [BDeliver p a b]. split; [reflexivity|]. split.
      * constructor; try apply I.
        -- intros q. rewrite app_on_app, delivered_app. cbn [app_on all_builds map concat app find]. destruct (Nat.eq_dec q p) as [->|N].
           ++ rewrite Ps, Pa, a3, a4, received_app, Rp, map_app. split; [now apply conns_mono|]. split; [exact a2|]. split; [reflexivity|]. split; [|exact a5]. cbn. destruct (Nat.eq_dec p p); [reflexivity|congruence].
           ++ specialize (Old q N). cbn. destruct (Nat.eq_dec p q); [congruence|]. rewrite app_nil_r. destruct (dget (b_protos s) q) as [st2|].
              ** destruct Old as (b1 & b2 & b3 & b4). rewrite b3. split; [auto|]. split; [auto|]. split; [destruct (p_app st2); reflexivity|exact b4].
              ** destruct Old as (b1 & b2 & b3). rewrite b2. auto.
        -- intros i. rewrite built_for_app. cbn. rewrite app_nil_r, (j_spawn _ _ _ I). apply filter_ext. intros q. rewrite is_lost_app. cbn. now rewrite orb_false_r.
        -- intros q i. rewrite built_for_app, is_lost_app. cbn. rewrite app_nil_r, orb_false_r. apply (j_back _ _ _ I).
        -- rewrite all_builds_app. cbn. rewrite app_nil_r. apply I.
        -- intros q p2 n B. rewrite all_builds_app in B. cbn in B. rewrite app_nil_r in B. destruct (j_sound _ _ _ I _ _ _ B). split; [now apply conns_mono|now apply notes_mono].
        -- intros q n E. apply notes_mono. now apply (j_info _ _ _ I).
        -- intros q L. rewrite is_lost_app in L. cbn in L. rewrite orb_false_r in L. apply in_or_app. left. now apply (j_lost _ _ _ I).
      * intros q L. rewrite is_lost_app in L. cbn in L. rewrite orb_false_r in L. rewrite app_on_app. apply LB in L. destruct (app_on q g); congruence.
    + eexists _, _. split; [reflexivity|]. rewrite app_nil_r. split; [|exact LB]. constructor; cbn [b_protos b_data b_info b_spawn b_back]; try apply I.
      * intros q. rewrite dget_dset. destruct (eq_dec q p) as [->|N]; [|now apply Old]. cbn [p_port p_app p_backlog]. rewrite a5, received_app, Rp. split; [now apply conns_mono|auto].
      * intros q p2 E. destruct (j_data _ _ _ I _ _ E) as (st2 & H & R). rewrite dget_dset. destruct (eq_dec p2 p) as [->|]; [|eauto]. eexists. split; [reflexivity|]. cbn. rewrite Ps in H. injection H as <-. tauto.
      * intros q p2 n B. destruct (j_sound _ _ _ I _ _ _ B). split; [now apply conns_mono|now apply notes_mono].
      * intros q n E. apply notes_mono. now apply (j_info _ _ _ I).
      * intros q L. apply in_or_app. left. now apply (j_lost _ _ _ I).
  - destruct Wx as [Wm Wl]. assert (I0 : inv (es ++ [QLost p]) s g) by (apply inv_record; auto).
    pose proof (j_proto _ _ _ I p) as Jp. destruct (dget (b_protos s) p) as [st|] eqn:Ps; [|tauto].
    destruct Jp as (a1 & a2 & a3 & a4 & a5). destruct (p_app st) as [a|] eqn:Pa.
    + destruct (Z.eqb_spec (p_port st) 0); [congruence|]. eexists _, _. split; [reflexivity|].
      assert (NL : is_lost p g = false). { destruct (is_lost p g) eqn:E; [|reflexivity]. exfalso. apply Wl. now apply (j_lost _ _ _ I). }
      assert (IL : forall q, is_lost q (g ++ [BLost p a]) = is_lost q g || Nat.eqb p q). { intros q. rewrite is_lost_app. cbn. now rewrite orb_false_r. }
      assert (BF : forall i, built_for i (g ++ [BLost p a]) = built_for i g). { intros i. rewrite built_for_app. cbn. now rewrite app_nil_r. }
      assert (AB : all_builds (g ++ [BLost p a]) = all_builds g). { rewrite all_builds_app. cbn. now rewrite app_nil_r. }
      assert (AO : forall q, app_on q (g ++ [BLost p a]) = app_on q g). { intros q. unfold app_on. now rewrite AB. }
      split; [|intros q L; rewrite AO; rewrite IL in L; apply orb_true_iff in L; destruct L as [L|L]; [now apply LB|]; apply Nat.eqb_eq in L; subst q; congruence].
      (* the id this connection was built for *)
      assert (exists id, In p (built_for id g)) as [id Bid].
      { assert (In p (map (fun b => snd (fst b)) (all_builds g))) as M. { destruct (in_dec Nat.eq_dec p (map (fun b => snd (fst b)) (all_builds g))); auto. exfalso. apply app_on_builds in n0. congruence. }
        apply in_map_iff in M. destruct M as ([[q p2] n2] & E & M). cbn in E. subst p2. exists (id_of n2). apply built_for_in. eauto. }
      assert (Bk : dget (b_back s) p = Some id) by (apply (j_back _ _ _ I); auto).
      assert (Uq : forall id2, In p (built_for id2 g) -> id2 = id). { intros id2 B2. assert (dget (b_back s) p = Some id2) by (apply (j_back _ _ _ I); auto). congruence. }
      assert (NDf : forall i, NoDup (built_for i g)).
      { intros i. pose proof (j_nodup _ _ _ I) as ND. clear -ND. induction g as [|x r IH]; [constructor|]. change (x :: r) with ([x] ++ r) in *. rewrite all_builds_app, map_app in ND. rewrite built_for_app.
        destruct x as [q p' n| | |]; cbn in *; auto. inversion ND as [|? ? N1 N2]; subst. rewrite app_nil_r. destruct (Z.eq_dec (id_of n) i); cbn; [|now apply IH]. constructor; [|now apply IH].
        intros B. apply N1. apply built_for_in in B. destruct B as (q2 & n2 & B & _). apply in_map_iff. exists (q2, p', n2). auto. }
      unfold data_closed. rewrite Bk. constructor; cbn [b_protos b_data b_info b_spawn b_back]; rewrite ?AB; try apply I0.
      * intros q. rewrite AO, delivered_app. cbn. rewrite app_nil_r. apply (j_proto _ _ _ I0).
      * intros q p2 E. rewrite dget_ddel in E by apply I. destruct (eq_dec q (p_port st)); [discriminate|]. now apply (j_data _ _ _ I).
      * destruct (j_keys _ _ _ I) as (K1 & K2 & K3). split; [now apply nodup_ddel|]. split; now apply nodup_ddel.
      * intros i. unfold spawned at 1. cbn [b_spawn]. rewrite dget_dset, BF. destruct (eq_dec i id) as [->|N].
        -- rewrite (j_spawn _ _ _ I). clear -NDf. specialize (NDf id). induction (built_for id g) as [|q l IH]; [reflexivity|]. inversion NDf as [|? ? N1 N2]; subst.
           cbn [filter]. rewrite is_lost_app. cbn [is_lost existsb]. rewrite orb_false_r. destruct (is_lost q g) eqn:Lq; cbn [negb orb]; [now apply IH|].
           cbn [sremove]. destruct (eq_dec p q) as [<-|N].
           ++ rewrite Nat.eqb_refl. cbn. assert (E : filter (fun q => negb (is_lost q (g ++ [BLost p a]))) l = filter (fun q => negb (is_lost q g)) l); [|now rewrite E].
              apply filter_ext_in. intros x Hx. rewrite is_lost_app. cbn. destruct (Nat.eqb_spec p x); [subst; contradiction|]. now rewrite orb_false_r.
           ++ destruct (Nat.eqb_spec p q); [congruence|]. cbn. f_equal. now apply IH.
        -- change (spawned s i = filter (fun p0 => negb (is_lost p0 (g ++ [BLost p a]))) (built_for i g)). rewrite (j_spawn _ _ _ I). apply filter_ext_in. intros x Hx. rewrite IL.
           destruct (Nat.eqb_spec p x) as [<-|]; [exfalso; apply N; now apply Uq|]. now rewrite orb_false_r.
      * intros q i. rewrite BF, IL. rewrite dget_ddel by apply I. destruct (eq_dec q p) as [->|N].
        -- rewrite Nat.eqb_refl, orb_true_r. split; [discriminate|intros [_ X]; discriminate].
        -- destruct (Nat.eqb_spec p q); [congruence|]. rewrite orb_false_r. apply (j_back _ _ _ I).
      * intros q n2 E. rewrite dget_ddel in E by apply I. destruct (eq_dec q (p_port st)); [discriminate|]. apply notes_mono. now apply (j_info _ _ _ I).
      * intros q L. rewrite IL in L. apply orb_true_iff in L. apply in_or_app. destruct L as [L|L]; [left; now apply (j_lost _ _ _ I)|right]. apply Nat.eqb_eq in L. subst q. now left.
    + eexists _, _. split; [reflexivity|].
      assert (IL : forall q, is_lost q (g ++ [BError p]) = is_lost q g) by (intros q; rewrite is_lost_app; cbn; now rewrite orb_false_r).
      assert (BF : forall i, built_for i (g ++ [BError p]) = built_for i g) by (intros i; rewrite built_for_app; cbn; now rewrite app_nil_r).
      assert (AB : all_builds (g ++ [BError p]) = all_builds g) by (rewrite all_builds_app; cbn; now rewrite app_nil_r).
      assert (AO : forall q, app_on q (g ++ [BError p]) = app_on q g) by (intros q; unfold app_on; now rewrite AB).
      split; [|intros q; rewrite AO, IL; apply LB]. constructor; rewrite ?AB; try apply I0.
      * intros q. rewrite AO, delivered_app. cbn. rewrite app_nil_r. apply (j_proto _ _ _ I0).
      * intros i. rewrite BF, (j_spawn _ _ _ I0). apply filter_ext. intros q. now rewrite IL.
      * intros q i. rewrite BF, IL. apply (j_back _ _ _ I0).
      * intros q. rewrite IL. apply (j_lost _ _ _ I0).
  - assert (I0 : inv (es ++ [QWait id]) s g) by (apply inv_record; auto). eexists _, _. split; [reflexivity|]. rewrite app_nil_r. split; [|exact LB].
    destruct (dget (b_spawn s) id) eqn:Es; [exact I0|]. constructor; cbn [b_protos b_data b_info b_spawn b_back]; try apply I0.
    intros i. rewrite <- (j_spawn _ _ _ I0 i). unfold spawned. cbn [b_spawn]. rewrite dget_dset. destruct (eq_dec i id) as [->|]; [now rewrite Es|reflexivity].
Qed.

Lemma cb_run_snoc es e s : cb_run (es ++ [e]) s = let (s1, g1) := cb_run es s in let (s2, g2) := cb_step e s1 in (s2, g1 ++ g2).
Proof.
  revert s. induction es as [|x r IH]; intros s; cbn [app cb_run].
  - destruct (cb_step e s). cbn. now rewrite app_nil_r.
  - destruct (cb_step x s) as [s1 g1]. rewrite IH. destruct (cb_run r s1) as [s2 g2]. destruct (cb_step e s2) as [s3 g3]. now rewrite app_assoc.
Qed.
Lemma inv_new : inv [] cbs_new [].
Proof.
  constructor; cbn.
  - intros p. tauto.
  - discriminate.
  - split; [constructor|]. split; constructor.
  - reflexivity.
  - intros p id. split; [discriminate|intros [[] _]].
  - constructor.
  - intros q p n [].
  - discriminate.
  - discriminate.
Qed.
Lemma run_ok es : well_behaved es -> inv es (fst (cb_run es cbs_new)) (snd (cb_run es cbs_new)) /\ lost_built (snd (cb_run es cbs_new)).
Proof.
  induction es as [|e r IH] using rev_ind; intros W; [split; [apply inv_new|intros p L; discriminate]|].
  pose proof (proj1 (wb_snoc _ _ W)) as W1. destruct (IH W1) as [I L]. rewrite cb_run_snoc. destruct (cb_run r cbs_new) as [s g]. cbn [fst snd] in *.
  destruct (step_ok r e s g I L W) as (s' & g' & E & I' & L'). rewrite E. auto.
Qed.

Definition olist {A} (o : option A) : list A := match o with Some a => [a] | None => [] end.
Lemma olist_len {A} (o : option A) : (length (olist o) <= 1)%nat. Proof. destruct o; cbn; lia. Qed.

(** ** pairing under disciplined use of a port *)
Record pair_inv (port : Z) (es : list bevent) (s : cbs) (g : list blog) : Prop := {
  q_conns : conns port es = map fst (builds port g) ++ olist (dget (b_data s) port);
  q_notes : notes port es = map snd (builds port g) ++ olist (dget (b_info s) port);
  q_one : dget (b_data s) port = None \/ dget (b_info s) port = None }.
Lemma paired_prefix port es e : paired_use port (es ++ [e]) -> paired_use port es.
Proof.
  intros P b a ->. specialize (P b (a ++ [e])). rewrite <- app_assoc in P. specialize (P eq_refl). destruct P as [P1 P2]. split; [exact P1|].
  intros p r ->. apply (P2 p (r ++ [e])). reflexivity.
Qed.
Lemma pair_step port es e s g s' g' : inv es s g -> lost_built g -> well_behaved (es ++ [e]) -> paired_use port (es ++ [e]) ->
  pair_inv port es s g -> cb_step e s = (s', g') -> pair_inv port (es ++ [e]) s' (g ++ g').
Proof.
  intros I LB W U [Qc Qn Q1] S.
  pose proof (proj2 (wb_snoc _ _ W)) as Wx.
  destruct (U (es ++ [e]) [] ltac:(now rewrite app_nil_r)) as [[U1 U2] _]. destruct (U es [e] eq_refl) as [_ U3].
  assert (Ln : length (conns port es) = (length (builds port g) + length (olist (dget (b_data s) port)))%nat) by (rewrite Qc, app_length, map_length; reflexivity).
  assert (Lm : length (notes port es) = (length (builds port g) + length (olist (dget (b_info s) port)))%nat) by (rewrite Qn, app_length, map_length; reflexivity).
  destruct e as [p q|q n|p b|p|id]; cbn [cb_step] in S.
  - rewrite conns_app, notes_app in U1, U2. cbn [conns notes map concat] in U1, U2. rewrite !app_length in U1, U2.
    assert (Dn : q = port -> dget (b_data s) port = None).
    { intros ->. destruct (dget (b_data s) port) as [p0|] eqn:E; [|reflexivity]. destruct Q1 as [|Q1]; [congruence|]. rewrite Q1 in *. cbn in *. destruct (Z.eq_dec port port); [|congruence]. cbn in *. lia. }
    set (s1 := Cbs (dset (b_protos s) p (PState q None [])) (dset (b_data s) q p) (b_info s) (b_spawn s) (b_back s)) in S.
    unfold try_build in S. cbn [s1 b_info b_data] in S. rewrite dget_dset_same in S.
    destruct (dget (b_info s) q) as [[[i k] a]|] eqn:En.
    + unfold build_stack in S. cbn [s1 b_protos] in S. rewrite dget_dset_same in S. cbn [p_port p_backlog p_app map] in S. injection S as <- <-.
      destruct (Z.eq_dec q port) as [->|N].
      * specialize (Dn eq_refl). rewrite Dn in *. rewrite En in *. constructor; cbn [b_data b_info]; rewrite ?conns_app, ?notes_app, ?builds_app, ?map_app, ?Qc, ?Qn.
        -- cbn [conns builds map concat olist]. destruct (Z.eq_dec port port); [|congruence]. cbn. rewrite !app_nil_r.
           rewrite dget_ddel by (apply nodup_dset; apply I). destruct (eq_dec port port); [|congruence]. cbn. now rewrite ?app_nil_r.
        -- cbn [notes builds map concat olist]. destruct (Z.eq_dec port port); [|congruence]. cbn. rewrite !app_nil_r.
           rewrite dget_ddel by apply I. destruct (eq_dec port port); [|congruence]. cbn. now rewrite ?app_nil_r.
        -- left. rewrite dget_ddel by (apply nodup_dset; apply I). destruct (eq_dec port port); congruence.
      * constructor; cbn [b_data b_info]; rewrite ?conns_app, ?notes_app, ?builds_app; cbn; destruct (Z.eq_dec q port); try congruence; cbn; rewrite ?app_nil_r;
          rewrite !dget_ddel_other by congruence; rewrite ?dget_dset_other by congruence; auto.
    + injection S as <- <-. rewrite app_nil_r. destruct (Z.eq_dec q port) as [->|N].
      * specialize (Dn eq_refl). rewrite Dn in *. constructor; cbn [s1 b_data b_info]; rewrite ?conns_app, ?notes_app; cbn; destruct (Z.eq_dec port port); try congruence; rewrite ?app_nil_r, ?dget_dset_same; auto.
        rewrite Qc. cbn. now rewrite app_nil_r.
      * constructor; cbn [s1 b_data b_info]; rewrite ?conns_app, ?notes_app; cbn; destruct (Z.eq_dec q port); try congruence; cbn; rewrite ?app_nil_r; rewrite ?dget_dset_other by congruence; auto.
  - rewrite conns_app, notes_app in U1, U2. cbn [conns notes map concat] in U1, U2. rewrite !app_length in U1, U2.
    assert (Dn : q = port -> dget (b_info s) port = None).
    { intros ->. destruct (dget (b_info s) port) as [p0|] eqn:E; [|reflexivity]. destruct Q1 as [Q1|]; [|congruence]. rewrite Q1 in *. cbn in *. destruct (Z.eq_dec port port); [|congruence]. cbn in *. lia. }
    set (s1 := Cbs (b_protos s) (b_data s) (dset (b_info s) q n) (b_spawn s) (b_back s)) in S.
    unfold try_build in S. cbn [s1 b_info b_data] in S. rewrite dget_dset_same in S.
    destruct (dget (b_data s) q) as [p|] eqn:En.
    + destruct (j_data _ _ _ I _ _ En) as (st & Hs & _ & _).
      unfold build_stack in S. destruct n as [[i k] a]. cbn [s1 b_protos] in S. rewrite Hs in S. injection S as <- <-.
      destruct (Z.eq_dec q port) as [->|N].
      * specialize (Dn eq_refl). rewrite Dn in *. rewrite En in *. constructor; cbn [b_data b_info]; rewrite ?conns_app, ?notes_app, ?builds_app, ?bg_builds_port, ?map_app, ?Qc, ?Qn.
        -- cbn [conns map concat olist]. destruct (Z.eq_dec port port); [|congruence]. cbn. rewrite !app_nil_r.
           rewrite dget_ddel by apply I. destruct (eq_dec port port); [|congruence]. cbn. now rewrite ?app_nil_r.
        -- cbn [notes map concat olist]. destruct (Z.eq_dec port port); [|congruence]. cbn. rewrite !app_nil_r.
           rewrite dget_ddel by (apply nodup_dset; apply I). destruct (eq_dec port port); [|congruence]. cbn. now rewrite ?app_nil_r.
        -- left. rewrite dget_ddel by apply I. destruct (eq_dec port port); congruence.
      * constructor; cbn [b_data b_info]; rewrite ?conns_app, ?notes_app, ?builds_app, ?bg_builds_port; cbn; destruct (Z.eq_dec q port); try congruence; cbn; rewrite ?app_nil_r;
          rewrite !dget_ddel_other by congruence; rewrite ?dget_dset_other by congruence; auto.
    + injection S as <- <-. rewrite app_nil_r. destruct (Z.eq_dec q port) as [->|N].
      * specialize (Dn eq_refl). rewrite Dn in *. constructor; cbn [s1 b_data b_info]; rewrite ?conns_app, ?notes_app; cbn; destruct (Z.eq_dec port port); try congruence; rewrite ?app_nil_r, ?dget_dset_same; auto.
        rewrite Qn. cbn. now rewrite app_nil_r.
      * constructor; cbn [s1 b_data b_info]; rewrite ?conns_app, ?notes_app; cbn; destruct (Z.eq_dec q port); try congruence; cbn; rewrite ?app_nil_r; rewrite ?dget_dset_other by congruence; auto.
  - assert (E : builds port g' = [] /\ b_data s' = b_data s /\ b_info s' = b_info s).
    { destruct (dget (b_protos s) p) as [st|]; [destruct (p_app st)|]; injection S as <- <-; auto. }
    destruct E as (E1 & E2 & E3). constructor; rewrite ?conns_app, ?notes_app, ?builds_app, ?E1, ?E2, ?E3; cbn; rewrite ?app_nil_r; auto.
  - assert (E : builds port g' = []). { destruct (dget (b_protos s) p) as [st|]; [destruct (p_app st)|]; injection S as <- <-; auto. }
    constructor; rewrite ?conns_app, ?notes_app, ?builds_app, ?E; cbn [conns notes map concat app]; rewrite ?app_nil_r.
    all: pose proof (j_proto _ _ _ I p) as Jp; destruct (dget (b_protos s) p) as [st|] eqn:Ps; [destruct (p_app st) as [a|] eqn:Pa|]; injection S as <- <-; auto.
    all: destruct (Z.eqb_spec (p_port st) 0); auto.
    all: destruct Jp as (a1 & _).
    all: assert (Cl : b_data (data_closed p (p_port st) s) = ddel (b_data s) (p_port st) /\ b_info (data_closed p (p_port st) s) = ddel (b_info s) (p_port st)) by (unfold data_closed; destruct (dget (b_back s) p); auto).
    all: destruct Cl as [Cl1 Cl2]; rewrite ?Cl1, ?Cl2.
    all: destruct (Z.eq_dec (p_port st) port) as [Ep|Np]; [|rewrite ?dget_ddel_other by congruence; auto].
    all: rewrite Ep in *; specialize (U3 _ _ eq_refl a1); rewrite Ln, Lm in U3.
    all: assert (dget (b_data s) port = None /\ dget (b_info s) port = None) as [N1 N2] by (destruct Q1 as [Q1|Q1]; rewrite Q1 in *; split; auto; destruct (dget _ port); auto; cbn in U3; lia).
    all: rewrite ?Qc, ?Qn, ?N1, ?N2, ?dget_ddel by apply I; destruct (eq_dec port port); try congruence; auto.
  - injection S as <- <-. rewrite app_nil_r. constructor; rewrite ?conns_app, ?notes_app; cbn; rewrite ?app_nil_r; destruct (dget (b_spawn s) id); auto.
Qed.
Lemma combine_split {A B} (bs : list (A * B)) (x : option A) (y : option B) : x = None \/ y = None ->
  combine (map fst bs ++ olist x) (map snd bs ++ olist y) = bs.
Proof.
  intros N. induction bs as [|[a b] r IH]; cbn.
  - destruct N as [->| ->]; [reflexivity|destruct x; reflexivity].
  - now rewrite IH.
Qed.

(** ** applications are used once *)
Definition built_apps (g : list blog) : list nat := map (fun b => app_of (snd b)) (all_builds g).
Record app_inv (es : list bevent) (s : cbs) (g : list blog) : Prop := {
  a_nodup : NoDup (built_apps g);
  a_old : forall a, In a (built_apps g) -> In a (map app_of (all_notes es));
  a_info : forall port n, dget (b_info s) port = Some n -> ~ In (app_of n) (built_apps g) /\ In (app_of n) (map app_of (all_notes es));
  a_uniq : forall p1 n1 p2 n2, dget (b_info s) p1 = Some n1 -> dget (b_info s) p2 = Some n2 -> app_of n1 = app_of n2 -> p1 = p2 }.
Lemma app_try es s g port : inv es s g -> lost_built g -> app_inv es s g -> app_inv es (fst (try_build port s)) (g ++ snd (try_build port s)).
Proof.
  intros I LB A. destruct (try_build_ok es s g port I LB) as (s' & g' & E & _ & _ & _ & M). rewrite E. cbn [fst snd].
  destruct (dget (b_data s) port) as [p|] eqn:Ed; [|destruct M as [-> ->]; now rewrite app_nil_r].
  destruct (dget (b_info s) port) as [n|] eqn:Ei; [|destruct M as [-> ->]; now rewrite app_nil_r].
  destruct M as (Ba & _ & _ & Bi).
  assert (BA : built_apps (g ++ g') = built_apps g ++ [app_of n]) by (unfold built_apps; now rewrite all_builds_app, Ba, map_app).
  destruct (a_info _ _ _ A _ _ Ei) as [X1 X2].
  assert (Old : forall q n2, dget (b_info s') q = Some n2 -> q <> port /\ dget (b_info s) q = Some n2).
  { intros q n2 Hq. rewrite Bi, dget_ddel in Hq by apply I. destruct (eq_dec q port); [discriminate|auto]. }
  constructor; rewrite ?BA.
  - apply NoDup_snoc; [apply A|exact X1].
  - intros a Ha. apply in_app_or in Ha. destruct Ha as [Ha|[<-|[]]]; [now apply (a_old _ _ _ A)|exact X2].
  - intros q n2 Hq. destruct (Old _ _ Hq) as [N Hq']. destruct (a_info _ _ _ A _ _ Hq') as [Y1 Y2]. split; [|exact Y2].
    intros Z. apply in_app_or in Z. destruct Z as [Z|[Z|[]]]; [auto|]. apply N. exact (a_uniq _ _ _ A _ _ _ _ Hq' Ei (eq_sym Z)).
  - intros p1 n1 p2 n2 H1 H2. destruct (Old _ _ H1), (Old _ _ H2). eapply (a_uniq _ _ _ A); eauto.
Qed.
Lemma app_step es e s g : inv es s g -> lost_built g -> well_behaved (es ++ [e]) -> NoDup (map app_of (all_notes (es ++ [e]))) ->
  app_inv es s g -> app_inv (es ++ [e]) (fst (cb_step e s)) (g ++ snd (cb_step e s)).
Proof.
  intros I LB W ND A.
  assert (Same : forall s' g', all_notes [e] = [] -> b_info s' = b_info s -> all_builds g' = [] -> app_inv (es ++ [e]) s' (g ++ g')).
  { intros s' g' E1 E2 E3. assert (BA : built_apps (g ++ g') = built_apps g) by (unfold built_apps; now rewrite all_builds_app, E3, app_nil_r).
    destruct A as [a b c d]. constructor; rewrite ?BA, ?E2, ?all_notes_app, ?E1, ?app_nil_r; auto. }
  destruct e as [p q|q n|p b|p|id]; cbn [cb_step].
  - pose proof (step_ok es (QMade p q) s g I LB W) as SO. cbn [cb_step] in SO.
    (* the recorded state satisfies the invariant: rebuild it from step_ok's argument *)
    set (s1 := Cbs (dset (b_protos s) p (PState q None [])) (dset (b_data s) q p) (b_info s) (b_spawn s) (b_back s)) in *.
    assert (A1 : app_inv (es ++ [QMade p q]) s1 g) by (rewrite <- (app_nil_r g); apply Same; reflexivity).
    unfold try_build in *. cbn [s1 b_info b_data] in *. rewrite dget_dset_same in *. destruct (dget (b_info s) q) as [[[i k] a]|] eqn:Ei; [|cbn [fst snd]; rewrite app_nil_r; exact A1].
    unfold build_stack in *. cbn [s1 b_protos] in *. rewrite dget_dset_same in *. cbn [p_backlog map fst snd p_port].
    destruct (a_info _ _ _ A _ _ Ei) as [X1 X2].
    assert (BA : built_apps (g ++ [BBuild q p (i, k, a)]) = built_apps g ++ [a]) by (unfold built_apps; now rewrite all_builds_app, map_app).
    assert (AN : all_notes (es ++ [QMade p q]) = all_notes es) by (rewrite all_notes_app; apply app_nil_r).
    constructor; rewrite ?BA, ?AN; cbn [b_info].
    + apply NoDup_snoc; [apply A|exact X1].
    + intros a' Ha. apply in_app_or in Ha. destruct Ha as [Ha|[<-|[]]]; [now apply (a_old _ _ _ A)|exact X2].
    + intros q2 n2 Hq. rewrite dget_ddel in Hq by apply I. destruct (eq_dec q2 q) as [|N]; [discriminate|]. destruct (a_info _ _ _ A _ _ Hq) as [Y1 Y2]. split; [|exact Y2].
      intros Z. apply in_app_or in Z. destruct Z as [Z|[Z|[]]]; [auto|]. apply N. exact (a_uniq _ _ _ A _ _ _ _ Hq Ei (eq_sym Z)).
    + intros p1 n1 p2 n2 H1 H2. rewrite dget_ddel in H1, H2 by apply I. destruct (eq_dec p1 q), (eq_dec p2 q); try discriminate. eapply (a_uniq _ _ _ A); eauto.
  - set (s1 := Cbs (b_protos s) (b_data s) (dset (b_info s) q n) (b_spawn s) (b_back s)).
    assert (I0 : inv (es ++ [QNote q n]) s g) by (apply inv_record; auto).
    assert (I1 : inv (es ++ [QNote q n]) s1 g).
    { constructor; cbn [s1 b_protos b_data b_info b_spawn b_back]; try apply I0.
      - destruct (j_keys _ _ _ I) as (K1 & K2 & K3). split; [auto|]. split; [now apply nodup_dset|auto].
      - intros q0 n2 E. rewrite dget_dset in E. destruct (eq_dec q0 q) as [->|N].
        + injection E as <-. rewrite notes_app. apply in_or_app. right. cbn. destruct (Z.eq_dec q q); [now left|congruence].
        + now apply (j_info _ _ _ I0). }
    apply app_try; auto.
    rewrite all_notes_app, map_app in ND. cbn in ND.
    assert (Fr : ~ In (app_of n) (map app_of (all_notes es))). { clear -ND. induction (map app_of (all_notes es)) as [|x r IH]; [tauto|]. inversion ND; subst. intros [->|Hi]; [apply H1; apply in_or_app; right; now left|]. now apply IH. }
    assert (AN : map app_of (all_notes (es ++ [QNote q n])) = map app_of (all_notes es) ++ [app_of n]) by (now rewrite all_notes_app, map_app).
    constructor; rewrite ?AN; cbn [s1 b_info].
    + apply A.
    + intros a Ha. apply in_or_app. left. now apply (a_old _ _ _ A).
    + intros q2 n2 Hq. rewrite dget_dset in Hq. destruct (eq_dec q2 q) as [->|N].
      * injection Hq as <-. split; [intros Ha; apply Fr; now apply (a_old _ _ _ A)|apply in_or_app; right; now left].
      * destruct (a_info _ _ _ A _ _ Hq). split; auto. apply in_or_app. now left.
    + intros p1 n1 p2 n2 H1 H2 E. rewrite dget_dset in H1, H2. destruct (eq_dec p1 q) as [->|N1], (eq_dec p2 q) as [->|N2]; auto.
      * injection H1 as <-. exfalso. apply Fr. rewrite E. now apply (a_info _ _ _ A _ _ H2).
      * injection H2 as <-. exfalso. apply Fr. rewrite <- E. now apply (a_info _ _ _ A _ _ H1).
      * eapply (a_uniq _ _ _ A); eauto.
  - destruct (dget (b_protos s) p) as [st|]; [destruct (p_app st)|]; apply Same; reflexivity.
  - destruct (dget (b_protos s) p) as [st|]; [destruct (p_app st) as [a|]|]; try (apply Same; reflexivity).
    destruct (Z.eqb (p_port st) 0); [apply Same; reflexivity|]. cbn [fst snd].
    assert (Cl : b_info (data_closed p (p_port st) s) = ddel (b_info s) (p_port st)) by (unfold data_closed; destruct (dget (b_back s) p); auto).
    assert (BA : built_apps (g ++ [BLost p a]) = built_apps g) by (unfold built_apps; rewrite all_builds_app; cbn; now rewrite app_nil_r).
    constructor; rewrite ?BA, ?Cl, ?all_notes_app; cbn [all_notes map concat]; rewrite ?app_nil_r; try apply A.
    + intros q n Hq. rewrite dget_ddel in Hq by apply I. destruct (eq_dec q (p_port st)); [discriminate|]. now apply (a_info _ _ _ A) with (port := q).
    + intros p1 n1 p2 n2 H1 H2. rewrite dget_ddel in H1, H2 by apply I. destruct (eq_dec p1 (p_port st)), (eq_dec p2 (p_port st)); try discriminate. eapply (a_uniq _ _ _ A); eauto.
  - destruct (dget (b_spawn s) id); apply Same; reflexivity.
Qed.

(** ** losses *)
Lemma losses_other p e s : e <> QLost p -> losses p (snd (cb_step e s)) = [].
Proof.
  intros N. destruct e as [p' q|q n|p' b|p'|id]; cbn [cb_step].
  - unfold try_build. cbn [b_info b_data]. rewrite dget_dset_same. destruct (dget (b_info s) q) as [[[i k] a]|]; [|reflexivity].
    unfold build_stack. destruct (dget _ p'); [apply bg_losses|reflexivity].
  - unfold try_build. cbn [b_info b_data]. rewrite dget_dset_same. destruct (dget (b_data s) q) as [p0|]; [|reflexivity].
    unfold build_stack. destruct n as [[i k] a]. destruct (dget _ p0); [apply bg_losses|reflexivity].
  - destruct (dget (b_protos s) p') as [st|]; [destruct (p_app st)|]; reflexivity.
  - destruct (dget (b_protos s) p') as [st|]; [destruct (p_app st)|]; try reflexivity; cbn; destruct (Nat.eq_dec p' p); congruence || reflexivity.
  - reflexivity.
Qed.
Lemma losses_run p es : forall s, ~ In (QLost p) es -> losses p (snd (cb_run es s)) = [].
Proof.
  induction es as [|e r IH]; intros s N; [reflexivity|]. cbn [cb_run]. pose proof (losses_other p e s ltac:(intros ->; apply N; now left)) as L.
  destruct (cb_step e s) as [s1 g1]. specialize (IH s1 ltac:(intros X; apply N; now right)). destruct (cb_run r s1) as [s2 g2]. cbn [snd] in *. now rewrite losses_app, L, IH.
Qed.
Lemma cb_run_app a b s : cb_run (a ++ b) s = let (s1, g1) := cb_run a s in let (s2, g2) := cb_run b s1 in (s2, g1 ++ g2).
Proof.
  revert s. induction a as [|x r IH]; intros s; cbn [app cb_run].
  - destruct (cb_run b s). reflexivity.
  - destruct (cb_step x s) as [s1 g1]. rewrite IH. destruct (cb_run r s1) as [s2 g2]. destruct (cb_run b s2) as [s3 g3]. now rewrite app_assoc.
Qed.
