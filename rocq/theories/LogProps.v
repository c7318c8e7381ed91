(** * C60: what is logged where *)
From Coq Require Import List ZArith Bool Lia Arith String.
From Verif Require Import PyBase PyLemmas LogModel LogSpec LogProofs.
Import ListNotations.
Open Scope nat_scope.

(** After any sequence of enableLogging, enableHandler, disableHandler and
    clearAllHandlers, a handler writes a record exactly if logging is on, the
    levels let it, the handler is enabled with modules and tags that admit the
    logger's name, and (stale filters) so do those with which it was enabled
    whenever all handlers were cleared. *)
Theorem C60_emitted_iff root os own name lv h :
  emits (run_ops os (log_new root)) own name lv h = true <->
  (0 < lv)%Z /\
  match own with Some l => Z.le l lv | None => Z.le root lv \/ exists l m, In (OpLogging l m) os /\ Z.le l lv end /\
  (exists l, last_level os l /\ Z.le l lv) /\
  exists level mods tags, current os h level mods tags /\ Z.le level lv /\ admits mods tags name /\ forall m t, stale os h m t -> admits m t name.
Proof.
  set (s := run_ops os (log_new root)). pose proof (inv_run root os) as I. fold s in I. pose proof (level_run root os) as [L1 L2]. fold s in L1, L2.
  unfold emits, enabled_for, handled. rewrite !andb_true_iff, Z.ltb_lt, orb_true_iff, !Z.leb_le, Z.eqb_eq, dhas_true.
  assert (R : Z.le (match own with Some l => l | None => l_root s end) lv <-> match own with Some l => Z.le l lv | None => Z.le root lv \/ exists l m, In (OpLogging l m) os /\ Z.le l lv end).
  { destruct own; [reflexivity|apply root_run]. }
  rewrite R. clear R.
  assert (P : forall f m t, dget (l_handlers s) h = Some f -> current os h (l_hlevel s h) m t -> l_heap s f = flt m t ->
    (passes s h name = true <-> admits m t name /\ forall m t, stale os h m t -> admits m t name)).
  { intros f m t D C H. unfold passes. destruct (i_old _ _ I h) as (old & E & A & B). rewrite E, (tail_in _ _ _ D), forallb_app, andb_true_iff, forallb_forall. cbn [forallb]. rewrite andb_true_r, H, <- admits_flt. split.
    - intros [X Y]. split; [exact Y|]. intros m' t' St. destruct (A _ _ St) as (x & Ix & Hx). apply admits_flt. rewrite <- Hx. now apply X.
    - intros [Y X]. split; [|exact Y]. intros x Ix. destruct (B x Ix) as (m' & t' & St & Hx). rewrite Hx. now apply admits_flt, X. }
  split.
  - intros [[H0 H1] [[[[H2 H3] [f D]] H4] H5]]. split; [exact H0|]. split; [exact H1|]. split; [exists (l_level s); split; [now apply L1|exact H3]|].
    destruct (i_some _ _ I h f D) as (m & t & C & H). exists (l_hlevel s h), m, t. destruct (proj1 (P f m t D C H) H5) as [X Y]. split; [exact C|]. split; [destruct H4; lia|now split].
  - intros (H0 & H1 & (l & H2 & H3) & level & m & t & C & H4 & X & Y). destruct (L2 _ H2) as [On ->].
    destruct (dget (l_handlers s) h) as [f|] eqn:D; [|now apply (i_none _ _ I _ _ _ _ D) in C].
    destruct (i_some _ _ I h f D) as (m' & t' & C' & H). destruct (current_fun _ _ _ _ _ _ _ _ C C') as (-> & -> & ->).
    split; [now split|]. split; [|apply (P f _ _ eq_refl C' H); now split]. split; [|now right]. split; [now split|eauto].
Qed.
Print Assumptions C60_emitted_iff.

(** A tag without dots comes back from the name built with it; (refuted: every
    tag does) one with a dot does not. *)
Theorem C60_tag_roundtrip base tag : get_tag (tagged_name base tag) = tag <-> ~ In 46%Z tag.
Proof.
  split.
  - intros E I. assert (T : tag_of (tagged_name base tag) tag) by (apply tag_of_get; now symmetry). destruct T as [[N _]|[-> _]]; [exact (N I)|exact I].
  - intro N. symmetry. apply tag_of_get. left. split; [exact N|]. right. exists base. reflexivity.
Qed.
Print Assumptions C60_tag_roundtrip.
Theorem C60_tag_of name t : get_tag name = t <-> tag_of name t.
Proof. rewrite tag_of_get. split; intro; now symmetry. Qed.
Print Assumptions C60_tag_of.

(** ** Presets: any sequence of EnablePresetLogging calls, each making a new file *)
Lemma named_admits ms name : log_logger (named ms) name = true <-> tag_of name [] /\ exists m r, In m (lit "playground" :: ms) /\ name = m ++ lit "." ++ r.
Proof.
  unfold named. rewrite <- admits_flt. unfold admits, below. split.
  - intros [[X|X] T]; [discriminate|]. split; [|exact X]. specialize (T _ (proj2 (tag_of_get name _) eq_refl)). destruct T as [T|[]]. apply tag_of_get. now symmetry.
  - intros [T X]. split; [now right|]. intros t T'. apply tag_of_get in T, T'. left. now rewrite T', <- T.
Qed.
(** To stderr goes what the last preset sends there, of loggers without a tag,
    below playground or the modules of that preset; (refuted: only the last one
    counts) and of every earlier preset that used stderr. *)
Theorem C60_preset_stderr root cs c own name lv :
  (forall d, In d (cs ++ [c]) -> c_file d <> 0) ->
  (emits (run_calls (cs ++ [c]) (log_new root)) own name lv stderr = true <->
   (0 < lv)%Z /\ (forall l, own = Some l -> Z.le l lv) /\
   (exists l, to_stderr (c_preset c) = Some l /\ Z.le l lv) /\ tag_of name [] /\
   forall d ms, In d (cs ++ [c]) -> to_stderr (c_preset d) <> None -> extra (c_preset d) (c_aux d) = Some ms ->
     exists m r, In m (lit "playground" :: ms) /\ name = m ++ lit "." ++ r).
Proof.
  intro N. pose proof (pinv_run root _ N) as I. assert (Nc : c_file c <> 0) by (apply N, in_or_app; right; now left).
  rewrite run_calls_snoc in *. set (s0 := run_calls cs (log_new root)) in *.
  destruct (preset_effect c s0 Nc) as (A1 & A2 & A3 & A4 & A5 & A6 & _ & _ & _ & B5 & B6 & _). set (s := fst (enable_preset _ _ _ s0)) in *.
  destruct I as [_ (F & I2 & I3) _ _]. unfold emits, enabled_for, handled, stderr. rewrite A1, A4, B5. cbn [Nat.eqb andb].
  replace (match c_file c with 0 => true | S _ => false end) with false by (destruct (c_file c); [contradiction|reflexivity]). cbn [andb]. rewrite orb_false_r.
  assert (PS : passes s 0 name = true <-> Forall (fun d => forall ms, extra (c_preset d) (c_aux d) = Some ms -> log_logger (named ms) name = true) (stderr_calls (cs ++ [c]))).
  { unfold passes. rewrite I2. clear -I3. induction I3 as [|f d F D X I3 IH]; cbn [forallb]; [split; [constructor|reflexivity]|]. rewrite andb_true_iff, IH. destruct X as (ms & X & Y). rewrite Y. split.
    - intros [L H]. constructor; [|exact H]. intros ms' E. congruence.
    - intro H. inversion H as [|? ? H1 H2]; subst. split; [now apply H1|exact H2]. }
  rewrite Forall_forall in PS. unfold stderr_calls in PS. rewrite !andb_true_iff, Z.ltb_lt, orb_true_iff, !Z.leb_le, Z.eqb_eq, PS.
  assert (HS : has_stderr c = true <-> to_stderr (c_preset c) <> None) by (unfold has_stderr; destruct (to_stderr (c_preset c)); split; intro; congruence).
  split.
  - intros [[H0 H1] [[[H2 H3] H4] H5]]. split; [exact H0|]. split; [intros l ->; exact H1|]. unfold has_stderr in H3. destruct (to_stderr (c_preset c)) as [l|] eqn:E; [|discriminate].
    assert (T : forall d ms, In d (cs ++ [c]) -> to_stderr (c_preset d) <> None -> extra (c_preset d) (c_aux d) = Some ms -> tag_of name [] /\ exists m r, In m (lit "playground" :: ms) /\ name = m ++ lit "." ++ r).
    { intros d ms Id Sd X. apply named_admits. apply (H5 d); [|exact X]. apply filter_In. split; [exact Id|]. unfold has_stderr. destruct (to_stderr (c_preset d)); [reflexivity|congruence]. }
    split; [exists l; split; [reflexivity|]; specialize (B6 _ eq_refl); destruct H4; lia|]. split.
    + destruct (stderr_extra c) as [ms X]; [unfold has_stderr; now rewrite E|]. apply (T c ms); [apply in_or_app; right; now left|congruence|exact X].
    + intros d ms Id Sd X. now destruct (T d ms Id Sd X).
  - intros (H0 & H1 & (l & E & H2) & T & H3). assert (NP : c_preset c <> PNone) by (intro X; rewrite X in E; discriminate).
    split; [split; [exact H0|destruct own; [now apply H1|destruct A5; [lia|contradiction]]]|].
    split; [split; [split|]|].
    + destruct (c_preset c); [congruence|lia..].
    + apply HS. congruence.
    + right. rewrite (B6 _ E). exact H2.
    + intros d Id ms X. apply filter_In in Id as [Id Sd]. apply named_admits. split; [exact T|]. apply (H3 d ms Id); [|exact X]. unfold has_stderr in Sd. destruct (to_stderr (c_preset d)); congruence.
Qed.
Print Assumptions C60_preset_stderr.

(** To the log file goes what the last preset sends there, of loggers without a
    tag, below playground or (refuted: or the last preset's modules) the modules
    of the last preset that had any; *)
Theorem C60_preset_file root cs c own name lv :
  (forall d, In d (cs ++ [c]) -> c_file d <> 0) -> ~ In (c_file c) (map c_file cs) ->
  (emits (run_calls (cs ++ [c]) (log_new root)) own name lv (c_file c) = true <->
   (0 < lv)%Z /\ (forall l, own = Some l -> Z.le l lv) /\
   (exists l, to_file (c_preset c) = Some l /\ Z.le l lv) /\ tag_of name [] /\
   exists ms, extra_after (cs ++ [c]) ms /\ exists m r, In m (lit "playground" :: ms) /\ name = m ++ lit "." ++ r).
Proof.
  intros N Fr. pose proof (pinv_run root _ N) as I. apply in_snoc in N as [N Nc]. pose proof (pinv_run root _ N) as I0.
  rewrite run_calls_snoc in *. set (s0 := run_calls cs (log_new root)) in *.
  destruct (preset_effect c s0 Nc) as (A1 & A2 & A3 & A4 & A5 & A6 & _ & (G & B1 & B2 & B3) & _ & B5 & _ & B6). set (s := fst (enable_preset _ _ _ s0)) in *.
  rewrite (p_other _ _ I0 _ Nc Fr) in B1. cbn [app] in B1. unfold emits, enabled_for, handled. rewrite A1, A4, B5, Nat.eqb_refl.
  replace (Nat.eqb (c_file c) 0) with false by (symmetry; now apply Nat.eqb_neq). cbn [andb orb].
  assert (UF : forall l m m', extra_after l m -> extra_after l m' -> m = m').
  { assert (SN : forall l c0 m, extra_after (l ++ [c0]) m -> (extra (c_preset c0) (c_aux c0) = Some m) \/ (extra (c_preset c0) (c_aux c0) = None /\ extra_after l m)).
    { intros l c0 m [(a & d & b & E & X & H)|[-> H]].
      - apply snoc_dec in E as [(-> & -> & ->)|(b' & -> & ->)]; [now left|]. apply in_snoc in H as [H H']. right. split; [exact H'|]. left. now exists a, d, b'.
      - apply in_snoc in H as [H H']. right. split; [exact H'|]. right. now split. }
    induction l as [|d l IH] using rev_ind; intros m m' X Y.
    - destruct X as [(a & ? & ? & E & _)|[-> _]]; [destruct a; discriminate|]. destruct Y as [(a & ? & ? & E & _)|[-> _]]; [destruct a; discriminate|reflexivity].
    - apply SN in X as [X|[X X']]; apply SN in Y as [Y|[Y Y']]; try congruence. now apply IH. }
  pose proof (p_more _ _ I) as M.
  split.
  - intro H. apply andb_true_iff in H as [H0 H]. apply andb_true_iff in H0 as [H0 H1]. apply andb_true_iff in H as [H H5]. apply andb_true_iff in H as [H H4]. apply andb_true_iff in H as [H2 H3].
    apply Z.ltb_lt in H0. apply Z.leb_le in H1, H2. rewrite orb_true_iff, Z.eqb_eq, Z.leb_le in H4.
    split; [exact H0|]. split; [intros l ->; exact H1|]. rewrite H3 in B3. destruct B3 as (f & -> & Hf). unfold has_file in H3. destruct (to_file (c_preset c)) as [l|] eqn:E; [|discriminate].
    unfold passes in H5. rewrite B1 in H5. cbn [forallb] in H5. rewrite Hf, andb_true_r in H5. apply named_admits in H5 as [T H5].
    split; [exists l; split; [reflexivity|]; specialize (B6 _ eq_refl); destruct H4; lia|]. split; [exact T|]. exists (l_more s). split; [exact M|]. rewrite A2. exact H5.
  - intros (H0 & H1 & (l & E & H2) & T & ms & X & H3). assert (NP : c_preset c <> PNone) by (intro Y; rewrite Y in E; discriminate).
    assert (HF : has_file c = true) by (unfold has_file; now rewrite E). rewrite HF in *. destruct B3 as (f & -> & Hf).
    rewrite (UF _ _ _ X M) in H3. rewrite A2 in H3.
    repeat (apply andb_true_iff; split); try reflexivity.
    + now apply Z.ltb_lt.
    + apply Z.leb_le. destruct own; [now apply H1|destruct A5; [lia|contradiction]].
    + apply Z.leb_le. destruct (c_preset c); [congruence|lia..].
    + rewrite (B6 _ E). apply orb_true_iff. right. now apply Z.leb_le.
    + unfold passes. rewrite B1. cbn [forallb]. rewrite Hf, andb_true_r. apply named_admits. now split.
Qed.
Print Assumptions C60_preset_file.

(** and nothing goes anywhere else, in particular not to the files of earlier calls. *)
Theorem C60_preset_others root cs c own name lv h :
  (forall d, In d (cs ++ [c]) -> c_file d <> 0) -> h <> stderr -> h <> c_file c ->
  emits (run_calls (cs ++ [c]) (log_new root)) own name lv h = false.
Proof.
  intros N H0 H1. assert (Nc : c_file c <> 0) by (apply N, in_or_app; right; now left). rewrite run_calls_snoc. set (s0 := run_calls cs (log_new root)).
  destruct (preset_effect c s0 Nc) as (_ & _ & _ & _ & _ & _ & _ & _ & _ & B5 & _). unfold emits, handled. rewrite B5.
  apply Nat.eqb_neq in H1. unfold stderr in H0. apply Nat.eqb_neq in H0. rewrite H0, H1. cbn [andb orb]. now rewrite !andb_false_r.
Qed.
Print Assumptions C60_preset_others.

(** (refuted: VERBOSE, DEBUG, TEST and MAX log all messages) No preset ever logs
    a record of a logger with a tag, nor one of the logger "playground". *)
Theorem C60_preset_all_refuted root cs own name lv h :
  (forall d, In d cs -> c_file d <> 0) -> NoDup (map c_file cs) ->
  (exists t, t <> [] /\ tag_of name t) \/ (name = lit "playground" /\ forall d m, In d cs -> In m (c_aux d) -> m <> []) ->
  emits (run_calls cs (log_new root)) own name lv h = false.
Proof.
  intros N ND X. destruct cs as [|c cs _] using rev_ind; [unfold emits, handled; cbn; now rewrite !andb_false_r|].
  assert (B : forall ms, (forall m, In m ms -> (exists d, In d (cs ++ [c]) /\ In m (c_aux d)) \/ m = lit "asyncio") -> ~ (tag_of name [] /\ exists m r, In m (lit "playground" :: ms) /\ name = m ++ lit "." ++ r)).
  { intros ms Hm [T (m & r & I & E)]. destruct X as [(t & Nt & T')|[-> A]].
    - apply tag_of_get in T, T'. congruence.
    - assert (DO : forall p q, lit "playground" = p ++ lit "." ++ q -> False).
      { intros p q Q. assert (In ch_dot (lit "playground")) by (rewrite Q; apply in_or_app; right; now left). vm_compute in H. intuition discriminate. }
      exact (DO _ _ E). }
  assert (EX : forall d ms m, extra (c_preset d) (c_aux d) = Some ms -> In m ms -> In m (c_aux d) \/ m = lit "asyncio").
  { intros d ms m E I. destruct (c_preset d); cbn in E; try discriminate; injection E as <-; destruct I as [I|I]; try (now destruct I); try (right; now symmetry). now left. }
  destruct (emits _ own name lv h) eqn:E; [|reflexivity]. exfalso.
  destruct (Nat.eq_dec h stderr) as [->|H0].
  - apply C60_preset_stderr in E; [|exact N]. destruct E as (_ & _ & (l & St & _) & T & H). destruct (stderr_extra c) as [ms Y]; [unfold has_stderr; now rewrite St|].
    apply (B ms); [|split; [exact T|]].
    + intros m I. destruct (EX _ _ _ Y I) as [Z|Z]; [left; exists c; split; [apply in_or_app; right; now left|exact Z]|now right].
    + apply (H c ms); [apply in_or_app; right; now left|congruence|exact Y].
  - destruct (Nat.eq_dec h (c_file c)) as [->|H1]; [|rewrite (C60_preset_others root cs c own name lv h N H0 H1) in E; discriminate].
    rewrite map_app in ND. cbn [map] in ND. apply NoDup_remove_2 in ND. rewrite app_nil_r in ND.
    apply C60_preset_file in E; [|exact N|exact ND]. destruct E as (_ & _ & _ & T & ms & A & H). apply (B ms); [|now split].
    intros m I. destruct A as [(a & d & b & Ed & Y & _)|[-> _]]; [|destruct I]. destruct (EX _ _ _ Y I) as [Z|Z]; [left; exists d; split; [rewrite Ed; apply in_or_app; right; now left|exact Z]|now right].
Qed.
Print Assumptions C60_preset_all_refuted.

(** (refuted: MAX logs the auxiliary modules to stderr, MINIMAL only playground)
    After VERBOSE, DEBUG or TEST, MAX logs no auxiliary module to stderr; after
    them MINIMAL and QUIET log asyncio too. *)
Theorem C60_preset_history_refuted root p aux f1 f2 r lv : (40 <= lv)%Z -> In p [PVerbose; PDebug; PTest] -> f1 <> 0 -> f2 <> 0 -> f1 <> f2 ->
  ~ In 46%Z r -> (forall t, r <> lit "__playlogtag__" ++ t) ->
  (forall m, In m aux -> ~ In 46%Z m -> m <> lit "playground" -> m <> lit "asyncio" ->
     emits (run_calls [(PMax, aux, f2)] (log_new root)) None (m ++ lit "." ++ r) lv stderr = true /\
     emits (run_calls [(p, aux, f1); (PMax, aux, f2)] (log_new root)) None (m ++ lit "." ++ r) lv stderr = false) /\
  emits (run_calls [(PMinimal, aux, f2)] (log_new root)) None (lit "asyncio." ++ r) lv f2 = false /\
  emits (run_calls [(p, aux, f1); (PMinimal, aux, f2)] (log_new root)) None (lit "asyncio." ++ r) lv f2 = true.
Proof.
  intros L P N1 N2 N12 R K.
  assert (NF1 : forall d, In d ([] ++ [(PMax, aux, f2)]) -> c_file d <> 0) by (intros d [<-|[]]; exact N2).
  assert (NF2 : forall q d, In d ([(p, aux, f1)] ++ [(q, aux, f2)]) -> c_file d <> 0) by (intros q d [<-|[<-|[]]]; assumption).
  assert (NF3 : forall d, In d ([] ++ [(PMinimal, aux, f2)]) -> c_file d <> 0) by (intros d [<-|[]]; exact N2).
  assert (DU : forall a b x y : pystr, ~ In ch_dot a -> ~ In ch_dot b -> a ++ ch_dot :: x = b ++ ch_dot :: y -> a = b).
  { induction a as [|c a IH]; intros [|d b] x y A B E; cbn in E; [reflexivity| | |].
    - injection E as E1 E2. destruct B. left. now symmetry.
    - injection E as E1 E2. destruct A. now left.
    - injection E as -> E. f_equal. eapply IH; [intro I; apply A; now right|intro I; apply B; now right|exact E]. }
  assert (T : forall m, tag_of (m ++ lit "." ++ r) []).
  { intro m. right. split; [reflexivity|]. intros u U. apply tagged_last in U. change (m ++ lit "." ++ r) with (m ++ ch_dot :: r) in U.
    destruct (last_part (m ++ ch_dot :: r)) as [Q [E|[b E]]].
    - apply Q. rewrite <- E. apply in_or_app. right. now left.
    - apply (dot_unique m b) in E; [|exact R|exact Q]. rewrite <- E in U. exact (K u U). }
  split; [|split].
  - intros m I D Dp Da. split.
    + apply (C60_preset_stderr root [] (PMax, aux, f2)); [exact NF1|]. split; [lia|]. split; [discriminate|]. split; [exists 0%Z; split; [reflexivity|lia]|]. split; [apply T|].
      intros d ms [<-|[]] _ [= <-]. exists m, r. split; [|reflexivity]. right. right. exact I.
    + destruct (emits _ None (m ++ lit "." ++ r) lv stderr) eqn:E; [|reflexivity]. exfalso. apply (C60_preset_stderr root [(p, aux, f1)] (PMax, aux, f2)) in E; [|apply NF2].
      destruct E as (_ & _ & _ & _ & H). specialize (H (p, aux, f1) [lit "asyncio"] (or_introl eq_refl)).
      destruct H as (m' & r' & I' & E); [cbn [c_preset fst]; destruct P as [<-|[<-|[<-|[]]]]; discriminate|cbn [c_preset fst]; destruct P as [<-|[<-|[<-|[]]]]; reflexivity|].
      assert (m = m'); [|destruct I' as [<-|[<-|[]]]; contradiction]. apply (DU m m' r r'); [exact D| |exact E].
      destruct I' as [<-|[<-|[]]]; vm_compute; intuition discriminate.
  - destruct (emits _ None (lit "asyncio." ++ r) lv f2) eqn:E; [|reflexivity]. exfalso. apply (C60_preset_file root [] (PMinimal, aux, f2)) in E; [|exact NF3|intros []].
    destruct E as (_ & _ & _ & _ & ms & A & m & r' & I & E). destruct A as [(a & d & b & Ed & Y & _)|[-> _]].
    + destruct a as [|? [|]]; cbn in Ed; try discriminate. injection Ed as <- _. discriminate.
    + destruct I as [<-|[]]. discriminate.
  - apply (C60_preset_file root [(p, aux, f1)] (PMinimal, aux, f2)); [apply NF2|intros [X|[]]; cbn in X; congruence|]. split; [lia|]. split; [discriminate|]. split; [exists 40%Z; split; [reflexivity|lia]|].
    split; [apply (T (lit "asyncio"))|]. exists [lit "asyncio"]. split.
    + left. exists [], (p, aux, f1), [(PMinimal, aux, f2)]. split; [reflexivity|]. split; [destruct P as [<-|[<-|[<-|[]]]]; reflexivity|]. intros d [<-|[]]. reflexivity.
    + exists (lit "asyncio"), r. split; [right; now left|reflexivity].
Qed.
Print Assumptions C60_preset_history_refuted.

(** (refuted: a wrong level leaves things as they were) An unknown level raises
    and nothing is logged any more by any handler; the same if the log file of
    MINIMAL or QUIET cannot be made. *)
Theorem C60_failed_preset_refuted name aux file s own n lv h : ~ In name preset_levels \/ (file = None /\ (name = lit "MINIMAL" \/ name = lit "QUIET")) ->
  snd (enable_preset name aux file s) = Raise GenericException /\ emits (fst (enable_preset name aux file s)) own n lv h = false.
Proof.
  intros [U|[-> [-> | ->]]].
  - unfold enable_preset, eqb.
    repeat match goal with |- context [eq_dec name (lit ?x)] => destruct (eq_dec name (lit x)) as [E|_]; [exfalso; apply U; rewrite E; unfold preset_levels; cbn [map In]; tauto|] end.
    split; [reflexivity|]. unfold emits, handled. cbn [fst clear_handlers l_handlers]. unfold dhas. cbn [dget]. now rewrite !andb_false_r.
  - rewrite (preset_eq PMinimal). split; [reflexivity|]. unfold emits, handled, dhas. cbn. now rewrite !andb_false_r.
  - rewrite (preset_eq PQuiet). split; [reflexivity|]. unfold emits, handled, dhas. cbn. now rewrite !andb_false_r.
Qed.
Print Assumptions C60_failed_preset_refuted.

(** On the command line n times v is the n-th preset, IndexError from seven on;
    anything else is the name of one. *)
Theorem C60_cmd_line arg aux file s :
  (forall n p, arg = repeat 118%Z n -> nth_error [PNone; PMinimal; PQuiet; PVerbose; PDebug; PTest; PMax] n = Some p -> cmd_line arg aux file s = enable_preset (preset_name p) aux file s) /\
  (forall n, arg = repeat 118%Z n -> 7 <= n -> cmd_line arg aux file s = (s, Raise IndexError)) /\
  ((forall n, arg <> repeat 118%Z n) -> cmd_line arg aux file s = enable_preset arg aux file s).
Proof.
  split; [|split].
  - intros n p -> E. unfold cmd_line, eqb. rewrite repeat_length. destruct (eq_dec _ _) as [_|X]; [|congruence].
    destruct n as [|[|[|[|[|[|[|n]]]]]]]; cbn in E; try (injection E as <-; reflexivity). destruct n; discriminate.
  - intros n -> L. unfold cmd_line, eqb. rewrite repeat_length. destruct (eq_dec _ _) as [_|X]; [|congruence].
    destruct n as [|[|[|[|[|[|[|n]]]]]]]; try lia. destruct n; reflexivity.
  - intro N. unfold cmd_line, eqb. destruct (eq_dec _ _) as [X|_]; [now apply N in X|reflexivity].
Qed.
Print Assumptions C60_cmd_line.

(** (refuted: tags can be excluded) The configure of an enabled handler's filter
    with excludeTags always raises NameError, *and* has changed the modules: with
    none given the filter lets names of all modules through. *)
Theorem C60_exclude_refuted root os h level mods tags given name : let s := run_ops os (log_new root) in
  current os h level mods tags ->
  snd (exclude_tags h given s) = Raise NameError /\
  (passes (fst (exclude_tags h given s)) h name = true <->
   admits (match given with Some l => l | None => [] end) tags name /\ forall m t, stale os h m t -> admits m t name).
Proof.
  intros s C. pose proof (inv_run root os) as I. fold s in I.
  destruct (dget (l_handlers s) h) as [f|] eqn:D; [|now apply (i_none _ _ I _ _ _ _ D) in C].
  destruct (i_some _ _ I h f D) as (m' & t' & C' & H). destruct (current_fun _ _ _ _ _ _ _ _ C C') as (_ & -> & ->).
  unfold exclude_tags. rewrite D. split; [reflexivity|]. unfold passes. cbn [fst l_filters l_heap].
  destruct (i_old _ _ I h) as (old & E & A & B). rewrite E, (tail_in _ _ _ D), forallb_app, andb_true_iff, forallb_forall. cbn [forallb]. rewrite andb_true_r.
  assert (Hf : upd (l_heap s) f (set_modules given (l_heap s f)) f = flt (match given with Some l => l | None => [] end) t').
  { unfold upd. rewrite Nat.eqb_refl, H. destruct given as [[|]|]; reflexivity. }
  rewrite Hf, <- admits_flt.
  assert (NF : forall x, In x old -> x <> f).
  { intros x X ->. pose proof (i_nodup _ _ I h) as ND. rewrite E, (tail_in _ _ _ D) in ND. apply NoDup_remove_2 in ND. rewrite app_nil_r in ND. contradiction. }
  split.
  - intros [X Y]. split; [exact Y|]. intros m t St. destruct (A _ _ St) as (x & Ix & Hx). specialize (X x Ix). unfold upd in X. rewrite (proj2 (Nat.eqb_neq x f) (NF x Ix)) in X. apply admits_flt. now rewrite <- Hx.
  - intros [Y X]. split; [|exact Y]. intros x Ix. destruct (B x Ix) as (m & t & St & Hx). unfold upd. rewrite (proj2 (Nat.eqb_neq x f) (NF x Ix)), Hx. now apply admits_flt, X.
Qed.
Print Assumptions C60_exclude_refuted.

(** ** Examples *)
Definition ex_aux := [lit "playground_deserialization"].
(** DEBUG: a record of playground.vnic goes to stderr and the file 1, one of "playground" (launch_wan's first) nowhere *)
Example ex_debug : map (emits (run_calls [(PDebug, ex_aux, 1)] (log_new 30)) None (lit "playground.vnic") 10) [0; 1; 2] = [true; true; false] /\
  map (emits (run_calls [(PDebug, ex_aux, 1)] (log_new 30)) None (lit "playground") 50) [0; 1; 2] = [false; false; false].
Proof. vm_compute. split; reflexivity. Qed.
Example ex_max_after_verbose :
  emits (run_calls [(PMax, ex_aux, 1)] (log_new 30)) None (lit "playground_deserialization.x") 40 stderr = true /\
  emits (run_calls [(PVerbose, ex_aux, 1); (PMax, ex_aux, 2)] (log_new 30)) None (lit "playground_deserialization.x") 40 stderr = false.
Proof. vm_compute. split; reflexivity. Qed.
(** handler 5 with its own modules and tags, then cleared and enabled for others: only what both admit *)
Example ex_stale :
  let os := [OpLogging 0 []; OpEnable 5 0 (Some [lit "a"; lit "b"]) (TList [lit "t"]); OpClear; OpEnable 5 0 (Some [lit "b"; lit "c"]) (TStr (lit "verbose"))] in
  map (fun n => emits (run_ops os (log_new 30)) None (lit n) 10 5) ["a.x"; "b.x"; "c.x"; "b.__playlogtag__t"; "b.__playlogtag__u"]%string = [false; true; false; true; false].
Proof. vm_compute. reflexivity. Qed.
Example ex_cmd_line : snd (cmd_line (lit "vvvvvvv") [] (Some 1) (log_new 30)) = Raise IndexError /\ snd (cmd_line (lit "vv") [] (Some 1) (log_new 30)) = Ok tt.
Proof. vm_compute. split; reflexivity. Qed.
