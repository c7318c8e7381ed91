(** * Management of a running VNIC: C69 *)
From Coq Require Import String.
From Coq Require Import List ZArith Bool Lia.
From Verif Require Import PyBase PyLemmas AddrModel SpmpModel WanApiModel LogModel LogSpec LogProofs LogProps SwitchModel AddrSpec AddrProofs PromModel PromProps VnicApiModel VnicApiSpec VnicApiProofs.
Import ListNotations.
Open Scope Z_scope.

(** what a request is answered with: one packet *)
Definition answered (os : list vout) (r : spmp) (result : pystr) (error : option pystr) : Prop :=
  sent os = [Spmp (m_id r) (m_request r) (m_args r) result error].

(** The level reported, by the verb and by a level packet alike, is the one asked
    for last in either way, cut to 0..4, also if setting it failed. *)
Theorem C69_level :
  forall aux creates name root address v0 es peer r,
  vnic_start aux creates root address = Ok v0 -> let v := fst (v_run aux creates name es v0) in
  m_request r = lit "get-promiscuity-level" -> m_args r = [] ->
  answered (snd (v_step aux creates name (VRequest peer r) v)) r (print_int (level_after es)) (m_error r) /\
  snd (v_step aux creates name (VLevel None) v) = [VLevelIs (level_after es)].
Proof.
  intros aux creates name root address v0 es peer r St v Q A. split.
  - unfold answered. rewrite request_sent, Q, A. replace (the_op aux creates (lit "get-promiscuity-level")) with (Some (no_arguments (fun v => print_int (prom_level (v_prom v))))) by reflexivity.
    cbn [no_arguments snd]. unfold v. rewrite (start_level aux creates name root address v0 es St). reflexivity.
  - cbn [v_step snd]. unfold v. now rewrite (start_level aux creates name root address v0 es St).
Qed.
Print Assumptions C69_level.

(** Whatever happens to the links, what the current link, if it is up, announced
    last is the block of that level. *)
Theorem C69_announced :
  forall aux creates name root address v0 es n k,
  vnic_start aux creates root address = Ok v0 -> let v := fst (v_run aux creates name es v0) in
  p_cur (v_prom v) = Some n -> nth_error (p_links (v_prom v)) n = Some k -> lk_up k = true ->
  exists a, from_string ClsAddress address = Ok a /\ last_announced n (v_did v) = Some (addr_str (block_at (level_after es) a)).
Proof.
  intros aux creates name root address v0 es n k St v Cu En Up.
  destruct (C35_announced address (v_prom v) (v_did v) n k) as (a & Ea & L); auto; [exact (start_reachable aux creates name root address v0 es St)|].
  exists a. split; [exact Ea|]. rewrite L. unfold v. now rewrite (start_level aux creates name root address v0 es St).
Qed.
Print Assumptions C69_announced.

(** With the links in the order of the launched process, setting a level never
    fails: both ways answer, and the block announced on the link is always that
    of the level asked for last. *)
Theorem C69_launched :
  forall aux creates name root address v0 es x,
  vnic_start aux creates root address = Ok v0 -> phase_after es = Some x -> let v := fst (v_run aux creates name es v0) in
  ~ In ERaise (v_did v) /\
  (forall z, snd (v_step aux creates name (VLevel (Some z)) v) = [VLevelIs (Z.max 0 (Z.min 4 z))]) /\
  (forall peer r a z, m_request r = lit "set-promiscuity-level" -> m_args r = [a] -> parse_int a = Ok z ->
     answered (snd (v_step aux creates name (VRequest peer r) v)) r (lit "None") (m_error r)) /\
  (forall n, fst x = On n -> exists a, from_string ClsAddress address = Ok a /\ last_announced n (v_did v) = Some (addr_str (block_at (level_after es) a))).
Proof.
  intros aux creates name root address v0 es x St Ph v. pose proof (start_phase aux creates name root address v0 es x St Ph) as P. fold v in P.
  destruct (reachable_pinv _ _ _ (start_reachable aux creates name root address v0 es St)) as (a & Ea & I). fold v in I.
  assert (F : forall z, raised (snd (set_level (Some z) (v_prom v))) = false) by (intro z; exact (set_fine a _ _ z I (phase_settable x v P))).
  split; [apply P|]. split; [|split].
  - intro z. cbn [v_step]. specialize (F z). pose proof (set_level_value z (v_prom v) (pi_level _ _ _ I)) as S1. destruct (set_level (Some z) (v_prom v)) as [p l]. cbn [fst snd] in *. now rewrite F, S1.
  - intros peer r a0 z Q A Pz. unfold answered. rewrite request_sent, Q, A. replace (the_op aux creates (lit "set-promiscuity-level")) with (Some vop_set_level) by reflexivity.
    unfold vop_set_level. rewrite Pz. specialize (F z). destruct (set_level (Some z) (v_prom v)) as [p l]. cbn [fst snd] in *. now rewrite F.
  - intros n En. destruct P as (_ & _ & H). rewrite En in H. destruct H as (_ & Cu & _ & Up). unfold ups in Up. rewrite nth_error_map in Up. destruct (nth_error (p_links (v_prom v)) n) as [k|] eqn:Ek; [|discriminate]. cbn in Up. injection Up as Up.
    destruct (C69_announced aux creates name root address v0 es n k St Cu Ek Up) as (a1 & E1 & L). eauto.
Qed.
Print Assumptions C69_launched.

(** ... and switch-live says whether the link is there. *)
Theorem C69_switch_live :
  forall aux creates name root address v0 es x peer r,
  vnic_start aux creates root address = Ok v0 -> phase_after es = Some x -> let v := fst (v_run aux creates name es v0) in
  m_request r = lit "switch-live" -> m_args r = [] ->
  answered (snd (v_step aux creates name (VRequest peer r) v)) r
    (match fst x with On _ => lit "Connected" | _ => lit "Not Connected" end) (m_error r).
Proof.
  intros aux creates name root address v0 es x peer r St Ph v Q A. pose proof (start_phase aux creates name root address v0 es x St Ph) as P. fold v in P.
  unfold answered. rewrite request_sent, Q, A. replace (the_op aux creates (lit "switch-live")) with (Some (no_arguments v_live)) by reflexivity. cbn [no_arguments snd].
  destruct P as (_ & _ & H). destruct (fst x) as [|c|c]; destruct H as (_ & _ & H); [|destruct H as [H _]|destruct H as [H _]]; now rewrite H.
Qed.
Print Assumptions C69_switch_live.

(** Every request gets one reply, with its own number, verb and arguments, in
    order; every level packet gets at most one, and always one if no exception
    of a link occurred. *)
Theorem C69_one_reply :
  forall aux creates name es v, let '(v', os) := v_run aux creates name es v in
  map (fun p => (m_id p, m_request p, m_args p)) (sent os) = map (fun p => (m_id p, m_request p, m_args p)) (requests es) /\
  (level_replies os <= level_packets es)%nat /\
  (~ In ERaise (v_did v') -> level_replies os = level_packets es).
Proof.
  intros aux creates name es. induction es as [|e es IH]; intro v; cbn [v_run]; [repeat split; auto|].
  specialize (IH (fst (v_step aux creates name e v))).
  assert (H1 : map (fun p => (m_id p, m_request p, m_args p)) (sent (snd (v_step aux creates name e v))) = map (fun p => (m_id p, m_request p, m_args p)) (requests [e]) /\
    (level_replies (snd (v_step aux creates name e v)) <= level_packets [e])%nat /\
    exists l, v_did (fst (v_step aux creates name e v)) = v_did v ++ l /\ (~ In ERaise l -> level_replies (snd (v_step aux creates name e v)) = level_packets [e])).
  { destruct e as [|n|n|peer r|l0].
    - cbn [v_step]. destruct (p_step _ _) as [p l]. repeat split; auto. exists l. split; [reflexivity|reflexivity].
    - cbn [v_step]. destruct (p_step _ _) as [p l]. repeat split; auto. exists l. split; [reflexivity|reflexivity].
    - cbn [v_step]. destruct (p_step _ _) as [p l]. repeat split; auto. exists l. split; [reflexivity|reflexivity].
    - split; [|].
      + rewrite request_sent. cbn [map requests flat_map app]. destruct (the_op aux creates (m_request r)) as [op|]; [|reflexivity]. destruct (snd (op v (m_args r))); reflexivity.
      + assert (Z0 : level_replies (snd (v_step aux creates name (VRequest peer r) v)) = 0%nat).
        { pose proof (request_out aux creates name peer r v) as H. cbn zeta in H. rewrite H. destruct (the_op aux creates (m_request r)); reflexivity. }
        rewrite Z0. split; [auto|]. destruct (request_state aux creates name peer r v) as [[(_ & _ & D)|(z & _ & _ & D)] _]; rewrite D; eexists; (split; [first [reflexivity|symmetry; apply app_nil_r]|reflexivity]).
    - destruct l0 as [z|]; cbn [v_step]; [|repeat split; auto; exists []; cbn [fst]; rewrite app_nil_r; auto].
      destruct (set_level (Some z) (v_prom v)) as [p l]. cbn [fst snd]. destruct (raised l) eqn:R; (split; [reflexivity|]; split; [cbn; lia|]).
      + exists l. split; [reflexivity|]. intro N. apply not_raised in N. congruence.
      + exists l. split; reflexivity. }
  destruct (v_step aux creates name e v) as [v1 o1]. cbn [fst snd] in *. destruct (v_run aux creates name es v1) as [v2 o2] eqn:E2.
  destruct H1 as (A & B & l & D & C). destruct IH as (A2 & B2 & C2).
  change (e :: es) with ([e] ++ es). unfold requests, level_packets in *. rewrite flat_map_app, List.filter_app, app_length, sent_app, !map_app, A, A2.
  unfold level_replies in *. rewrite List.filter_app, app_length. split; [reflexivity|]. split; [lia|]. intro N. rewrite C2 by exact N.
  rewrite C; [reflexivity|]. intro I. apply N. destruct (run_prom aux creates name es v1) as (l2 & _ & D2). rewrite E2 in D2. cbn [fst] in D2. rewrite D2, D, !in_app_iff. auto.
Qed.
Print Assumptions C69_one_reply.

(** *** Verbs *)
(** The verbs are what the verb verbs lists, separated by commas; any other
    request changes nothing and is refused by name. *)
Theorem C69_verbs :
  forall aux creates name v peer r,
  (m_request r = lit "verbs" -> m_args r = [] ->
   answered (snd (v_step aux creates name (VRequest peer r) v)) r
     (lit "verbs, get-promiscuity-level, set-promiscuity-level, all-log-levels, get-log-level, set-log-level, switch-live") (m_error r)) /\
  (~ In (m_request r) (split_on 44 (List.filter (fun c => negb (c =? 32)) (lit "verbs, get-promiscuity-level, set-promiscuity-level, all-log-levels, get-log-level, set-log-level, switch-live"))) ->
   fst (v_step aux creates name (VRequest peer r) v) = v /\
   answered (snd (v_step aux creates name (VRequest peer r) v)) r []
     (Some (lit "Unknown request '" ++ m_request r ++ lit "' to device [" ++ name ++ lit "]"))) /\
  (m_request r = lit "all-log-levels" -> m_args r = [] ->
   answered (snd (v_step aux creates name (VRequest peer r) v)) r (lit "NONE, MINIMAL, QUIET, VERBOSE, DEBUG, TEST, MAX") (m_error r)).
Proof.
  intros aux creates name v peer r. split; [|split].
  - intros Q A. unfold answered. rewrite request_sent, Q, A. reflexivity.
  - intro N. assert (O : the_op aux creates (m_request r) = None).
    { unfold the_op, eqb. repeat (match goal with |- context [eq_dec (m_request r) ?s] => destruct (eq_dec (m_request r) s) as [E|_]; [exfalso; apply N; rewrite E; vm_compute; tauto|] end). reflexivity. }
    split.
    + cbn [v_step]. destruct (process_shape aux creates name peer r v) as (w & g & -> & H). rewrite O in H. exact H.
    + unfold answered. rewrite request_sent, O. reflexivity.
  - intros Q A. unfold answered. rewrite request_sent, Q, A. reflexivity.
Qed.
Print Assumptions C69_verbs.
(** Finding: the names the device manager keeps for the promiscuity verbs
    (VnicDevice.py 14-15) are not verbs of the VNIC. *)
Theorem C69_refuted_device_verbs :
  forall aux creates name v peer r, In (m_request r) device_verbs ->
  fst (v_step aux creates name (VRequest peer r) v) = v /\
  exists e, answered (snd (v_step aux creates name (VRequest peer r) v)) r [] (Some e).
Proof.
  intros aux creates name v peer r I.
  destruct (proj1 (proj2 (C69_verbs aux creates name v peer r))) as [A B]; [|split; [exact A|eexists; exact B]].
  unfold device_verbs in I. cbn [map In] in I. destruct I as [E|[E|[]]]; rewrite <- E; vm_compute; intuition discriminate.
Qed.
Print Assumptions C69_refuted_device_verbs.

(** *** Log levels *)
(** get-log-level gives the argument of the last set-log-level that succeeded,
    NONE before; and set-log-level succeeds exactly for the known names whose
    log file, if there is one, can be created. *)
Theorem C69_log_level :
  forall aux creates name root address v0 es peer r,
  vnic_start aux creates root address = Ok v0 -> let v := fst (v_run aux creates name es v0) in
  (m_request r = lit "get-log-level" -> m_args r = [] ->
   exists lvl, reports creates (logs_asked es) lvl /\ answered (snd (v_step aux creates name (VRequest peer r) v)) r lvl (m_error r)) /\
  (forall lvl, m_request r = lit "set-log-level" -> m_args r = [lvl] ->
   (good_log creates (S (List.length (logs_asked es))) lvl /\ answered (snd (v_step aux creates name (VRequest peer r) v)) r (lit "None") (m_error r)) \/
   (~ good_log creates (S (List.length (logs_asked es))) lvl /\ exists e, e <> [] /\ answered (snd (v_step aux creates name (VRequest peer r) v)) r [] (Some e))).
Proof.
  intros aux creates name root address v0 es peer r St v. destruct (start_log aux creates name root address v0 es St) as [C R]. fold v in C, R. split.
  - intros Q A. exists (v_preset v). split; [exact R|]. unfold answered. rewrite request_sent, Q, A. reflexivity.
  - intros lvl Q A. unfold answered. rewrite request_sent, Q, A. replace (the_op aux creates (lit "set-log-level")) with (Some (vop_set_log aux creates)) by reflexivity.
    unfold vop_set_log. rewrite C. destruct (good_ok aux creates (S (List.length (logs_asked es))) lvl (v_log v)) as [[G O]|[G O]];
    destruct (enable_preset lvl aux (file_of creates (S (List.length (logs_asked es)))) (v_log v)) as [lg r0]; cbn [snd] in *; subst r0; cbn [snd].
    + left. auto.
    + right. split; [exact G|]. assert (Ne : (if smem preset_levels lvl then file_error else preset_error lvl) <> []) by (destruct (smem _ _); discriminate).
      destruct (if smem preset_levels lvl then file_error else preset_error lvl) as [|c e]; [contradiction|]. exists (c :: e). split; [exact Ne|reflexivity].
Qed.
Print Assumptions C69_log_level.
(** The report is unique. *)
Theorem C69_reports_unique :
  forall creates asked l1 l2, reports creates asked l1 -> reports creates asked l2 -> l1 = l2.
Proof.
  assert (H : forall creates asked pre post lvl pre' post' lvl', asked = pre ++ lvl :: post -> asked = pre' ++ lvl' :: post' ->
    (List.length pre < List.length pre')%nat -> good_log creates (S (List.length pre')) lvl' ->
    (forall i l, nth_error post i = Some l -> ~ good_log creates (S (List.length pre) + S i) l) -> False).
  { intros creates asked pre post lvl pre' post' lvl' E E' L G N.
    apply (N (List.length pre' - List.length pre - 1)%nat lvl').
    - assert (X : nth_error asked (List.length pre') = Some lvl') by (rewrite E', nth_error_app2, Nat.sub_diag by lia; reflexivity).
      rewrite E, nth_error_app2 in X by lia. destruct (List.length pre' - List.length pre)%nat as [|d] eqn:D; [lia|]. cbn [nth_error] in X. now replace (S d - 1)%nat with d by lia.
    - replace (S (List.length pre) + S (List.length pre' - List.length pre - 1))%nat with (S (List.length pre')) by lia. exact G. }
  intros creates asked l1 l2 [(pre & post & E & G & N)|[E N]] [(pre' & post' & E' & G' & N')|[E' N']].
  - destruct (Nat.lt_total (List.length pre) (List.length pre')) as [L|[L|L]].
    + exfalso. exact (H creates asked pre post l1 pre' post' l2 E E' L G' N).
    + assert (X : nth_error asked (List.length pre) = Some l1) by (rewrite E, nth_error_app2, Nat.sub_diag by lia; reflexivity).
      rewrite L, E', nth_error_app2, Nat.sub_diag in X by lia. cbn in X. congruence.
    + exfalso. exact (H creates asked pre' post' l2 pre post l1 E' E L G N').
  - exfalso. apply (N' (List.length pre) l1); [|exact G]. rewrite E, nth_error_app2, Nat.sub_diag by lia. reflexivity.
  - exfalso. apply (N (List.length pre') l2); [|exact G']. rewrite E', nth_error_app2, Nat.sub_diag by lia. reflexivity.
  - congruence.
Qed.
Print Assumptions C69_reports_unique.
(** If only known levels are asked for, what is logged is what these presets
    log, enabled one after another after DEBUG (C60): nothing on stderr if
    the last one has nothing for it, and of the others the loggers under
    "playground" from its level. *)
Theorem C69_log_effect :
  forall aux name root address v0 es ps p,
  vnic_start aux (fun _ => true) root address = Ok v0 -> logs_asked es = map preset_name (ps ++ [p]) -> let v := fst (v_run aux (fun _ => true) name es v0) in
  v_log v = run_calls (map (fun np => (snd np, aux, S (fst np))) (combine (seq 0 (S (S (List.length ps)))) (PDebug :: ps ++ [p]))) (log_new root) /\
  (to_stderr p = None -> forall own logger lv, emits (v_log v) own logger lv stderr = false) /\
  (forall l logger lv, to_stderr p = Some l -> l <= lv -> 0 < lv -> tag_of logger [] -> (exists r, logger = lit "playground." ++ r) -> emits (v_log v) None logger lv stderr = true).
Proof.
  intros aux name root address v0 es ps p St L v.
  assert (E : v_log v = run_calls (calls_of aux (ps ++ [p])) (log_new root)) by exact (start_log_state aux (fun _ => true) name root address v0 es (ps ++ [p]) St L (fun _ => eq_refl)).
  split; [rewrite E; unfold calls_of; rewrite app_length, Nat.add_1_r; reflexivity|].
  rewrite E, calls_snoc.
  assert (Nf : forall d, In d (calls_of aux ps ++ [(p, aux, S (S (List.length ps)))]) -> c_file d <> 0%nat).
  { intros d I. apply in_app_iff in I. destruct I as [I|[<-|[]]]; [|discriminate]. unfold calls_of in I. apply in_map_iff in I. destruct I as ([n q] & <- & _). discriminate. }
  split.
  - intros N own logger lv. destruct (emits _ own logger lv stderr) eqn:X; [|reflexivity]. apply C60_preset_stderr in X; [|exact Nf]. destruct X as (_ & _ & (l & T & _) & _). cbn [c_preset fst] in T. congruence.
  - intros l logger lv T Le Pos Tag (r & Er). apply C60_preset_stderr; [exact Nf|]. split; [exact Pos|]. split; [discriminate|]. split; [exists l; auto|]. split; [exact Tag|].
    intros d ms _ _ _. exists (lit "playground"), r. split; [now left|exact Er].
Qed.
Print Assumptions C69_log_effect.
(** Finding: an unknown level is refused, the old one goes on being reported, but
    nothing is logged any more. *)
Theorem C69_refuted_bad_level_is_harmless :
  forall aux creates name v peer r lvl, m_request r = lit "set-log-level" -> m_args r = [lvl] -> ~ In lvl preset_levels ->
  let v' := fst (v_step aux creates name (VRequest peer r) v) in
  answered (snd (v_step aux creates name (VRequest peer r) v)) r [] (Some (lit "Unknown preset log level " ++ lvl)) /\
  v_preset v' = v_preset v /\ forall own logger lv h, emits (v_log v') own logger lv h = false.
Proof.
  intros aux creates name v peer r lvl Q A N v'.
  assert (As : asks_log (VRequest peer r) = Some lvl) by (rewrite asks_log_set, Q, A; reflexivity).
  split; [|split].
  - unfold answered. rewrite request_sent, Q, A. replace (the_op aux creates (lit "set-log-level")) with (Some (vop_set_log aux creates)) by reflexivity.
    unfold vop_set_log. rewrite unknown_preset by exact N. cbn [snd]. replace (smem preset_levels lvl) with false; [reflexivity|]. symmetry.
    destruct (smem preset_levels lvl) eqn:X; [|reflexivity]. apply smem_true in X. contradiction.
  - unfold v'. destruct (log_step aux creates name _ v lvl As) as (_ & _ & [[(p & -> & _) _]|[_ P]]); [|exact P]. exfalso. apply N, preset_name_in.
  - unfold v'. destruct (log_step aux creates name _ v lvl As) as (_ & Lg & _). rewrite Lg, unknown_preset by exact N. intros. unfold emits, handled. cbn [fst clear_handlers l_handlers]. unfold dhas. cbn [dget]. now rewrite !andb_false_r.
Qed.
Print Assumptions C69_refuted_bad_level_is_harmless.
(** Finding: a fresh VNIC reports NONE but logs at DEBUG. *)
Theorem C69_refuted_start_level :
  forall aux root address v, vnic_start aux (fun _ => true) root address = Ok v ->
  v_preset v = lit "NONE" /\ forall lv, 0 < lv -> emits (v_log v) None (lit "playground.vnic") lv stderr = true.
Proof.
  intros aux root address v St. unfold vnic_start in St. destruct (prom_new address); [|discriminate]. injection St as <-. split; [reflexivity|]. intros lv H.
  apply (proj2 (C60_preset_stderr root [] (PDebug, aux, 1%nat) None (lit "playground.vnic") lv ltac:(intros d [<-|[]]; discriminate))). split; [exact H|]. split; [discriminate|]. split; [exists 0; split; [reflexivity|lia]|]. split.
  - apply (C60_tag_of (lit "playground.vnic") []). reflexivity.
  - intros d ms [<-|[]] _ _. exists (lit "playground"), (lit "vnic"). split; [now left|reflexivity].
Qed.
Print Assumptions C69_refuted_start_level.

(** *** Examples, and what goes wrong with two links *)
Definition ask (id : Z) (verb : string) (args : list string) : vevent := VRequest None (Spmp id (lit verb) (map lit args) [] None).
Definition ex_start : vnic := match vnic_start [] (fun _ => true) 30 (lit "20191.1.2.3") with Ok v => v | Raise _ => Vnic (Prom (Addr Star Star Star Star) None false None []) [] [] (log_new 30) 0 [] end.
Definition ex_run (es : list vevent) := v_run [] (fun _ => true) (lit "vnic") es ex_start.
Example C69_ex_start : vnic_start [] (fun _ => true) 30 (lit "20191.1.2.3") = Ok ex_start.
Proof. vm_compute. reflexivity. Qed.
(** an ordinary life *)
Definition ex_life : list vevent :=
  [ask 1 "set-promiscuity-level" ["2"]; VNew; ask 2 "switch-live" []; VMade 0; VLevel (Some 9); ask 3 "get-promiscuity-level" [];
   VLost 0; ask 4 "set-promiscuity-level" ["-1"]; VNew; VMade 1; ask 5 "set-promiscuity-level" ["x"]; VLevel None]%string.
Example C69_ex_life : phase_after ex_life = Some (On 1, 2%nat) /\ level_after ex_life = 0 /\ requests ex_life <> [] /\
  last_announced 1 (v_did (fst (ex_run ex_life))) = Some (lit "20191.1.2.3") /\
  snd (ex_run (firstn 6 ex_life)) =
    [VReply (SRun (lit "set-promiscuity-level") [lit "2"]); VReply (SSend (Spmp 1 (lit "set-promiscuity-level") [lit "2"] (lit "None") None));
     VReply (SRun (lit "switch-live") []); VReply (SSend (Spmp 2 (lit "switch-live") [] (lit "Not Connected") None));
     VLevelIs 4;
     VReply (SRun (lit "get-promiscuity-level") []); VReply (SSend (Spmp 3 (lit "get-promiscuity-level") [] (lit "4") None))] /\
  last_announced 0 (v_did (fst (ex_run (firstn 6 ex_life)))) = Some (lit "*.*.*.*").
Proof. vm_compute. repeat split; auto; discriminate. Qed.
Example C69_ex_logs : logs_asked [ask 1 "set-log-level" ["TEST"]; ask 2 "set-log-level" ["LOUD"]; ask 3 "set-log-level" []]%string = [lit "TEST"; lit "LOUD"] /\
  reports (fun _ => true) [lit "TEST"; lit "LOUD"] (lit "TEST").
Proof.
  split; [reflexivity|]. left. exists [], [lit "LOUD"]. split; [reflexivity|]. split; [exists PTest; split; [reflexivity|intro X; now elim X]|].
  intros [|[|i]] l E; try discriminate. injection E as <-. intros (p & E & _). destruct p; vm_compute in E; discriminate.
Qed.
Definition ex_three : list vevent := [ask 1 "set-promiscuity-level" ["2"]; ask 2 "get-promiscuity-level" []; ask 3 "set-promiscuity-level" ["2"]]%string.
(** Finding: if a link replaces another that is still there, setting a level
    raises; the reply says so, the level changes all the same, the same
    request again succeeds, and nothing is announced.  As a level packet it
    is not answered at all. *)
Theorem C69_refuted_two_links :
  exists es, let v := fst (ex_run es) in
  (exists e1, e1 <> [] /\ sent (snd (ex_run (es ++ ex_three))) =
    [Spmp 1 (lit "set-promiscuity-level") [lit "2"] [] (Some e1);
     Spmp 2 (lit "get-promiscuity-level") [] (lit "2") None;
     Spmp 3 (lit "set-promiscuity-level") [lit "2"] (lit "None") None]) /\
  snd (ex_run (es ++ [VLevel (Some 2)])) = [] /\ last_announced 1 (v_did (fst (ex_run (es ++ [VLevel (Some 2)])))) = None.
Proof. exists [VNew; VMade 0; VNew]. vm_compute. split; [|auto]. eexists. split; [|reflexivity]. discriminate. Qed.
Print Assumptions C69_refuted_two_links.
(** Finding: the loss of the old link makes switch-live say that there is none. *)
Theorem C69_refuted_old_link :
  exists es n, let v := fst (ex_run es) in
  nth_error (p_links (v_prom v)) n = Some (Link true (lit "20191.1.2.3")) /\ sent (snd (ex_run (es ++ [ask 1 "switch-live" [] ]))) = [Spmp 1 (lit "switch-live") [] (lit "Not Connected") None].
Proof. exists [VNew; VMade 0; VNew; VMade 1; VLost 0], 1%nat. vm_compute. auto. Qed.
Print Assumptions C69_refuted_old_link.
