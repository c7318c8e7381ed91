(** * Proofs about the management of a VNIC *)
From Coq Require Import String.
From Coq Require Import List ZArith Bool Lia.
From Verif Require Import PyBase PyLemmas AddrModel SpmpModel WanApiModel LogModel LogSpec LogProofs SwitchModel AddrSpec AddrProofs VnicModel VnicProofs PromModel PromProps VnicApiModel VnicApiSpec.
Import ListNotations.
Open Scope Z_scope.

Section A.
Variables (aux : list pystr) (creates : nat -> bool) (name : pystr).
Notation step := (v_step aux creates name).
Notation run := (v_run aux creates name).
Notation api := (vnic_api aux creates).

(** ** Which operation a request is *)
Definition the_op (q : pystr) : option (operation vnic) :=
  if eqb q (lit "verbs") then Some (no_arguments (fun _ => commas verb_names))
  else if eqb q (lit "get-promiscuity-level") then Some (no_arguments (fun v => print_int (prom_level (v_prom v))))
  else if eqb q (lit "set-promiscuity-level") then Some vop_set_level
  else if eqb q (lit "all-log-levels") then Some (no_arguments (fun _ => commas preset_levels))
  else if eqb q (lit "get-log-level") then Some (no_arguments v_preset)
  else if eqb q (lit "set-log-level") then Some (vop_set_log aux creates)
  else if eqb q (lit "switch-live") then Some (no_arguments v_live)
  else None.
Lemma api_the_op q : dget api q = the_op q.
Proof.
  unfold vnic_api, verb_names, the_op, eqb. cbn [map combine dget].
  repeat (destruct (eq_dec q _) as [_|_]; [reflexivity|]). reflexivity.
Qed.

(** ** The links and the level: every step is steps of PromModel *)
Definition pe (e : vevent) : list pevent :=
  match e with
  | VNew => [PNew] | VMade n => [PMade n] | VLost n => [PLost n]
  | _ => match asks_level e with Some z => [PSet (Some z)] | None => [] end
  end.
Lemma process_shape peer r v : exists v' g, process (vnic_server aux creates name) peer r v = (v', g) /\
  match the_op (m_request r) with
  | None => v' = v
  | Some op => v' = fst (op v (m_args r))
  end.
Proof.
  unfold process. cbn [s_security vnic_server s_api]. rewrite api_the_op. destruct (the_op (m_request r)) as [op|]; [|eauto].
  destruct (op v (m_args r)) as [v' o]. destruct o; cbn [fst]; eauto.
Qed.
Lemma no_arguments_state f v args : fst (no_arguments f v args) = v.
Proof. reflexivity. Qed.
Lemma set_log_keeps v args : let v' := fst (vop_set_log aux creates v args) in v_prom v' = v_prom v /\ v_did v' = v_did v /\ v_live v' = v_live v.
Proof.
  cbn zeta. unfold vop_set_log. destruct args as [|a [|b r]]; [auto| |auto]. destruct (enable_preset a aux (file_of creates (v_calls v)) (v_log v)) as [lg [u|x]]; auto.
Qed.
Lemma set_level_op v args : fst (vop_set_level v args) =
  match args with [a] => match parse_int a with Ok z => with_prom (fst (set_level (Some z) (v_prom v))) (snd (set_level (Some z) (v_prom v))) v | Raise _ => v end | _ => v end.
Proof. unfold vop_set_level. destruct args as [|a [|b r]]; auto. destruct (parse_int a); auto. destruct (set_level _ _) as [p l]. reflexivity. Qed.
Lemma with_prom_nil v : with_prom (v_prom v) [] v = v.
Proof. unfold with_prom. rewrite app_nil_r. destruct v; reflexivity. Qed.
(** a request, by what it asks *)
Lemma asks_set r : asks_level (VRequest None r) = if eqb (m_request r) (lit "set-promiscuity-level") then match m_args r with [a] => match parse_int a with Ok z => Some z | Raise _ => None end | _ => None end else None.
Proof. unfold asks_level, asks. destruct (eqb _ _); auto. Qed.
Lemma the_op_cases q :
  q = lit "set-promiscuity-level" /\ the_op q = Some vop_set_level \/
  q = lit "set-log-level" /\ the_op q = Some (vop_set_log aux creates) \/
  eqb q (lit "set-promiscuity-level") = false /\ eqb q (lit "set-log-level") = false /\
    (the_op q = None \/ exists f, the_op q = Some (no_arguments f)).
Proof.
  unfold the_op, eqb.
  destruct (eq_dec q (lit "set-promiscuity-level")) as [->|N1]; [left; split; reflexivity|].
  destruct (eq_dec q (lit "set-log-level")) as [->|N2]; [right; left; split; reflexivity|].
  right. right. split; [reflexivity|]. split; [reflexivity|].
  repeat (match goal with |- context [eq_dec q ?s] => destruct (eq_dec q s) end; eauto).
Qed.
Lemma request_state peer r v : let v' := fst (step (VRequest peer r) v) in
  (asks_level (VRequest peer r) = None /\ v_prom v' = v_prom v /\ v_did v' = v_did v \/
   exists z, asks_level (VRequest peer r) = Some z /\ v_prom v' = fst (set_level (Some z) (v_prom v)) /\ v_did v' = v_did v ++ snd (set_level (Some z) (v_prom v))) /\
  v_live v' = v_live v.
Proof.
  cbn zeta. cbn [v_step]. destruct (process_shape peer r v) as (v' & g & -> & H). cbn [fst].
  change (asks_level (VRequest peer r)) with (asks_level (VRequest None r)). rewrite asks_set.
  destruct (the_op_cases (m_request r)) as [[E O]|[[E O]|(N1 & N2 & [O|[f O]])]]; rewrite O in H; subst v'.
  - rewrite E, set_level_op. replace (eqb (lit "set-promiscuity-level") (lit "set-promiscuity-level")) with true by reflexivity.
    destruct (m_args r) as [|a [|b rest]]; auto. destruct (parse_int a) as [z|x]; auto. split; [|reflexivity]. right. exists z. auto.
  - rewrite E. replace (eqb (lit "set-log-level") (lit "set-promiscuity-level")) with false by reflexivity.
    destruct (set_log_keeps v (m_args r)) as (A & B & C). auto.
  - rewrite N1. auto.
  - rewrite N1, no_arguments_state. auto.
Qed.
Lemma step_prom e v : exists l, p_run (pe e) (v_prom v) = (v_prom (fst (step e v)), l) /\ v_did (fst (step e v)) = v_did v ++ l.
Proof.
  destruct e as [|n|n|peer r|l0].
  - cbn [pe v_step p_run]. destruct (p_step PNew (v_prom v)) as [p l] eqn:E. cbn [fst with_prom v_prom v_did]. exists (l ++ []). split; [reflexivity|now rewrite app_nil_r].
  - cbn [pe v_step p_run]. destruct (p_step (PMade n) (v_prom v)) as [p l] eqn:E. cbn [fst v_prom v_did]. exists (l ++ []). split; [reflexivity|now rewrite app_nil_r].
  - cbn [pe v_step p_run]. destruct (p_step (PLost n) (v_prom v)) as [p l] eqn:E. cbn [fst v_prom v_did]. exists (l ++ []). split; [reflexivity|now rewrite app_nil_r].
  - destruct (request_state peer r v) as [[(E & P & D)|(z & E & P & D)] _]; cbn [pe]; rewrite E; cbn [p_run p_step].
    + exists []. rewrite P, D, app_nil_r. auto.
    + destruct (set_level (Some z) (v_prom v)) as [p l] eqn:Es. cbn [fst snd] in *. exists (l ++ []). rewrite P, D, app_nil_r. auto.
  - cbn [pe asks_level]. destruct l0 as [z|]; cbn [v_step p_run p_step].
    + destruct (set_level (Some z) (v_prom v)) as [p l] eqn:Es. cbn [fst with_prom v_prom v_did]. exists (l ++ []). rewrite app_nil_r. auto.
    + exists []. cbn [fst]. rewrite app_nil_r. auto.
Qed.
Lemma p_run_app es1 : forall es2 s, p_run (es1 ++ es2) s = let (s1, l1) := p_run es1 s in let (s2, l2) := p_run es2 s1 in (s2, l1 ++ l2).
Proof.
  induction es1 as [|e es1 IH]; intros es2 s; cbn [app p_run]; [destruct (p_run es2 s); reflexivity|].
  destruct (p_step e s) as [s1 l1]. rewrite IH. destruct (p_run es1 s1) as [s2 l2]. destruct (p_run es2 s2) as [s3 l3]. now rewrite app_assoc.
Qed.
Lemma run_app es1 : forall es2 v, run (es1 ++ es2) v = let (v1, o1) := run es1 v in let (v2, o2) := run es2 v1 in (v2, o1 ++ o2).
Proof.
  induction es1 as [|e es1 IH]; intros es2 v; cbn [app v_run]; [destruct (run es2 v); reflexivity|].
  destruct (step e v) as [v1 l1]. rewrite IH. destruct (run es1 v1) as [v2 l2]. destruct (run es2 v2) as [v3 l3]. now rewrite app_assoc.
Qed.
Lemma run_one e v : run [e] v = (fst (step e v), snd (step e v)).
Proof. cbn [v_run]. destruct (step e v) as [v1 o]. cbn [fst snd]. now rewrite app_nil_r. Qed.
Lemma run_snoc es e v : run (es ++ [e]) v = (fst (step e (fst (run es v))), snd (run es v) ++ snd (step e (fst (run es v)))).
Proof. rewrite run_app. destruct (run es v) as [v1 o1]. rewrite run_one. reflexivity. Qed.
Lemma run_prom es : forall v, exists l, p_run (flat_map pe es) (v_prom v) = (v_prom (fst (run es v)), l) /\ v_did (fst (run es v)) = v_did v ++ l.
Proof.
  induction es as [|e es IH]; intro v; cbn [flat_map v_run]; [exists []; cbn [p_run fst]; rewrite app_nil_r; auto|].
  destruct (step_prom e v) as (l1 & A & B). destruct (step e v) as [v1 o1]. cbn [fst] in *. destruct (IH v1) as (l2 & C & D). destruct (run es v1) as [v2 o2]. cbn [fst] in *.
  exists (l1 ++ l2). rewrite p_run_app, A, C. split; [reflexivity|]. rewrite D, B. now rewrite app_assoc.
Qed.
Lemma start_reachable root address v es : vnic_start aux creates root address = Ok v -> p_reachable address (v_prom (fst (run es v))) (v_did (fst (run es v))).
Proof.
  unfold vnic_start. destruct (prom_new address) as [p|] eqn:E; [|discriminate]. cbn [bind]. intros [= <-].
  match goal with |- context [run es ?w] => destruct (run_prom es w) as (l & A & B) end. cbn [v_prom v_did] in A, B. rewrite B. cbn [app].
  exists p, (flat_map pe es). split; [exact E|exact A].
Qed.

(** ** The level *)
Lemma change_level n a s : p_level (fst (change_address n a s)) = p_level s /\ p_conn (fst (change_address n a s)) = p_conn s /\ p_cur (fst (change_address n a s)) = p_cur s.
Proof. unfold change_address. destruct (nth_error _ _); auto. Qed.
Lemma update_keeps s : p_level (fst (update_address s)) = p_level s /\ p_conn (fst (update_address s)) = p_conn s /\ p_cur (fst (update_address s)) = p_cur s.
Proof.
  unfold update_address. destruct (negb _); [auto|]. destruct (p_level s) eqn:E; [|auto]. destruct (construct _ _); [|auto]. destruct (climb _ _); [|auto].
  destruct (p_cur s) as [n|] eqn:C; [|auto]. destruct (change_level n (addr_str a0) s) as (A & B & D). rewrite A, B, D. auto.
Qed.
Lemma set_level_value z s : (match p_level s with None => True | Some y => 0 <= y <= 4 end) -> prom_level (fst (set_level (Some z) s)) = Z.max 0 (Z.min 4 z).
Proof.
  intro R. unfold set_level. set (l2 := if _ >? 4 then 4 else _).
  assert (H2 : l2 = Z.max 0 (Z.min 4 z)) by (unfold l2; destruct (z <? 0) eqn:Hz; match goal with |- context [?x >? 4] => destruct (x >? 4) eqn:H4 end; lia).
  rewrite <- H2. unfold eqb. destruct (eq_dec (p_level s) (Some l2)) as [E|E]; [cbn [fst]; unfold prom_level; now rewrite E|].
  match goal with |- context [update_address ?w] => destruct (update_keeps w) as (A & _) end. unfold prom_level. rewrite A. reflexivity.
Qed.
Lemma made_level n s : p_level (fst (link_made n s)) = p_level s.
Proof.
  unfold link_made. destruct (nth_error _ _) as [k|]; [|reflexivity]. set (s2 := Prom _ _ true _ _). destruct (prom_level s2 =? 0); [reflexivity|].
  destruct (update_keeps s2) as (A & _). destruct (update_address s2) as [s3 l3]. cbn [fst] in *. rewrite A. reflexivity.
Qed.
Lemma step_level e v : (match p_level (v_prom v) with None => True | Some y => 0 <= y <= 4 end) ->
  prom_level (v_prom (fst (step e v))) = match asks_level e with Some z => Z.max 0 (Z.min 4 z) | None => prom_level (v_prom v) end.
Proof.
  intro R. destruct e as [|n|n|peer r|l0].
  - reflexivity.
  - cbn [v_step asks_level asks]. pose proof (made_level n (v_prom v)) as M. cbn [p_step]. destruct (link_made n (v_prom v)) as [p l]. cbn [fst v_prom] in *. unfold prom_level. now rewrite M.
  - reflexivity.
  - destruct (request_state peer r v) as [[(E & P & D)|(z & E & P & D)] _]; rewrite E, P; [reflexivity|]. now apply set_level_value.
  - cbn [v_step asks_level]. destruct l0 as [z|]; [|reflexivity]. pose proof (set_level_value z (v_prom v) R) as S1. destruct (set_level _ _) as [p l]. exact S1.
Qed.
Lemma levels_app a b : levels_asked (a ++ b) = levels_asked a ++ levels_asked b.
Proof. apply flat_map_app. Qed.
Lemma level_snoc es e : level_after (es ++ [e]) = match asks_level e with Some z => Z.max 0 (Z.min 4 z) | None => level_after es end.
Proof. unfold level_after. rewrite levels_app, rev_app_distr. unfold levels_asked at 1. cbn [flat_map]. destruct (asks_level e); reflexivity. Qed.
Lemma start_level root address v es : vnic_start aux creates root address = Ok v -> prom_level (v_prom (fst (run es v))) = level_after es.
Proof.
  intro St. induction es as [|e es IH] using rev_ind.
  - unfold vnic_start in St. unfold prom_new in St. destruct (from_string _ _); [|discriminate]. injection St as <-. reflexivity.
  - rewrite run_snoc, level_snoc. cbn [fst]. rewrite step_level, IH; [reflexivity|].
    destruct (reachable_pinv _ _ _ (start_reachable root address v es St)) as (a & _ & I). exact (pi_level _ _ _ I).
Qed.

(** ** Replies *)
Lemma request_out peer r v : let '(v', o) := (fst (step (VRequest peer r) v), snd (step (VRequest peer r) v)) in
  o = match the_op (m_request r) with
      | None => [VReply (SSend (Spmp (m_id r) (m_request r) (m_args r) [] (Some (unknown_text (m_request r) name))))]
      | Some op => VReply (SRun (m_request r) (m_args r)) ::
          [VReply (SSend (match snd (op v (m_args r)) with
                          | OpValue s => Spmp (m_id r) (m_request r) (m_args r) s (m_error r)
                          | OpRaises m => Spmp (m_id r) (m_request r) (m_args r) [] (match m with [] => m_error r | _ => Some m end)
                          end))]
      end.
Proof.
  cbn [v_step]. unfold process. cbn [s_security vnic_server s_api s_name]. rewrite api_the_op. destruct (the_op (m_request r)) as [op|].
  - destruct (op v (m_args r)) as [v' [s|m]]; cbn [fst snd map]; [reflexivity|]. destruct m; reflexivity.
  - cbn [snd map]. unfold unknown_text. cbn [app]. reflexivity.
Qed.
Lemma request_sent peer r v : sent (snd (step (VRequest peer r) v)) =
  [match the_op (m_request r) with
   | None => Spmp (m_id r) (m_request r) (m_args r) [] (Some (unknown_text (m_request r) name))
   | Some op => match snd (op v (m_args r)) with
                | OpValue s => Spmp (m_id r) (m_request r) (m_args r) s (m_error r)
                | OpRaises m => Spmp (m_id r) (m_request r) (m_args r) [] (match m with [] => m_error r | _ => Some m end)
                end
   end].
Proof. pose proof (request_out peer r v) as H. cbn zeta in H. rewrite H. destruct (the_op (m_request r)) as [op|]; [|reflexivity]. unfold sent. cbn [flat_map]. destruct (snd (op v (m_args r))); reflexivity. Qed.
Lemma sent_app a b : sent (a ++ b) = sent a ++ sent b.
Proof. apply flat_map_app. Qed.

(** ** Log levels *)
Lemma preset_dec lvl : (exists p, lvl = preset_name p) \/ ~ In lvl preset_levels.
Proof.
  destruct (in_dec eq_dec lvl preset_levels) as [I|N]; [left|now right]. unfold preset_levels in I. cbn [map In] in I.
  destruct I as [E|[E|[E|[E|[E|[E|[E|[]]]]]]]]; symmetry in E; [exists PNone|exists PMinimal|exists PQuiet|exists PVerbose|exists PDebug|exists PTest|exists PMax]; exact E.
Qed.
Lemma preset_name_in p : In (preset_name p) preset_levels.
Proof. unfold preset_levels. destruct p; cbn [map In preset_name]; tauto. Qed.
Lemma preset_name_inj p q : preset_name p = preset_name q -> p = q.
Proof. destruct p, q; intro E; try reflexivity; vm_compute in E; discriminate. Qed.
Lemma unknown_preset lvl f s : ~ In lvl preset_levels -> enable_preset lvl aux f s = (clear_handlers s, Raise GenericException).
Proof.
  intro U. unfold enable_preset, eqb.
  repeat match goal with |- context [eq_dec lvl (lit ?x)] => destruct (eq_dec lvl (lit x)) as [E|_]; [exfalso; apply U; rewrite E; unfold preset_levels; cbn [map In]; tauto|] end.
  reflexivity.
Qed.
Lemma good_ok n lvl s : (good_log creates n lvl /\ snd (enable_preset lvl aux (file_of creates n) s) = Ok tt) \/
  (~ good_log creates n lvl /\ snd (enable_preset lvl aux (file_of creates n) s) = Raise GenericException).
Proof.
  destruct (preset_dec lvl) as [[p ->]|N].
  - rewrite preset_eq. unfold file_of. destruct (creates n) eqn:C.
    + left. split; [exists p; auto|]. destruct p; reflexivity.
    + assert (B : to_file p <> None -> ~ good_log creates n (preset_name p)).
      { intros T (q & E & H). apply preset_name_inj in E. subst q. specialize (H T). congruence. }
      destruct p; try (right; split; [apply B; discriminate|reflexivity]); left; (split; [eexists; split; [reflexivity|intro X; now elim X]|reflexivity]).
  - right. split; [intros (p & -> & _); apply N, preset_name_in|]. now rewrite unknown_preset.
Qed.
Lemma asks_log_set peer r : asks_log (VRequest peer r) = if eqb (m_request r) (lit "set-log-level") then match m_args r with [a] => Some a | _ => None end else None.
Proof. unfold asks_log, asks. destruct (eqb _ _); auto. Qed.
Lemma no_log_step e v : asks_log e = None -> let v' := fst (step e v) in v_preset v' = v_preset v /\ v_log v' = v_log v /\ v_calls v' = v_calls v.
Proof.
  intros N v'. unfold v'. destruct e as [|n|n|peer r|l0].
  - cbn [v_step]. destruct (p_step _ _). auto.
  - cbn [v_step]. destruct (p_step _ _). auto.
  - cbn [v_step]. destruct (p_step _ _). auto.
  - rewrite asks_log_set in N. cbn [v_step]. destruct (process_shape peer r v) as (w & g & -> & H). cbn [fst].
    destruct (the_op_cases (m_request r)) as [[E O]|[[E O]|(N1 & N2 & [O|[f O]])]]; rewrite O in H; subst w; auto.
    + rewrite set_level_op. destruct (m_args r) as [|a [|b rest]]; auto. destruct (parse_int a); auto.
    + rewrite E in N. replace (eqb (lit "set-log-level") (lit "set-log-level")) with true in N by reflexivity. unfold vop_set_log. destruct (m_args r) as [|a [|b rest]]; [auto|discriminate|auto].
  - cbn [v_step]. destruct l0; [destruct (set_level _ _)|]; auto.
Qed.
Lemma log_step e v lvl : asks_log e = Some lvl -> let v' := fst (step e v) in
  v_calls v' = S (v_calls v) /\ v_log v' = fst (enable_preset lvl aux (file_of creates (v_calls v)) (v_log v)) /\
  ((good_log creates (v_calls v) lvl /\ v_preset v' = lvl) \/ (~ good_log creates (v_calls v) lvl /\ v_preset v' = v_preset v)).
Proof.
  intro A. destruct e as [|n|n|peer r|l0]; try discriminate. rewrite asks_log_set in A. unfold eqb in A. destruct (eq_dec (m_request r) (lit "set-log-level")) as [E|]; [|discriminate].
  destruct (m_args r) as [|a [|b rest]] eqn:Ea; try discriminate. injection A as ->. cbn zeta. cbn [v_step].
  destruct (process_shape peer r v) as (w & g & -> & H). cbn [fst]. rewrite E in H. replace (the_op (lit "set-log-level")) with (Some (vop_set_log aux creates)) in H by reflexivity.
  rewrite Ea in H. unfold vop_set_log in H.
  destruct (good_ok (v_calls v) lvl (v_log v)) as [[G R]|[G R]]; destruct (enable_preset lvl aux (file_of creates (v_calls v)) (v_log v)) as [lg r0]; cbn [snd fst] in *; subst r0; cbn [fst] in H; subst w; cbn; auto.
Qed.
Lemma logs_snoc es e : logs_asked (es ++ [e]) = logs_asked es ++ some (asks_log e).
Proof. unfold logs_asked. rewrite flat_map_app. cbn [flat_map]. now rewrite app_nil_r. Qed.
Lemma start_log root address v es : vnic_start aux creates root address = Ok v ->
  v_calls (fst (run es v)) = S (List.length (logs_asked es)) /\ reports creates (logs_asked es) (v_preset (fst (run es v))).
Proof.
  intro St. induction es as [|e es [IH1 IH2]] using rev_ind.
  - unfold vnic_start in St. destruct (prom_new address); [|discriminate]. injection St as <-. split; [reflexivity|]. right. split; [reflexivity|]. intros [|i] l; discriminate.
  - rewrite run_snoc, logs_snoc. cbn [fst]. set (s := fst (run es v)) in *. destruct (asks_log e) as [lvl|] eqn:A; cbn [some].
    + destruct (log_step e s lvl A) as (C & _ & [[G P]|[G P]]); rewrite C, P, app_length, IH1; (split; [cbn; lia|]); rewrite IH1 in G.
      * left. exists (logs_asked es), []. split; [reflexivity|]. split; [exact G|]. intros [|i] l; discriminate.
      * destruct IH2 as [(pre & post & E & Gp & Np)|[E Np]].
        -- left. exists pre, (post ++ [lvl]). split; [rewrite E, <- app_assoc; reflexivity|]. split; [exact Gp|]. intros i l Hi.
           destruct (Nat.lt_ge_cases i (List.length post)) as [L|L].
           ++ rewrite nth_error_app1 in Hi by exact L. eauto.
           ++ rewrite nth_error_app2 in Hi by exact L. destruct (i - List.length post)%nat as [|[|j]] eqn:D; cbn in Hi; try discriminate. injection Hi as <-.
              replace (S (List.length pre) + S i)%nat with (S (List.length (logs_asked es))); [exact G|]. rewrite E, app_length. cbn. lia.
        -- right. split; [exact E|]. intros i l Hi. destruct (Nat.lt_ge_cases i (List.length (logs_asked es))) as [L|L].
           ++ rewrite nth_error_app1 in Hi by exact L. eauto.
           ++ rewrite nth_error_app2 in Hi by exact L. destruct (i - List.length (logs_asked es))%nat as [|[|j]] eqn:D; cbn in Hi; try discriminate. injection Hi as <-.
              replace i with (List.length (logs_asked es)) by lia. exact G.
    + destruct (no_log_step e s A) as (P & _ & C). rewrite P, C, app_nil_r. auto.
Qed.
(** only known names and files that can be made: the configuration is that of the presets one after another *)
Definition calls_of (ps : list preset) : list call := map (fun np => (snd np, aux, S (fst np))) (combine (seq 0 (S (List.length ps))) (PDebug :: ps)).
Lemma calls_snoc ps p : calls_of (ps ++ [p]) = calls_of ps ++ [(p, aux, S (S (List.length ps)))].
Proof.
  unfold calls_of. rewrite app_length, Nat.add_1_r. change (PDebug :: ps ++ [p]) with ((PDebug :: ps) ++ [p]). rewrite (seq_S (S (List.length ps)) 0).
  assert (H : forall (a : list nat) (b : list preset) x y, List.length a = List.length b -> combine (a ++ [x]) (b ++ [y]) = combine a b ++ [(x, y)]).
  { induction a as [|a0 a IH]; intros [|b0 b] x y L; try discriminate; [reflexivity|]. cbn [app combine]. rewrite IH; [reflexivity|]. now injection L. }
  rewrite H by (rewrite seq_length; reflexivity). rewrite map_app. reflexivity.
Qed.
Lemma start_log_state root address v es : forall ps, vnic_start aux creates root address = Ok v -> logs_asked es = map preset_name ps -> (forall n, creates n = true) ->
  v_log (fst (run es v)) = run_calls (calls_of ps) (log_new root).
Proof.
  induction es as [|e es IH] using rev_ind; intros ps St L C.
  - destruct ps; [|discriminate]. unfold vnic_start in St. destruct (prom_new address); [|discriminate]. injection St as <-. cbn [v_run fst v_log]. unfold file_of. rewrite C. reflexivity.
  - rewrite run_snoc. cbn [fst]. rewrite logs_snoc in L. destruct (asks_log e) as [lvl|] eqn:A; cbn [some] in L.
    + destruct ps as [|p ps _] using rev_ind; [destruct (logs_asked es); discriminate|]. rewrite map_app in L. cbn [map] in L. apply app_inj_tail in L. destruct L as [L ->].
      destruct (log_step e (fst (run es v)) _ A) as (_ & G & _). rewrite G, (IH ps St L C). destruct (start_log root address v es St) as [Cl _]. rewrite Cl, L, map_length.
      rewrite calls_snoc. unfold run_calls. rewrite fold_left_app. cbn [fold_left]. unfold file_of. rewrite C. reflexivity.
    + rewrite app_nil_r in L. destruct (no_log_step e (fst (run es v)) A) as (_ & G & _). rewrite G. auto.
Qed.

(** ** The order of the launched process *)
Definition ups (s : prom) : list bool := map lk_up (p_links s).
Lemma ups_upd n a (ls : list link) : map lk_up (upd n (fun k => Link (lk_up k) a) ls) = map lk_up ls.
Proof.
  unfold upd. destruct (nth_error ls n) as [k|] eqn:E; [|reflexivity]. rewrite map_app. cbn [map lk_up].
  apply nth_error_split in E. destruct E as (l1 & l2 & -> & <-). rewrite firstn_app, firstn_all, Nat.sub_diag. cbn [firstn]. rewrite app_nil_r, skipn_app.
  rewrite (skipn_all2 l1) by lia. replace (S (List.length l1) - List.length l1)%nat with 1%nat by lia. cbn [skipn app]. rewrite map_app. reflexivity.
Qed.
Lemma update_links s : ups (fst (update_address s)) = ups s /\ p_addr (fst (update_address s)) = p_addr s.
Proof.
  unfold update_address. destruct (negb _); [auto|]. destruct (p_level s); [|auto]. destruct (construct _ _); [|auto]. destruct (climb _ _); [|auto].
  destruct (p_cur s); [|auto]. unfold change_address. destruct (nth_error _ _); [|auto]. cbn [fst]. unfold ups, set_link. cbn [p_links p_addr]. now rewrite ups_upd.
Qed.
Lemma set_links l s : ups (fst (set_level l s)) = ups s /\ p_conn (fst (set_level l s)) = p_conn s /\ p_cur (fst (set_level l s)) = p_cur s.
Proof.
  unfold set_level. destruct (eqb _ _); [auto|]. match goal with |- context [update_address ?w] => destruct (update_links w) as [A _]; destruct (update_keeps w) as (_ & B & C) end. rewrite A, B, C. auto.
Qed.
(** an update does not raise if the current link is up *)
Lemma update_fine s : address_ok (p_addr s) -> (exists z, p_level s = Some z /\ 0 <= z <= 4) ->
  (p_conn s = true -> exists n, p_cur s = Some n /\ nth_error (ups s) n = Some true) -> raised (snd (update_address s)) = false.
Proof.
  intros Ok (z & Ez & Hz) H. unfold update_address. destruct (p_conn s); [cbn [negb]|reflexivity]. rewrite Ez, (address_block _ Ok), (climb_block _ z Ok Hz).
  destruct (H eq_refl) as (n & -> & En). unfold change_address. unfold ups in En. rewrite nth_error_map in En. destruct (nth_error (p_links s) n) as [k|]; [|discriminate]. cbn in En. injection En as ->. reflexivity.
Qed.
Lemma set_fine a s log z : pinv a s log -> (p_conn s = true -> exists n, p_cur s = Some n /\ nth_error (ups s) n = Some true) -> raised (snd (set_level (Some z) s)) = false.
Proof.
  intros I H. unfold set_level. set (l2 := if _ >? 4 then 4 else _). destruct (eqb _ _); [reflexivity|]. apply update_fine; cbn [p_addr p_level p_conn p_cur p_links]; auto.
  - rewrite (pi_addr _ _ _ I). apply (pi_ok _ _ _ I).
  - exists l2. split; [reflexivity|]. unfold l2. destruct (z <? 0) eqn:Hz; match goal with |- context [?x >? 4] => destruct (x >? 4) eqn:H4 end; lia.
Qed.
Lemma upd_length {A} n (f : A -> A) l : List.length (upd n f l) = List.length l.
Proof. apply length_upd. Qed.
Definition phase_ok (x : phase * nat) (v : vnic) : Prop :=
  List.length (p_links (v_prom v)) = snd x /\ ~ In ERaise (v_did v) /\
  match fst x with
  | Off => p_conn (v_prom v) = false /\ p_cur (v_prom v) = None /\ v_live v = lit "Not Connected"
  | Opening c => p_conn (v_prom v) = false /\ p_cur (v_prom v) = Some c /\ v_live v = lit "Not Connected" /\ (c < snd x)%nat
  | On c => p_conn (v_prom v) = true /\ p_cur (v_prom v) = Some c /\ v_live v = lit "Connected" /\ nth_error (ups (v_prom v)) c = Some true
  end.
Lemma phase_settable x v : phase_ok x v -> p_conn (v_prom v) = true -> exists n, p_cur (v_prom v) = Some n /\ nth_error (ups (v_prom v)) n = Some true.
Proof. intros (_ & _ & H) C. destruct (fst x) as [|c|c]; [destruct H; congruence|destruct H; congruence|]. destruct H as (_ & A & _ & B). eauto. Qed.
Lemma not_raised l : raised l = false <-> ~ In ERaise l.
Proof.
  unfold raised. split.
  - intros H I. assert (X : existsb (fun e => match e with ERaise => true | _ => false end) l = true) by (apply existsb_exists; exists ERaise; auto). congruence.
  - intro H. destruct (existsb _ l) eqn:E; [|reflexivity]. apply existsb_exists in E. destruct E as (e & I & E). destruct e; try discriminate. contradiction.
Qed.
Lemma ups_length s : List.length (ups s) = List.length (p_links s).
Proof. apply map_length. Qed.
Lemma set_phase a x v z v' : pinv a (v_prom v) (v_did v) -> phase_ok x v -> v_prom v' = fst (set_level (Some z) (v_prom v)) -> v_did v' = v_did v ++ snd (set_level (Some z) (v_prom v)) -> v_live v' = v_live v -> phase_ok x v'.
Proof.
  intros I P E1 E2 E3. destruct (set_links (Some z) (v_prom v)) as (U & C & Cu). pose proof (set_fine a _ _ z I (phase_settable x v P)) as F. apply not_raised in F.
  destruct P as (L & N & H). split; [|split].
  - rewrite E1, <- ups_length, U, ups_length. exact L.
  - rewrite E2, in_app_iff. tauto.
  - rewrite E1, E3. destruct (fst x); rewrite ?C, ?Cu, ?U; exact H.
Qed.
Lemma phase_step a x x' e v : pinv a (v_prom v) (v_did v) -> phase_ok x v -> next_phase (Some x) e = Some x' -> phase_ok x' (fst (step e v)).
Proof.
  intros I P E. destruct x as [ph k]. destruct e as [|n|n|peer r|l0].
  - destruct ph; try discriminate. injection E as <-. destruct P as (L & N & (C & Cu & Lv)). cbn [snd] in L. cbn [v_step p_step]. unfold new_link. rewrite Cu. cbn [fst with_prom]. unfold phase_ok. cbn [fst snd v_prom v_did v_live p_links p_conn p_cur].
    unfold with_prom. cbn [v_prom v_did v_live p_links p_conn p_cur]. rewrite app_length, app_nil_r, L. cbn [List.length]. repeat (split; [first [assumption|lia|reflexivity]|]). lia.
  - destruct ph as [|c|c]; try discriminate. cbn [next_phase] in E. destruct (Nat.eqb_spec n c) as [->|]; [|discriminate]. injection E as <-.
    destruct P as (L & N & (C & Cu & Lv & Lt)). cbn [snd fst] in *. cbn [v_step p_step].
    destruct (nth_error (p_links (v_prom v)) c) as [lk|] eqn:En; [|apply nth_error_None in En; lia].
    assert (M : let (p, l) := link_made c (v_prom v) in List.length (p_links p) = k /\ ~ In ERaise l /\ p_conn p = true /\ p_cur p = Some c /\ nth_error (ups p) c = Some true).
    { unfold link_made. rewrite En. set (s2 := Prom _ _ true _ _).
      assert (U2 : nth_error (ups s2) c = Some true).
      { unfold ups, s2, set_link. cbn [p_links]. rewrite nth_error_map. pose proof (nth_upd_same c (fun k0 => Link true (lk_addr k0)) (p_links (v_prom v)) lk En) as Q. rewrite Q. reflexivity. }
      assert (L2 : List.length (p_links s2) = k) by (unfold s2, set_link; cbn [p_links]; rewrite length_upd; exact L).
      assert (Cu2 : p_cur s2 = Some c) by exact Cu.
      destruct (prom_level s2 =? 0) eqn:L0.
      - split; [exact L2|]. split; [intros [X|[]]; discriminate|]. auto.
      - assert (F : raised (snd (update_address s2)) = false).
        { apply update_fine.
          - change (p_addr s2) with (p_addr (v_prom v)). rewrite (pi_addr _ _ _ I). apply (pi_ok _ _ _ I).
          - unfold prom_level in L0. pose proof (pi_level _ _ _ I) as H. change (p_level (v_prom v)) with (p_level s2) in H. destruct (p_level s2) as [z|]; [eauto|discriminate].
          - intros _. exists c. auto. }
        destruct (update_links s2) as [A _]. destruct (update_keeps s2) as (_ & B & D). destruct (update_address s2) as [s3 l3]. cbn [fst snd] in *.
        rewrite A, B, D. rewrite <- ups_length, A, ups_length. split; [exact L2|]. split; [|auto]. apply not_raised in F. intros [X|X]; [discriminate|contradiction]. }
    destruct (link_made c (v_prom v)) as [p l]. destruct M as (M1 & M2 & M3 & M4 & M5). cbn [fst]. unfold phase_ok. cbn [fst snd v_prom v_did v_live]. rewrite (proj2 (not_raised l) M2), in_app_iff. repeat split; auto. tauto.
  - destruct ph as [|c|c]; try discriminate. cbn [next_phase] in E. destruct (Nat.eqb_spec n c) as [->|]; [|discriminate]. injection E as <-.
    destruct P as (L & N & _). cbn [v_step p_step]. unfold link_lost. cbn [fst]. unfold phase_ok. cbn [fst snd v_prom v_did v_live p_links p_conn p_cur]. unfold set_link. cbn [p_links]. rewrite length_upd, app_nil_r. repeat split; auto.
  - assert (x' = (ph, k)) by (destruct ph; cbn in E; congruence). subst x'. destruct (request_state peer r v) as [[(Ea & Pp & D)|(z & Ea & Pp & D)] Lv].
    + destruct P as (L & N & H). unfold phase_ok. rewrite Pp, D, Lv. auto.
    + eapply set_phase; eauto.
  - assert (x' = (ph, k)) by (destruct ph; cbn in E; congruence). subst x'. destruct l0 as [z|]; [|exact P]. cbn [v_step]. destruct (set_level (Some z) (v_prom v)) as [p l] eqn:Es. cbn [fst].
    eapply set_phase; eauto; rewrite Es; reflexivity.
Qed.
Lemma phase_none es : fold_left next_phase es None = None.
Proof. induction es as [|e es IH]; [reflexivity|]. destruct e; exact IH. Qed.
Lemma start_phase root address v es : forall x, vnic_start aux creates root address = Ok v -> phase_after es = Some x -> phase_ok x (fst (run es v)).
Proof.
  induction es as [|e es IH] using rev_ind; intros x St P.
  - injection P as <-. unfold vnic_start in St. unfold prom_new in St. destruct (from_string _ _); [|discriminate]. injection St as <-. repeat split; auto.
  - unfold phase_after in P. rewrite fold_left_app in P. cbn [fold_left] in P. fold (phase_after es) in P. destruct (phase_after es) as [y|]; [|destruct e; discriminate].
    rewrite run_snoc. cbn [fst]. destruct (reachable_pinv _ _ _ (start_reachable root address v es St)) as (a & _ & I). eapply phase_step; eauto.
Qed.
End A.
