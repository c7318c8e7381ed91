(** * C72: the status pages of pnetworking *)
From Coq Require Import String.
From Coq Require Import List ZArith Bool Lia.
From Verif Require Import PyBase PyLemmas AddrModel AddrSpec PnmsModel PnmsSpec PnmsProofs PnmsProofs2 PnmsProofs3 PnmsProps.
From Verif Require Import DeviceModel DeviceSpec DeviceProofs DeviceProofs2 DeviceProofs3 DeviceProps ConnSvcModel VsvcModel VsvcSpec VsvcProofs VsvcProps.
From Verif Require Import StatModel StatSpec StatProofs.
Import ListNotations.
Open Scope nat_scope.

(** what runs once the command has loaded the configuration (see C51, C70) *)
Definition loaded (ks : list command) (w : world) (os0 : pystr -> osd) : pystr -> osd := s_os (vs_dst (service ks w os0 [])).
Definition nothing : net := Net (fun _ => None) (fun _ => None) [].
Definition in_order (ks : list command) : list pystr := added ks nothing [].
(** the run of pnetworking status *)
Definition status_run (ks : list command) (w : world) (os0 : pystr -> osd) (pid : pystr -> Z) (content : pystr -> pystr) (path : pystr) :=
  run_status w pid content path None (runs ks config_empty) os0.

Lemma order_ok ks : Forall plain_command ks -> dkeys (g_devices (clean (file_of ks))) = in_order ks.
Proof. intros P. apply (runs_order ks config_empty nothing); [apply wf_empty|exact P|]. intros d. reflexivity. Qed.
Lemma files_there ks w os0 : Forall plain_command ks -> stops_work w -> let c := clean (file_of ks) in
  forall d, dhas (g_devices c) d = true -> in_use (net_of c) os0 d = true -> iface (net_of c) d = true \/ is_remote_ap (net_of c) d = false -> o_files (loaded ks w os0 d) = true.
Proof.
  intros P K c d Hd U R. destruct (C70_creation ks w os0 P K) as (A & B). destruct (file_ok ks P) as (W & T & Cm & Wf & N).
  unfold in_use in U. change (net_of c) with (net_of (clean (file_of ks))) in *.
  assert (X : runs_at (loaded ks w os0) d = true).
  { destruct (iface (net_of (clean (file_of ks))) d) eqn:Q.
    - unfold loaded. change (net_of (file_of ks)) with (network ks) in N. rewrite A; [rewrite <- (works_eq _ _ os0 d N); exact U|]. now rewrite <- (iface_eq _ _ d N).
    - destruct R as [R|R]; [discriminate|]. rewrite R in U. cbn [orb] in U. unfold loaded. change (net_of (file_of ks)) with (network ks) in N. rewrite B; [exact U|].
      rewrite <- (access_eq _ _ d N). apply dhas_true in Hd as [t Hd]. rewrite access_kind. fold c. rewrite Hd. rewrite iface_kind in Q. fold c in Q. rewrite Hd in Q.
      destruct (has_kind c W d t Hd) as [k Kt]. rewrite Kt in *. destruct k; [discriminate|reflexivity]. }
  unfold runs_at in X. now apply andb_prop in X.
Qed.
Lemma status_page_ok ks w os0 pid content first link : Forall plain_command ks -> stops_work w ->
  (forall d, first_of (content d) (first d)) -> (forall d, link_word (content d) (link d)) ->
  let c := clean (file_of ks) in let os1 := loaded ks w os0 in
  exists v, status_all w pid content (service ks w os0 []) = (status_page (network ks) os0 os1 pid first link (in_order ks), v) /\
    ((exists x, status_page (network ks) os0 os1 pid first link (in_order ks) = inl x) -> St c os0 os1 (flat_map (looks c) (in_order ks)) v).
Proof.
  intros P K F L c os1. destruct (file_ok ks P) as (W & T & Cm & Wf & N).
  destruct (page_ok c W T Cm os0 w pid content first link F L os1 (files_there ks w os0 P K) (service ks w os0 [])) as (v & Q & S).
  - split; [apply (service_inv ks w os0 [] P K); constructor|]. intros x. reflexivity.
  - rewrite <- (order_ok ks P). fold c. exists v. change (net_of (file_of ks)) with (network ks) in N. fold c in N.
    rewrite <- (page_eq _ _ N). split; [exact Q|exact S].
Qed.

(** C72.  pnetworking status writes the path of the configuration and the page
    of the network: the devices in the order in which they were added, with
    what works, as it worked when the command began; or it fails with what one
    of the devices raises, and writes nothing of the others. *)
Theorem C72_status ks w os0 pid content first link path : Forall plain_command ks -> stops_work w ->
  (forall d, first_of (content d) (first d)) -> (forall d, link_word (content d) (link d)) ->
  let head := [10%Z] ++ lit "Configuration: " ++ path in
  fst (status_run ks w os0 pid content path) =
  match status_page (network ks) os0 (loaded ks w os0) pid first link (in_order ks) with
  | inl page => ([head; page], None)
  | inr e => ([head], Some e)
  end.
Proof.
  intros P K F L head. destruct (status_page_ok ks w os0 pid content first link P K F L) as (v & Q & _).
  unfold status_run, run_status, cmd_status. change (vs_new (Some (runs ks config_empty)) w os0) with (service ks w os0 []). rewrite Q.
  destruct (status_page _ _ _ _ _ _ _); reflexivity.
Qed.
Print Assumptions C72_status.

(** C72.  The devices of the page are those of the network, each once. *)
Theorem C72_each_once ks : Forall plain_command ks ->
  NoDup (in_order ks) /\ forall d, In d (in_order ks) <-> t_dev (network ks) d <> None.
Proof.
  intros P. destruct (file_ok ks P) as (W & T & Cm & Wf & N). rewrite <- (order_ok ks P). split; [apply W|]. intros d.
  rewrite <- dev_in. rewrite (proj1 N). reflexivity.
Qed.
Print Assumptions C72_each_once.

(** C72.  A page that is written leaves every device that works alone, and
    deletes the run files of every other. *)
Theorem C72_effect ks w os0 pid content first link path page : Forall plain_command ks -> stops_work w ->
  (forall d, first_of (content d) (first d)) -> (forall d, link_word (content d) (link d)) ->
  let n := network ks in let os1 := loaded ks w os0 in
  status_page n os0 os1 pid first link (in_order ks) = inl page ->
  forall d, s_os (vs_dst (snd (status_run ks w os0 pid content path))) d =
    match t_dev n d with
    | Some _ => if in_use n os0 d then os1 d else Osd false (o_alive (os1 d))
    | None => os1 d
    end.
Proof.
  intros P K F L n os1 Q0 d. destruct (file_ok ks P) as (W & T & Cm & Wf & N). destruct (status_page_ok ks w os0 pid content first link P K F L) as (v & Q & S).
  fold n os1 in Q, S. rewrite Q0 in Q, S. specialize (S (ex_intro _ page eq_refl)). destruct S as [_ S].
  unfold status_run, run_status, cmd_status. change (vs_new (Some (runs ks config_empty)) w os0) with (service ks w os0 []). rewrite Q. cbn [snd].
  rewrite S. change (net_of (file_of ks)) with n in N. rewrite (in_use_eq _ _ N). rewrite <- (proj1 N).
  assert (M : smem (flat_map (looks (clean (file_of ks))) (in_order ks)) d = match t_dev (net_of (clean (file_of ks))) d with Some _ => true | None => false end).
  { unfold smem. destruct (in_dec eq_dec d _) as [Y|Y].
    - apply in_flat_map in Y as (x & Hx & Y). destruct (t_dev (net_of (clean (file_of ks))) d) eqn:D; [reflexivity|]. exfalso.
      apply in_app_iff in Y as [Y|[<-|[]]].
      + destruct (iface _ x); [|destruct Y]. destruct (t_conn _ x) as [a|] eqn:Ca; [|destruct Y]. destruct (managed _ a); [|destruct Y]. destruct Y as [->|[]].
        destruct (conn_access _ W x d Ca) as (_ & Hd & _). cbn [net_of t_dev] in D. apply dhas_true in Hd as [t Hd]. rewrite Hd in D. discriminate.
      + rewrite <- (order_ok ks P) in Hx. apply dev_in in Hx. congruence.
    - destruct (t_dev (net_of (clean (file_of ks))) d) eqn:D; [|reflexivity]. exfalso. apply Y, in_flat_map. exists d. split.
      + rewrite <- (order_ok ks P). apply dev_in. congruence.
      + apply in_or_app. right. now left. }
  rewrite M. destruct (t_dev _ d); [|reflexivity]. destruct (in_use n os0 d); reflexivity.
Qed.
Print Assumptions C72_effect.

(** C72, refuted: one device does not spoil the page of the others.  A switch
    added with a port that is no number (pnetworking takes any word) makes
    every page fail, and nothing is shown of any device. *)
Lemma blocks_fail n os0 os1 pid first link : forall ds e d, In d ds -> (forall e, exists x, block n os0 os1 pid first link e d = inr x) ->
  exists x, blocks n os0 os1 pid first link e ds = inr x.
Proof.
  induction ds as [|y ds IH]; intros e d H B; [destruct H|]. cbn [blocks]. destruct (block n os0 os1 pid first link e y) as [t|x] eqn:Q; [|cbn; eauto]. cbn [then_].
  destruct H as [->|H]; [destruct (B e); congruence|]. destruct (IH (e ++ [y]) d H B) as (x & ->). cbn. eauto.
Qed.
Theorem C72_bad_port_refuted ks w os0 pid content path d s p e : Forall plain_command ks -> stops_work w ->
  t_dev (network ks) d = Some (lit "switch", s) -> managed (network ks) d = false ->
  option_of (network ks) d (lit "tcp_port") = Some p -> parse_int p = Raise e ->
  exists x, fst (status_run ks w os0 pid content path) = ([[10%Z] ++ lit "Configuration: " ++ path], Some x).
Proof.
  intros P K D M Op Pe.
  assert (F : forall d, first_of (content d) (first_line (content d))) by (intro; apply first_of_some).
  set (link := fun d => if contains (lit "disconnected") (lower (content d)) then lit "Failed" else if contains (lit "connected") (lower (content d)) then lit "Live" else lit "Unknown").
  assert (L : forall d, link_word (content d) (link d)).
  { intros y. unfold link, link_word. rewrite <- !contains_occurs. destruct (contains (lit "disconnected") _); [left; auto|]. right.
    destruct (contains (lit "connected") _); [left|right]; repeat split; auto; discriminate. }
  rewrite (C72_status ks w os0 pid content _ link path P K F L).
  assert (B : exists x, blocks (network ks) os0 (loaded ks w os0) pid (fun d => first_line (content d)) link [] (in_order ks) = inr x).
  { apply (blocks_fail _ _ _ _ _ _ _ _ d); [apply C72_each_once; [exact P|congruence]|]. intros er. unfold block. rewrite D, eqb_refl. unfold access_place, place_ap. rewrite Op.
    destruct (option_of (network ks) d (lit "physical_connection_type")) as [ty|] eqn:Ty; [|cbn; eauto]. unfold managed in M. rewrite Ty in M.
    destruct (eqb ty (lit "managed")) eqn:X; [apply eqb_t in X; subst ty; discriminate|]. rewrite Pe. cbn. eauto. }
  unfold status_page. destruct B as (x & ->). cbn [then_]. eauto.
Qed.
Print Assumptions C72_bad_port_refuted.

(** C72, refuted: the page of one device, and the page of the routes, can be
    asked for.  Both commands always fail with a NameError, whatever the
    network; the second has then written the text of a method. *)
Theorem C72_one_device_refuted ks w os0 pid content path d : d <> [] ->
  fst (run_status w pid content path (Some d) (runs ks config_empty) os0) = ([[10%Z] ++ lit "Configuration: " ++ path], Some (VPy NameError)).
Proof. destruct d as [|x d]; [congruence|reflexivity]. Qed.
Print Assumptions C72_one_device_refuted.
(** the page of the routes, which no command shows *)
Theorem C72_routes ks w os0 : Forall plain_command ks -> stops_work w ->
  fst (routes_text (service ks w os0 [])) = inl ([10%Z] ++ lit "Playground Routing:" ++ [10%Z] ++ lit "-------------------------------------" ++ [10; 10]%Z ++
    concat (map (fun p => [9%Z] ++ fst p ++ lit " -> " ++ snd p ++ [10%Z]) (t_routes (network ks))) ++ [10%Z]).
Proof.
  intros P K. destruct (file_ok ks P) as (W & T & Cm & Wf & N). unfold routes_text. rewrite (conf_ok (clean (file_of ks)) os0 _ (service_inv ks w os0 [] P K (Forall_nil _))). reflexivity.
Qed.
Print Assumptions C72_routes.
(** C72, refuted likewise for the page of the routes (pnetworking routes) *)
Theorem C72_routes_command_refuted method v : fst (cmd_routes method v) = ([method], Some (VPy NameError)).
Proof. reflexivity. Qed.
Print Assumptions C72_routes_command_refuted.

(** C72, refuted: asking changes nothing.  A VNIC whose process runs without a
    working access point is shown as Waiting once; its run files are deleted,
    and the next page shows it as Disabled, whatever became of the process. *)
Theorem C72_second_refuted ks w os0 pid content first link path page d : Forall plain_command ks -> stops_work w ->
  (forall d, first_of (content d) (first d)) -> (forall d, link_word (content d) (link d)) ->
  let n := network ks in let os1 := loaded ks w os0 in
  status_page n os0 os1 pid first link (in_order ks) = inl page ->
  iface n d = true -> works n os0 d = false -> runs_at os0 d = true ->
  let os2 := s_os (vs_dst (snd (status_run ks w os0 pid content path))) in
  word n os0 d = lit "Waiting" /\ word n os2 d = lit "Disabled" /\ o_alive (os2 d) = o_alive (os1 d).
Proof.
  intros P K F L n os1 Q I Wk R os2.
  assert (E : os2 d = Osd false (o_alive (os1 d))).
  { unfold os2. rewrite (C72_effect ks w os0 pid content first link path page P K F L Q d). fold n os1. unfold in_use. rewrite I, Wk.
    unfold iface in I. destruct (t_dev n d); [reflexivity|discriminate]. }
  assert (R2 : runs_at os2 d = false) by (unfold runs_at; rewrite E; reflexivity).
  unfold word, in_use. rewrite I, Wk, R, R2. cbn [andb].
  assert (W2 : works n os2 d = false) by (unfold works; rewrite R2; rewrite ?andb_false_r; reflexivity).
  rewrite W2, E. repeat split.
Qed.
Print Assumptions C72_second_refuted.

(** C72.  The page is written whenever the ports are numbers: those given to
    access points that pnetworking does not manage, and the first lines that
    managed ones that run have written. *)
Theorem C72_written ks w os0 pid content first link path : Forall plain_command ks -> stops_work w ->
  (forall d, first_of (content d) (first d)) -> (forall d, link_word (content d) (link d)) ->
  let n := network ks in
  (forall d, PnmsSpec.access n d = true -> managed n d = true -> runs_at os0 d = true -> exists z, parse_int (first d) = Ok z) ->
  (forall d p, PnmsSpec.access n d = true -> managed n d = false -> option_of n d (lit "tcp_port") = Some p -> exists z, parse_int p = Ok z) ->
  exists page, fst (status_run ks w os0 pid content path) = ([[10%Z] ++ lit "Configuration: " ++ path; page], None).
Proof.
  intros P K F L n M1 M2. rewrite (C72_status ks w os0 pid content first link path P K F L). fold n.
  destruct (file_ok ks P) as (W & T & Cm & Wf & N). change (net_of (file_of ks)) with n in N.
  assert (Cn : net_complete n) by (eapply net_complete_eq; [|exact Cm]; destruct N as (N1 & N2 & N3); repeat split; intros; symmetry; auto).
  assert (Pl : forall d, PnmsSpec.access n d = true -> exists l, access_place n os0 first d = inl l).
  { intros d A. destruct (proj2 (Cn d) A) as (t & Ht & Hp & _). unfold access_place, place_ap. rewrite Ht. destruct (eqb t (lit "managed")) eqn:Q.
    - apply eqb_t in Q. subst t. unfold place. destruct (runs_at os0 d) eqn:R; [|eauto]. destruct (M1 d A) as (z & ->); [unfold managed; rewrite Ht; apply eqb_refl|exact R|eauto].
    - assert (Mf : managed n d = false). { unfold managed. rewrite Ht. destruct (eqb (Some t) (Some (lit "managed"))) eqn:Z; [|reflexivity]. apply eqb_t in Z. injection Z as ->. rewrite eqb_refl in Q. discriminate. }
      apply eqb_f in Q. destruct (Hp Q) as (p & Ep). rewrite Ep. destruct (M2 d p A Mf Ep) as (z & ->). eauto. }
  assert (Bl : forall e d, t_dev n d <> None -> exists x, block n os0 (loaded ks w os0) pid first link e d = inl x).
  { intros e d D. unfold block. destruct (t_dev n d) as [[t s]|] eqn:Ed; [|congruence]. destruct (eqb t (lit "switch")) eqn:Q1.
    - destruct (Pl d) as (l & ->); [|cbn; eauto]. unfold PnmsSpec.access. rewrite Ed. now rewrite Q1.
    - destruct (eqb t (lit "vnic")) eqn:Q2; [|eauto]. assert (I : iface n d = true) by (unfold iface; now rewrite Ed).
      destruct (proj1 (Cn d) I) as (ad & ->). destruct (t_conn n d) as [a|] eqn:Ca; [|cbn; eauto].
      assert (A : PnmsSpec.access n a = true).
      { rewrite <- (access_eq _ _ a N). rewrite <- (proj1 (proj2 N)) in Ca. apply (conn_access _ W d a Ca). }
      destruct (Pl a A) as (l & ->). cbn. eauto. }
  assert (Bs : forall ds e, (forall d, In d ds -> t_dev n d <> None) -> exists x, blocks n os0 (loaded ks w os0) pid first link e ds = inl x).
  { induction ds as [|d ds IH]; intros e H; [cbn; eauto|]. cbn [blocks]. destruct (Bl e d) as (x & ->); [apply H; now left|]. cbn [then_].
    destruct (IH (e ++ [d])) as (y & ->); [intros q Hq; apply H; now right|]. cbn. eauto. }
  unfold status_page. destruct (Bs (in_order ks) []) as (x & ->); [intros d; apply C72_each_once; exact P|]. cbn [then_]. eauto.
Qed.
Print Assumptions C72_written.

(** ** Examples *)
Definition row (s : string) : pystr := lit s ++ [10%Z].
Definition tabs (s : string) : pystr := 9%Z :: lit s ++ [10%Z].
Definition ex_pid : pystr -> Z := fun d => if eqb d (lit "v1") then 77%Z else 88%Z.
Definition ex_content : pystr -> pystr := fun d => if eqb d (lit "hub") then row "5001" ++ row "x" else if eqb d (lit "v2") then row "Disconnected" else row "connected".
Definition ex_first : pystr -> pystr := fun d => if eqb d (lit "hub") then row "5001" else ex_content d.
Definition ex_link : pystr -> pystr := fun d => if eqb d (lit "hub") then lit "Unknown" else if eqb d (lit "v2") then lit "Failed" else lit "Live".
Lemma row_first s : ~ In 10%Z (lit s) -> first_of (row s) (row s).
Proof. intros H. left. exists (lit s), []. unfold row. rewrite app_nil_r. repeat split; exact H. Qed.
Example C72_ex_hyps : Forall plain_command ex_net /\ stops_work ex_w /\
  (forall d, first_of (ex_content d) (ex_first d)) /\ (forall d, link_word (ex_content d) (ex_link d)).
Proof.
  destruct C70_ex_hyps as (A & B & _). split; [exact A|split; [exact B|split]].
  - intros d. unfold ex_first. unfold ex_content. destruct (eqb d (lit "hub")).
    + left. exists (lit "5001"), (row "x"). split; [reflexivity|split; [reflexivity|]]. intros H. vm_compute in H. repeat (destruct H as [H|H]; [discriminate|]). exact H.
    + destruct (eqb d (lit "v2")); apply row_first; intros H; vm_compute in H; repeat (destruct H as [H|H]; [discriminate|]); exact H.
  - intros d. unfold link_word. rewrite <- !contains_occurs. unfold ex_content, ex_link.
    destruct (eqb d (lit "hub")); [|destruct (eqb d (lit "v2"))]; vm_compute;
      [right; right|left|right; left]; repeat split; try discriminate; intros H; discriminate.
Qed.
Example C72_ex_page : fst (status_run ex_net ex_w all_up ex_pid ex_content (lit "/p")) =
  ([[10%Z] ++ lit "Configuration: /p";
    [10%Z] ++ row "Playground Networking Configuration:" ++ row "-------------------------------------" ++ [10%Z] ++
    row "switch hub:" ++ tabs "Status: Enabled (PID: 88)" ++ tabs "Auto-Enable: True" ++ tabs "PNMS Managed: True" ++ tabs "TCP Location: 127.0.0.1:5001" ++ [10%Z] ++
    row "switch far:" ++ tabs "Status: Enabled (PID: 88)" ++ tabs "Auto-Enable: True" ++ tabs "PNMS Managed: False" ++ tabs "TCP Location: 10.0.0.1:9090" ++ [10%Z] ++
    row "vnic v1:" ++ tabs "Status: Enabled (PID: 77)" ++ tabs "Auto-Enable: True" ++ tabs "Playground Address: 1.2.3.4" ++ tabs "Connected To: hub (127.0.0.1:5001) (Live)" ++ tabs "Routes:" ++ [9%Z] ++ tabs "1.*.*.*" ++ [10%Z] ++
    row "vnic v2:" ++ tabs "Status: Enabled (PID: 88)" ++ tabs "Auto-Enable: True" ++ tabs "Playground Address: 7.7.7.07" ++ tabs "Connected To: far (10.0.0.1:9090) (Failed)" ++ tabs "Routes:" ++ [9%Z] ++ tabs "__default__" ++ [10%Z] ++
    row "vnic v3:" ++ tabs "Status: Waiting " ++ tabs "Auto-Enable: True" ++ tabs "Playground Address: 1.2.3.4" ++ tabs "Connected To: None (Disabled)" ++ tabs "Routes:" ++ [10%Z]], None).
Proof. vm_compute. reflexivity. Qed.
(** the VNIC v3, which was stopped when the configuration was loaded, and is shown as Waiting all the same *)
Example C72_ex_second : let os1 := loaded ex_net ex_w all_up in let os2 := s_os (vs_dst (snd (status_run ex_net ex_w all_up ex_pid ex_content (lit "/p")))) in
  (exists page, status_page (network ex_net) all_up os1 ex_pid ex_first ex_link (in_order ex_net) = inl page) /\
  iface (network ex_net) (lit "v3") = true /\ works (network ex_net) all_up (lit "v3") = false /\ runs_at all_up (lit "v3") = true /\
  word (network ex_net) os2 (lit "v3") = lit "Disabled" /\ os2 (lit "v3") = Osd false false.
Proof. split; [eexists; vm_compute; reflexivity|]. vm_compute. repeat split. Qed.
(** a switch with a port that is no number *)
Example C72_ex_bad : let ks := ex_net ++ [CAdd (lit "bad") (lit "switch") [lit "remote"; lit "h"; lit "port"]] in
  t_dev (network ks) (lit "bad") <> None /\ managed (network ks) (lit "bad") = false /\
  option_of (network ks) (lit "bad") (lit "tcp_port") = Some (lit "port") /\ parse_int (lit "port") = Raise ValueError /\
  fst (status_run ks ex_w all_up ex_pid ex_content (lit "/p")) = ([[10%Z] ++ lit "Configuration: /p"], Some (VPy ValueError)).
Proof. vm_compute. repeat split. discriminate. Qed.
Example C72_ex_order : in_order (ex_net ++ [CRemove (lit "far")]) = [lit "hub"; lit "v1"; lit "v2"; lit "v3"].
Proof. vm_compute. reflexivity. Qed.
Example C72_ex_written : let n := network ex_net in
  (forall d, PnmsSpec.access n d = true -> managed n d = true -> runs_at all_up d = true -> exists z, parse_int (ex_first d) = Ok z) /\
  (forall d p, PnmsSpec.access n d = true -> managed n d = false -> option_of n d (lit "tcp_port") = Some p -> exists z, parse_int p = Ok z).
Proof.
  intros n. assert (A : forall d, PnmsSpec.access n d = true -> In d [lit "hub"; lit "far"; lit "v1"; lit "v2"; lit "v3"]).
  { intros d H. replace [lit "hub"; lit "far"; lit "v1"; lit "v2"; lit "v3"] with (in_order ex_net) by (vm_compute; reflexivity). apply C72_each_once; [apply C70_ex_hyps|].
    unfold PnmsSpec.access in H. fold n. destruct (t_dev n d); [intros X; discriminate X|discriminate H]. }
  split.
  - intros d H M _. pose proof (A d H) as I. repeat (destruct I as [<-|I]; [vm_compute in H, M; first [discriminate H|discriminate M|eexists; vm_compute; reflexivity]|]). destruct I.
  - intros d p H M O. pose proof (A d H) as I. repeat (destruct I as [<-|I]; [vm_compute in H, M; first [discriminate H|discriminate M|vm_compute in O; injection O as <-; eexists; vm_compute; reflexivity]|]). destruct I.
Qed.

