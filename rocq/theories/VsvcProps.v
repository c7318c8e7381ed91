(** * C70: how a program finds the VNIC for a connection or a server *)
From Coq Require Import String.
From Coq Require Import List ZArith Bool Lia.
From Verif Require Import PyBase PyLemmas AddrModel AddrSpec PnmsModel PnmsSpec PnmsProofs PnmsProofs2 PnmsProofs3 PnmsProps.
From Verif Require Import DeviceModel DeviceSpec DeviceProofs DeviceProofs2 DeviceProofs3 DeviceProps VsvcModel VsvcSpec VsvcProofs.
From Verif Require ConnModel ConnSpec ConnProps.
Import ListNotations.
Open Scope nat_scope.

(** A program's service: made when [os0] ran, on the configuration that the
    commands [ks] of pnetworking left; then calls were made and other programs
    changed what runs *)
Definition service (ks : list command) (w : world) (os0 : pystr -> osd) (es : list vevent) : vsvc :=
  vs_run w es (vs_new (Some (runs ks config_empty)) w os0).
Definition network (ks : list command) : net := net_of (runs ks config_empty).
(** whether the status file of d is there now *)
Definition file_now (v : vsvc) (d : pystr) : bool := o_files (s_os (vs_dst v) d).
(** what runs after a call that used the interface d: the same, but the run
    files of an interface that did not work are gone *)
Definition used (v v' : vsvc) (d : pystr) (live : bool) : Prop :=
  forall x, s_os (vs_dst v') x = (if live then s_os (vs_dst v) x else if eq_dec x d then Osd false (o_alive (s_os (vs_dst v) d)) else s_os (vs_dst v) x).

Lemma service_inv ks w os0 es : Forall plain_command ks -> stops_work w -> Forall plain_event es ->
  SInv (clean (file_of ks)) os0 (service ks w os0 es).
Proof.
  intros P K F. destruct (file_ok ks P) as (W & T & Cm & Wf & N). apply (run_inv _ W T os0 w Cm); [|exact F]. now apply vs_new_ok.
Qed.
Lemma used_look v d b : used v (after_look d b v) d b.
Proof. intros x. destruct b; [reflexivity|]. cbn. destruct (eq_dec x d); reflexivity. Qed.

(** C70. Every address has at most one choice. *)
Theorem C70_choice_unique n a x y : chosen n a x -> chosen n a y -> x = y.
Proof.
  intros H1 H2. inversion H1 as [l r d rest E N Ho A|A]; inversion H2 as [l' r' d' rest' E' N' Ho' A'|A']; subst.
  - f_equal. rewrite E in E'. assert (X : (r, d) = (r', d')); [|congruence].
    clear - E' N Ho A N' Ho' A'. revert l' E' A'. induction l as [|p l IH]; intros [|p' l'] E' A'; cbn [app] in E'.
    + congruence.
    + injection E' as <- E'. exfalso. exact (A' r d (or_introl eq_refl) N Ho).
    + injection E' as -> E'. exfalso. exact (A r' d' (or_introl eq_refl) N' Ho').
    + injection E' as <- E'. apply IH with (l' := l'); [|exact E'|].
      * intros r0 d0 I0. apply (A r0 d0). now right.
      * intros r0 d0 I0. apply (A' r0 d0). now right.
  - exfalso. apply (A' r d); auto. rewrite E. apply in_or_app. right. now left.
  - exfalso. apply (A r' d'); auto. rewrite E'. apply in_or_app. right. now left.
  - reflexivity.
Qed.
Print Assumptions C70_choice_unique.

(** C70. A connection to an address is made through the interface of the first
    route that holds it, else the one of the default route; without one it is
    refused.  The location is the interface's port on 127.0.0.1, read from its
    status file at that moment, if the interface worked when the service was
    made. *)
Theorem C70_connect ks w os0 es line a : Forall plain_command ks -> stops_work w -> Forall plain_event es -> good_routes (network ks) ->
  let v := service ks w os0 es in let n := network ks in
  exists od, chosen n a od /\
    match od with
    | None => find_connect w line (DAddr a) (lit "default") v = (inr VNoVnic, v)
    | Some d => iface n d = true /\
        fst (find_connect w line (DAddr a) (lit "default") v) = with_addr a (place (works n os0 d) (file_now v d) (line d)) /\
        used v (snd (find_connect w line (DAddr a) (lit "default") v)) d (works n os0 d)
    end.
Proof.
  intros P K F G v n. destruct (file_ok ks P) as (W & T & Cm & Wf & N). change (net_of (file_of ks)) with n in N. pose proof (service_inv ks w os0 es P K F) as I. fold v in I.
  assert (G' : good_routes (net_of (clean (file_of ks)))) by exact G.
  destruct (connect_default _ W T os0 w line v a I G') as (od & C & E & H). exists od. split; [now apply (chosen_eq _ _ _ _ N)|].
  rewrite E. destruct od as [d|]; [|reflexivity]. split; [rewrite <- (iface_eq _ _ d N); now apply H|]. unfold via. cbn [fst snd].
  rewrite (works_eq _ _ os0 d N). split; [reflexivity|apply used_look].
Qed.
Print Assumptions C70_connect.

(** C70. The destination may be a text: an address, or "localhost", which is the
    address of the default interface; that the connection then is made through
    that interface is another matter (C70_localhost_refuted).  Anything else is
    refused. *)
Theorem C70_destination ks w os0 es line s vn : Forall plain_command ks -> stops_work w -> Forall plain_event es ->
  let v := service ks w os0 es in let n := network ks in
  find_connect w line (DText s) vn v =
  match (if eqb s (lit "localhost") then match default_owner n with Some d => own_address n d | None => None end else Some s) with
  | None => (inr (VPy InvalidPlaygroundAddress), v)
  | Some t => match from_string ClsAddress t with
              | Ok a => find_connect w line (DAddr a) vn v
              | Raise e => (inr (VPy e), v)
              end
  end.
Proof.
  intros P K F v n. destruct (file_ok ks P) as (W & T & Cm & Wf & N). change (net_of (file_of ks)) with n in N. pose proof (service_inv ks w os0 es P K F) as I. fold v in I.
  destruct (eqb s (lit "localhost")) eqn:E.
  - apply eqb_t in E. subst s. rewrite (connect_localhost _ W os0 w line Cm v vn I). rewrite (owner_eq _ _ N). destruct (default_owner n) as [d|] eqn:D; [|reflexivity].
    unfold own_address. rewrite (option_eq _ _ d _ N). 
    destruct (option_of n d (lit "playground_address")) eqn:A; [reflexivity|].
    exfalso. assert (H : iface (net_of (clean (file_of ks))) d = true) by (apply (owner_iface _ W (lit "__default__")); exact D).
    destruct (proj1 (Cm d) H) as [x X]. unfold own_address in X. rewrite (option_eq _ _ d _ N) in X. congruence.
  - apply eqb_f in E. exact (connect_text _ os0 w line v s vn I E).
Qed.
Print Assumptions C70_destination.

(** C70. A call that names the device: an interface is used as it is; an access
    point is taken as well, by its settings; an unknown name is refused. *)
Theorem C70_named ks w os0 es line a d : Forall plain_command ks -> stops_work w -> Forall plain_event es -> plain d -> d <> lit "default" ->
  let v := service ks w os0 es in let n := network ks in
  (iface n d = true ->
     fst (find_connect w line (DAddr a) d v) = with_addr a (place (works n os0 d) (file_now v d) (line d)) /\
     used v (snd (find_connect w line (DAddr a) d v)) d (works n os0 d)) /\
  (PnmsSpec.access n d = true ->
     fst (find_connect w line (DAddr a) d v) = with_addr a (place_ap n d (runs_at os0 d) (file_now v d) (line d))) /\
  (t_dev n d = None -> find_connect w line (DAddr a) d v = (inr VNotReady, v)).
Proof.
  intros P K F Pd Nd v n. destruct (file_ok ks P) as (W & T & Cm & Wf & N). change (net_of (file_of ks)) with n in N. pose proof (service_inv ks w os0 es P K F) as I. fold v in I.
  destruct (connect_named _ W T os0 w line Cm v a d I Pd Nd) as (A & B & C). split; [|split]; intros H.
  - rewrite A by (rewrite (iface_eq _ _ d N); exact H). unfold via. cbn [fst snd]. rewrite (works_eq _ _ os0 d N). split; [reflexivity|apply used_look].
  - rewrite B by (rewrite (access_eq _ _ d N); exact H). cbn [fst]. now rewrite (place_ap_eq _ _ d _ _ _ N).
  - apply C. destruct N as (N & _). now rewrite N.
Qed.
Print Assumptions C70_named.

(** C70. A server is opened at the default interface, or at the first one, in
    the order of the file, whose address is the text given; none: refused.  One
    that did not work when the service was made is refused. *)
Theorem C70_listen ks w os0 es line host : Forall plain_command ks -> stops_work w -> Forall plain_event es ->
  let v := service ks w os0 es in let n := network ks in
  let answer := find_listen w line host v in
  let at_vnic d := exists t, own_address n d = Some t /\
    match from_string ClsAddress t with
    | Raise e => answer = (inr (VPy e), v)
    | Ok a => fst answer = for_server (with_addr (Some a) (place (works n os0 d) (file_now v d) (line d))) /\ used v (snd answer) d (works n os0 d)
    end in
  if eqb host (lit "default") || eqb host (lit "localhost") then
    match default_owner n with Some d => at_vnic d | None => answer = (inr VNoVnic, v) end
  else
    (exists before d after, dkeys (g_devices (runs ks config_empty)) = before ++ d :: after /\
       iface n d = true /\ own_address n d = Some host /\ (forall x, In x before -> ~ (iface n x = true /\ own_address n x = Some host)) /\ at_vnic d) \/
    ((forall x, ~ (iface n x = true /\ own_address n x = Some host)) /\ answer = (inr VNoVnic, v)).
Proof.
  intros P K F v n answer at_vnic. destruct (file_ok ks P) as (W & T & Cm & Wf & N). change (net_of (file_of ks)) with n in N. pose proof (service_inv ks w os0 es P K F) as I. fold v in I.
  assert (S : forall d, iface (net_of (clean (file_of ks))) d = true -> answer = serve (clean (file_of ks)) os0 line d v -> at_vnic d).
  { intros d H E. destruct (proj1 (Cm d) H) as [t Ht]. unfold serve in E. rewrite Ht in E. exists t. split; [unfold own_address in *; now rewrite <- (option_eq _ _ d _ N)|].
    destruct (from_string ClsAddress t) as [a|e]; [|exact E]. rewrite E. cbn [fst snd]. rewrite (works_eq _ _ os0 d N). split; [reflexivity|apply used_look]. }
  assert (GE : forall d, (iface (net_of (clean (file_of ks))) d = true /\ own_address (net_of (clean (file_of ks))) d = Some host) <-> (iface n d = true /\ own_address n d = Some host)).
  { intros d. unfold own_address. rewrite (iface_eq _ _ d N), (option_eq _ _ d _ N). reflexivity. }
  destruct (eqb host (lit "default") || eqb host (lit "localhost")) eqn:E.
  - assert (H : host = lit "default" \/ host = lit "localhost") by (apply orb_true_iff in E as [E|E]; apply eqb_t in E; auto).
    pose proof (listen_default _ W T os0 w line Cm v host I H) as L. fold answer in L. rewrite (owner_eq _ _ N) in L.
    destruct (default_owner n) as [d|] eqn:D; [|exact L]. apply S; [|exact L]. apply (owner_iface _ W (lit "__default__")). exact D.
  - apply orb_false_iff in E as [E1 E2]. apply eqb_f in E1, E2. destruct (listen_at _ W T os0 w line Cm v host I E1 E2) as [(l & d & r & Kd & A & G & L)|[A L]].
    + left. exists l, d, r. split; [exact Kd|]. pose proof (proj1 (GE d) G) as [G1 G2]. split; [exact G1|]. split; [exact G2|]. split; [|apply S; [apply G|exact L]].
      intros x Hx Gx. apply (A x Hx). now apply GE.
    + right. split; [|exact L]. intros x Gx. apply (A x). now apply GE.
Qed.
Print Assumptions C70_listen.

(** C70. Making the service starts nothing and stops nothing but the interfaces
    that run without a working access point; those it stops. *)
Theorem C70_creation ks w os0 : Forall plain_command ks -> stops_work w ->
  let v := service ks w os0 [] in let n := network ks in
  (forall d, iface n d = true -> runs_at (s_os (vs_dst v)) d = works n os0 d) /\
  (forall d, PnmsSpec.access n d = true -> runs_at (s_os (vs_dst v)) d = runs_at os0 d).
Proof.
  intros P K v n. destruct (file_ok ks P) as (W & T & Cm & Wf & N). change (net_of (file_of ks)) with n in N. destruct (vs_new_ok (file_of ks) w os0 Wf K) as [_ R]. split; intros d H.
  - rewrite <- (iface_eq _ _ d N) in H. destruct (iface_dget _ d H) as (t & E & Kt). destruct (status_iface _ os0 d t W T E Kt) as [A _].
    rewrite <- (works_eq _ _ os0 d N), <- A. apply R. apply dhas_true. eauto.
  - rewrite <- (access_eq _ _ d N) in H. destruct (access_dget _ d H) as (t & E & Kt). destruct (status_access _ os0 d t W E Kt) as [A _].
    rewrite <- A. apply R. apply dhas_true. eauto.
Qed.
Print Assumptions C70_creation.

(** C70, refuted: an interface that runs can be used.  If it did not work when
    the service was made, then whatever happens later, and however well it works
    then, connecting through it gives the location (None, None), which is taken
    for one; and its run files are deleted under it, so that pnetworking, too,
    reports it as disabled while its process goes on. *)
Theorem C70_never_notices_refuted ks w os0 es line a d : Forall plain_command ks -> stops_work w -> Forall plain_event es -> plain d -> d <> lit "default" ->
  let v := service ks w os0 es in let n := network ks in
  iface n d = true -> works n os0 d = false ->
  let p := find_connect w line (DAddr a) d v in
  fst p = inl (a, Loc None None) /\
  s_os (vs_dst (snd p)) d = Osd false (o_alive (s_os (vs_dst v) d)) /\
  forall dn w' s, good_net dn -> dhas dn d = true -> drun dn w' DStatus (s_os (vs_dst (snd p))) = (DOk, s) ->
    status_of s d = Disabled.
Proof.
  intros P K F Pd Nd v n H Nw p. destruct (C70_named ks w os0 es line a d P K F Pd Nd) as (A & _). destruct (A H) as [A1 A2]. fold n in A1, A2. rewrite Nw in A1, A2.
  split; [exact A1|]. assert (O : s_os (vs_dst (snd p)) d = Osd false (o_alive (s_os (vs_dst v) d))).
  { specialize (A2 d). destruct (eq_dec d d); [exact A2|congruence]. }
  split; [exact O|]. intros dn w' s G Hd E. assert (U : up (s_os (vs_dst (snd p))) d = false) by (unfold up; rewrite O; reflexivity).
  destruct (C51_status dn w' _ _ _ G E) as [[_ S]|[X _]]; [|discriminate]. destruct (S d Hd) as [_ S']. unfold kept in S'. rewrite U in S'. cbn [andb] in S'.
  exact S'.
Qed.
Print Assumptions C70_never_notices_refuted.

(** C70, refuted: a disabled interface makes the call fail.  All of them have one
    location, (None, None); a connection to it cannot be made; and by C55, once
    that has happened, no call through any of them ever ends. *)
Theorem C70_disabled_hang_refuted ks w os0 es line a d1 d2 (code : location -> nat) : Forall plain_command ks -> stops_work w -> Forall plain_event es ->
  let v := service ks w os0 es in let n := network ks in
  plain d1 -> d1 <> lit "default" -> iface n d1 = true -> works n os0 d1 = false ->
  plain d2 -> d2 <> lit "default" -> iface n d2 = true -> works n os0 d2 = false ->
  exists l1 l2, fst (find_connect w line (DAddr a) d1 v) = inl (a, l1) /\
    fst (find_connect w line (DAddr a) d2 (snd (find_connect w line (DAddr a) d1 v))) = inl (a, l2) /\
    forall es1 k es2 s g, (forall e, In e es1 -> ConnSpec.calls_to (code l1) e = None) ->
      ConnModel.y_run (es1 ++ ConnModel.VConnect k (code l1) :: es2) ConnModel.sys_new = Some (s, g) -> In (ConnModel.YLRaise k ConnModel.YTcp) g ->
      forall e j, In e es2 -> ConnSpec.calls_to (code l2) e = Some j -> ~ ConnSpec.ended j g.
Proof.
  intros P K F v n P1 N1 I1 W1 P2 N2 I2 W2. exists (Loc None None), (Loc None None).
  destruct (C70_never_notices_refuted ks w os0 es line a d1 P K F P1 N1 I1 W1) as [A _]. split; [exact A|].
  assert (F' : Forall plain_event (es ++ [VCall line (CConn (DAddr a) d1)])) by (apply Forall_app; split; [exact F|repeat constructor; apply P1]).
  destruct (C70_never_notices_refuted ks w os0 _ line a d2 P K F' P2 N2 I2 W2) as [B _].
  replace (service ks w os0 (es ++ [VCall line (CConn (DAddr a) d1)])) with (snd (find_connect w line (DAddr a) d1 v)) in B.
  - split; [exact B|]. intros es1 k es2 s g Q R Y. exact (ConnProps.C55_unreachable_hangs es1 k _ es2 s g Q R Y).
  - unfold v, service. clear. generalize (vs_new (Some (runs ks config_empty)) w os0). induction es as [|[os|l c] es IH]; intros v; [reflexivity|apply IH|apply IH].
Qed.
Print Assumptions C70_disabled_hang_refuted.

(** C70, refuted: without a configuration, no VNIC is found.  Every call raises a
    TypeError instead: the manager is there (CN 386), without anything in it. *)
Theorem C70_no_config_refuted w os es line a d host : plain d ->
  let v := vs_run w es (vs_new None w os) in
  fst (find_connect w line (DAddr a) d v) = inr (VPy TypeError) /\ fst (find_connect w line (DText (lit "localhost")) d v) = inr (VPy TypeError) /\
  fst (find_listen w line host v) = inr (VPy TypeError) /\ fst (find_raw w line (lit "default") v) = inr (VPy TypeError).
Proof.
  intros P v. assert (N : vs_mgr v = None).
  { unfold v. assert (G : vs_mgr (vs_new None w os) = None) by reflexivity. revert G. generalize (vs_new None w os). clear. induction es as [|[os'|l c] es IH]; intros u G; [exact G|now apply IH|]. cbn [vs_run]. apply IH.
    assert (Gt : forall x, vs_mgr (snd (vs_get w x u)) = None) by (intros x; unfold vs_get; rewrite G; exact G).
    assert (C : conf u = (inr (VPy TypeError), u)) by (unfold conf; now rewrite G).
    assert (D : forall a x, vs_mgr (snd (find_connect w l (DAddr a) x u)) = None).
    { intros a0 x. unfold find_connect. cbn [andthen ret]. destruct (eqb x (lit "default")).
      - unfold vnic_for. rewrite C. exact G.
      - cbn [andthen ret]. destruct x as [|y x]; [exact G|]. unfold vnic_location, vs_get. rewrite G. exact G. }
    destruct c as [[s|a0] x|h|x]; cbn [vs_call].
    - destruct (eqb s (lit "localhost")) eqn:E.
      + apply eqb_t in E. subst s. unfold find_connect. change (is_text (lit "localhost") (lit "localhost")) with true. unfold default_vnic. rewrite C. exact G.
      + unfold find_connect. unfold is_text. rewrite E. unfold of_res. destruct (from_string ClsAddress s) as [b|]; [|exact G]. apply (D b x).
    - apply D.
    - unfold find_listen. destruct (is_text h _ || is_text h _); [unfold default_vnic|unfold vnic_at]; rewrite C; exact G.
    - unfold find_raw. destruct (eqb x _); [|exact G]. unfold default_vnic. rewrite C. exact G. }
  assert (C : conf v = (inr (VPy TypeError), v)) by (unfold conf; now rewrite N).
  split; [|split; [|split]].
  - unfold find_connect. cbn [andthen ret]. destruct (eqb d (lit "default")); [unfold vnic_for; now rewrite C|]. cbn [andthen ret]. destruct d as [|y d]; [now destruct P as [P _]|].
    unfold vnic_location, vs_get. now rewrite N.
  - unfold find_connect. change (is_text (lit "localhost") (lit "localhost")) with true. unfold default_vnic. now rewrite C.
  - unfold find_listen. destruct (is_text host _ || is_text host _); [unfold default_vnic|unfold vnic_at]; now rewrite C.
  - unfold find_raw, default_vnic. change (eqb (lit "default") (lit "default")) with true. now rewrite C.
Qed.
Print Assumptions C70_no_config_refuted.

(** C70. A raw connection goes to the default interface; (refuted) naming another
    one raises a NameError, whatever the state. *)
Theorem C70_raw ks w os0 es line : Forall plain_command ks -> stops_work w -> Forall plain_event es ->
  let v := service ks w os0 es in let n := network ks in
  (forall d, d <> lit "default" -> forall u, fst (find_raw w line d u) = inr (VPy NameError)) /\
  match default_owner n with
  | None => fst (find_raw w line (lit "default") v) = inr VNoVnic
  | Some d => exists t, own_address n d = Some t /\
      fst (find_raw w line (lit "default") v) =
      match from_string ClsAddress t with Raise e => inr (VPy e) | Ok _ => place (works n os0 d) (file_now v d) (line d) end
  end.
Proof.
  intros P K F v n. split; [intros d N u; unfold find_raw; now rewrite eqb_no by exact N|].
  destruct (file_ok ks P) as (W & T & Cm & Wf & N). change (net_of (file_of ks)) with n in N. pose proof (service_inv ks w os0 es P K F) as I. fold v in I.
  rewrite (raw_default _ W T os0 w line Cm v I). rewrite <- (owner_eq _ _ N). destruct (default_owner (net_of (clean (file_of ks)))) as [d|] eqn:D; [|reflexivity].
  pose proof (owner_iface _ W _ _ D) as H. destruct (proj1 (Cm d) H) as [t Ht]. exists t. unfold own_address in *. rewrite <- (option_eq _ _ d _ N). split; [exact Ht|].
  rewrite Ht. destruct (from_string ClsAddress t) as [b|e]; [|reflexivity]. cbn [fst]. now rewrite (works_eq _ _ os0 d N).
Qed.
Print Assumptions C70_raw.

(** ** Examples *)
Definition ex_net : list command :=
  [CAdd (lit "hub") (lit "switch") [lit "managed"]; CAdd (lit "far") (lit "switch") [lit "remote"; lit "10.0.0.1"; lit "9090"];
   CAdd (lit "v1") (lit "vnic") [lit "1.2.3.4"]; CAdd (lit "v2") (lit "vnic") [lit "7.7.7.07"]; CAdd (lit "v3") (lit "vnic") [lit "1.2.3.4"];
   CConnect (lit "v1") (lit "hub"); CConnect (lit "v2") (lit "far");
   CRouteAdd (lit "v1") (lit "1.*.*.*"); CRouteAdd (lit "v2") (lit "default")].
Definition ex_w : world := World (fun _ => Osd true true) (fun _ => true).
Definition all_up : pystr -> osd := fun _ => Osd true true.
Definition ex_line : pystr -> pystr := fun d => if eqb d (lit "v1") then lit "5001" else lit "5002".
Definition ex_v := service ex_net ex_w all_up [].
Definition adr (a b c d : Z) : addr := Addr (Num a) (Num b) (Num c) (Num d).
Example C70_ex_hyps : Forall plain_command ex_net /\ stops_work ex_w /\ good_routes (network ex_net) /\
  works (network ex_net) all_up (lit "v1") = true /\ works (network ex_net) all_up (lit "v3") = false.
Proof.
  split; [|split; [|split]].
  - unfold ex_net. repeat (apply Forall_cons || apply Forall_nil); cbn; repeat split; try discriminate; repeat constructor; intros [A B]; vm_compute in A, B; intuition.
  - intros k. reflexivity.
  - intros r d H N. assert (E : t_routes (network ex_net) = [(lit "1.*.*.*", lit "v1"); (lit "__default__", lit "v2")]) by (vm_compute; reflexivity).
    rewrite E in H. destruct H as [[= <- <-]|[[= <- <-]|[]]]; [|exfalso; apply N; reflexivity]. eexists. vm_compute. reflexivity.
  - vm_compute. split; reflexivity.
Qed.
Example C70_ex_connect :
  fst (find_connect ex_w ex_line (DText (lit "1.9.9.9")) (lit "default") ex_v) = inl (adr 1 9 9 9, Loc (Some (lit "127.0.0.1")) (Some 5001%Z)) /\
  fst (find_connect ex_w ex_line (DText (lit "2.9.9.9")) (lit "default") ex_v) = inl (adr 2 9 9 9, Loc (Some (lit "127.0.0.1")) (Some 5002%Z)) /\
  fst (find_connect ex_w ex_line (DText (lit "2.9.9.9")) (lit "far") ex_v) = inl (adr 2 9 9 9, Loc (Some (lit "10.0.0.1")) (Some 9090%Z)) /\
  fst (find_connect ex_w ex_line (DText (lit "2.9.9.9")) (lit "v9") ex_v) = inr VNotReady /\
  fst (find_connect ex_w ex_line (DText (lit "2.9.9.9")) (lit "v3") ex_v) = inl (adr 2 9 9 9, Loc None None) /\
  fst (find_connect ex_w ex_line (DText (lit "2.9.9")) (lit "v1") ex_v) = inr (VPy InvalidPlaygroundAddress).
Proof. vm_compute. repeat split; reflexivity. Qed.
(** two interfaces with one address: the first; an address written otherwise is not found *)
Example C70_ex_listen :
  fst (find_listen ex_w ex_line (lit "default") ex_v) = inl (Some (adr 7 7 7 7), Loc (Some (lit "127.0.0.1")) (Some 5002%Z)) /\
  fst (find_listen ex_w ex_line (lit "1.2.3.4") ex_v) = inl (Some (adr 1 2 3 4), Loc (Some (lit "127.0.0.1")) (Some 5001%Z)) /\
  fst (find_listen ex_w ex_line (lit "7.7.7.7") ex_v) = inr VNoVnic /\
  fst (find_listen ex_w ex_line (lit "1.2.3.4") (service ex_net ex_w (fun _ => Osd false false) [])) = inr VBadLocation.
Proof. vm_compute. repeat split; reflexivity. Qed.

(** (Refuted: a connection to "localhost" goes through the default interface.)
    It goes where the routes send that interface's own address. *)
Theorem C70_localhost_refuted :
  let ks := [CAdd (lit "hub") (lit "switch") [lit "managed"]; CAdd (lit "v1") (lit "vnic") [lit "1.2.3.4"]; CAdd (lit "v2") (lit "vnic") [lit "1.7.7.7"];
             CConnect (lit "v1") (lit "hub"); CConnect (lit "v2") (lit "hub"); CRouteAdd (lit "v1") (lit "1.*.*.*"); CRouteAdd (lit "v2") (lit "default")] in
  let v := service ks ex_w all_up [] in
  Forall plain_command ks /\ default_owner (network ks) = Some (lit "v2") /\
  fst (find_connect ex_w ex_line (DText (lit "localhost")) (lit "default") v) = inl (adr 1 7 7 7, Loc (Some (lit "127.0.0.1")) (Some 5001%Z)) /\
  fst (find_listen ex_w ex_line (lit "localhost") v) = inl (Some (adr 1 7 7 7), Loc (Some (lit "127.0.0.1")) (Some 5002%Z)).
Proof.
  cbv zeta. split.
  - repeat (apply Forall_cons || apply Forall_nil); cbn; repeat split; try discriminate; repeat constructor; intros [A B]; vm_compute in A, B; intuition.
  - vm_compute. repeat split; reflexivity.
Qed.
