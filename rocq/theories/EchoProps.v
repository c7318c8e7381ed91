(** * C68: the echo programs *)
From Coq Require Import String.
From Coq Require Import List ZArith Bool Lia.
From Verif Require Import PyBase PyLemmas Utf8Model Utf8Proofs StreamModel StreamProofs AddrModel PacketModel PacketSpec PacketTags PacketExec PacketRound PacketDeser PacketProps EchoModel EchoSpec EchoProofs.
Import ListNotations.
Open Scope Z_scope.

Lemma callbacks_map (ms : list pystr) : callbacks (map (fun m => ACall (Some m)) ms) = map Some ms.
Proof. induction ms as [|m ms IH]; [reflexivity|]. cbn [map callbacks flat_map app] in *. f_equal. exact IH. Qed.
Lemma no_raise_calls (ms : list pystr) : no_raise (map (fun m => ACall (Some m)) ms).
Proof. intros e H. apply in_map_iff in H as (m & X & _). discriminate. Qed.
Lemma no_raise_sout E c its : no_raise (flat_map (sout E c) its).
Proof.
  intros e H. apply in_flat_map in H as ([[] m] & _ & H); unfold sout in H; cbn [fst snd] in H.
  - destruct (is_quit m); cbn in H; intuition discriminate.
  - cbn in H. intuition discriminate.
Qed.
Lemma closes_app a b : closes (a ++ b) = (closes a + closes b)%nat.
Proof. unfold closes. now rewrite filter_app, app_length. Qed.
Lemma closes_none E c (ms : list pystr) : ~ In the_quit ms -> closes (flat_map (sout E c) (ups ms)) = 0%nat.
Proof.
  induction ms as [|m ms IH]; intro N; [reflexivity|]. unfold ups in *. cbn [map flat_map]. rewrite closes_app, IH by (intro; apply N; now right).
  unfold sout, is_quit, not_quit. cbn [fst snd]. destruct (list_eq_dec Z.eq_dec m the_quit) as [->|]; [exfalso; apply N; now left|reflexivity].
Qed.
Lemma filter_id (ms : list pystr) : ~ In the_quit ms -> filter not_quit ms = ms.
Proof.
  induction ms as [|m ms IH]; intro N; [reflexivity|]. cbn [filter]. unfold not_quit at 1. destruct (list_eq_dec Z.eq_dec m the_quit) as [->|]; [exfalso; apply N; now left|].
  f_equal. apply IH. intro; apply N; now right.
Qed.

Ltac ascii := unfold is_ascii; apply Forall_forall; let x := fresh in let H := fresh in intros x H; vm_compute in H; repeat (destruct H as [H|H]; [subst; lia|]); destruct H.
Lemma quit_ok : message_ok the_quit.
Proof. split; [ascii|vm_compute; reflexivity]. Qed.

(** A client and the server, whatever the user sends (messages of C15's kind),
    however the bytes are cut and whenever they are delivered: the client's
    callback has got the messages in the order they were sent, each once, none
    changed; no data_received call raised. *)
Theorem C68_echoed_in_order_once :
  forall (E : env) (c depth : nat) (os : list sop), echo_registered E c -> (0 < depth)%nat -> Forall message_ok (user_sent os) ->
  let y := sys_run E c depth os in
  prefix (callbacks (y_clog y)) (map Some (filter not_quit (user_sent os))) /\ no_raise (y_slog y) /\ no_raise (y_clog y).
Proof.
  intros E c depth os reg Dp F y. destruct (inv_run E c depth reg Dp os _ _ F F (inv_start E c depth reg Dp _ F)) as (done & todo & cd & ct & Ea & Ec & _ & _ & _ & _ & SL & CL).
  fold (sys_run E c depth os) in *. fold y in SL, CL. rewrite SL, CL, callbacks_map. split; [|split; [apply no_raise_sout|apply no_raise_calls]].
  exists (map Some ct). rewrite <- map_app, <- Ec. reflexivity.
Qed.
Print Assumptions C68_echoed_in_order_once.

(** When no bytes are under way any more, every message has come back (no QUIT
    among them); and the server has not closed. *)
Theorem C68_all_echoed :
  forall (E : env) (c depth : nat) (os : list sop), echo_registered E c -> (0 < depth)%nat -> Forall message_ok (user_sent os) ->
  ~ In the_quit (user_sent os) ->
  let y := sys_run E c depth os in
  closes (y_slog y) = 0%nat /\
  (y_up y = [] -> y_down y = [] -> callbacks (y_clog y) = map Some (user_sent os)) /\
  (let os' := os ++ [ToServer (length (y_up y))] in let y1 := sys_run E c depth os' in
   callbacks (y_clog (sys_run E c depth (os' ++ [ToClient (length (y_down y1))]))) = map Some (user_sent os)).
Proof.
  intros E c depth os reg Dp F NQ.
  assert (G : forall os, user_sent os = user_sent os -> Forall message_ok (user_sent os) -> ~ In the_quit (user_sent os) ->
    closes (y_slog (sys_run E c depth os)) = 0%nat /\
    (y_up (sys_run E c depth os) = [] -> y_down (sys_run E c depth os) = [] -> callbacks (y_clog (sys_run E c depth os)) = map Some (user_sent os))).
  { clear os F NQ. intros os _ F NQ. destruct (inv_run E c depth reg Dp os _ _ F F (inv_start E c depth reg Dp _ F)) as (done & todo & cd & ct & Ea & Ec & _ & D & _ & DC & SL & CL).
    fold (sys_run E c depth os) in *. set (y := sys_run E c depth os) in *.
    assert (Nd : ~ In the_quit done) by (intro H; apply NQ; rewrite Ea; apply in_or_app; now left).
    split; [rewrite SL; apply closes_none, Nd|]. intros U W. rewrite U, W in *. cbn [app] in *.
    destruct D as [D|D]; [|contradiction]. change (concat (map (wire E c) (ups []))) with (@nil Z) in D.
    apply drained_nil in D. unfold ups in D. apply map_eq_nil in D. subst todo.
    change (concat (map (wire E c) (downs []))) with (@nil Z) in DC. apply drained_nil in DC. apply map_eq_nil in DC. subst ct.
    rewrite app_nil_r in Ec. rewrite CL, callbacks_map, <- Ec, filter_id by exact NQ. reflexivity. }
  intro y. destruct (G os eq_refl F NQ) as (G1 & G2). fold y in G1, G2. split; [exact G1|]. split; [exact G2|]. intros os' y1.
  assert (US : user_sent (os' ++ [ToClient (length (y_down y1))]) = user_sent os).
  { unfold os', user_sent. rewrite !flat_map_app. cbn. now rewrite !app_nil_r. }
  rewrite <- US. apply G; [reflexivity|now rewrite US|now rewrite US| |].
  - unfold sys_run. rewrite fold_left_app. fold (sys_run E c depth os'). fold y1. cbn [fold_left sys_step].
    destruct (data_received E depth c client_handle _ _ tt) as [[d u] out]. cbn [y_up].
    unfold y1, os', sys_run. rewrite fold_left_app. fold (sys_run E c depth os). fold y. cbn [fold_left sys_step].
    destruct (data_received E depth c (server_handle E c) _ _ tt) as [[d2 u2] out2]. cbn [y_up]. apply skipn_all.
  - unfold sys_run. rewrite fold_left_app. fold (sys_run E c depth os'). fold y1. cbn [fold_left sys_step].
    destruct (data_received E depth c client_handle _ _ tt) as [[d u] out]. cbn [y_down]. apply skipn_all.
Qed.
Print Assumptions C68_all_echoed.

(** The user's last message is __QUIT__: when it has been delivered, the server
    has closed, once, and has answered everything before it. *)
Theorem C68_quit :
  forall (E : env) (c depth : nat) (os : list sop) (ms : list pystr), echo_registered E c -> (0 < depth)%nat -> Forall message_ok ms ->
  user_sent os = ms ++ [the_quit] -> ~ In the_quit ms ->
  let y := sys_run E c depth os in y_up y = [] ->
  closes (y_slog y) = 1%nat /\ (y_down y = [] -> callbacks (y_clog y) = map Some ms).
Proof.
  intros E c depth os ms reg Dp Fm US NQ y U.
  assert (F : Forall message_ok (user_sent os)).
  { rewrite US. apply Forall_app. split; [exact Fm|]. constructor; [|constructor]. exact quit_ok. }
  destruct (inv_run E c depth reg Dp os _ _ F F (inv_start E c depth reg Dp _ F)) as (done & todo & cd & ct & Ea & Ec & _ & D & _ & DC & SL & CL).
  fold (sys_run E c depth os) in *. fold y in D, DC, SL, CL. rewrite U in *. cbn [app] in D. change (concat (map (wire E c) (ups []))) with (@nil Z) in D.
  assert (todo = []) as ->.
  { destruct D as [D|D]; [apply drained_nil in D; unfold ups in D; now apply map_eq_nil in D|].
    destruct todo as [|t0 todo]; [reflexivity|exfalso].
    destruct (@exists_last _ (t0 :: todo)) as (t & x & Q); [discriminate|]. rewrite Q, US, app_assoc in Ea. apply app_inj_tail in Ea as (Em & _).
    apply NQ. rewrite Em. apply in_or_app. now left. }
  rewrite app_nil_r in Ea. split.
  - rewrite SL, <- Ea, US. unfold ups. rewrite map_app, flat_map_app, closes_app. fold (ups ms). rewrite closes_none by exact NQ.
    reflexivity.
  - intro W. rewrite W in DC. cbn [app] in DC. change (concat (map (wire E c) (downs []))) with (@nil Z) in DC. apply drained_nil in DC. apply map_eq_nil in DC. subst ct.
    rewrite app_nil_r in Ec. rewrite CL, callbacks_map, <- Ec, US, filter_app, filter_id by exact NQ.
    replace (filter not_quit [the_quit]) with (@nil pystr) by (vm_compute; reflexivity). now rewrite app_nil_r.
Qed.
Print Assumptions C68_quit.

(** ** The server alone *)
(** what a server writes and how it ends when it gets [chunks] *)
Definition serve (E : env) (c depth : nat) (chunks : list bytes) : dser * list act :=
  fold_left (fun dl data => let '(d', _, out) := data_received E depth c (server_handle E c) data (fst dl) tt in (d', snd dl ++ out)) chunks (d_new E depth c, []).

(** Any mixture of packets, marked as original or not, in any segmentation:
    the packets received completely and marked as original are answered, each
    once and in order, by the same message not marked as original; the others
    are not answered. *)
Theorem C68_server_answers_originals :
  forall (E : env) (c depth : nat) (its : list (bool * pystr)) (bss : list bytes) (chunks : list bytes) (future : bytes),
  echo_registered E c -> (0 < depth)%nat -> Forall (fun i => message_ok (snd i)) its ->
  Forall2 (fun i b => serialize E (the_packet c (fst i) (snd i)) = Ok b) its bss ->
  ~ In (true, the_quit) its -> concat chunks ++ future = concat bss ->
  exists k, received bss (concat chunks) k /\
    Forall2 (fun m b => serialize E (the_packet c false m) = Ok b)
            (map snd (filter fst (firstn k its))) (writes (snd (serve E c depth chunks))) /\
    closes (snd (serve E c depth chunks)) = 0%nat /\ no_raise (snd (serve E c depth chunks)).
Proof.
  intros E c depth its bss chunks future reg Dp F W NQ Eq.
  assert (Wb : bss = map (wire E c) its).
  { clear -W. induction W as [|i b its bss Hi W IH]; [reflexivity|]. cbn [map]. f_equal; [unfold wire, pk; now rewrite Hi|exact IH]. }
  assert (Fi : Forall item_ok its) by exact F.
  pose proof (wires_eaten E c depth reg Dp its Fi) as Et.
  pose proof (expects_new E depth c _ _ Et Dp) as X. rewrite Wb in Eq. rewrite <- Eq in X.
  pose proof (server_feed E c depth reg Dp chunks future (d_new E depth c) its [] Fi X) as S.
  cbn [flat_map] in S.
  assert (D0 : drained (map (wire E c) its) (concat chunks ++ future)) by (rewrite Eq; apply (drained_first E c depth reg Dp its its Fi eq_refl)).
  specialize (S (or_introl D0)). change (fold_left _ chunks _) with (serve E c depth chunks) in S.
  destruct (serve E c depth chunks) as [d' outs]. destruct S as (k & K & -> & _ & D). cbn [app snd] in *.
  assert (NS : existsb stops (firstn k its) = false).
  { apply not_true_is_false. intro H. apply existsb_exists in H as ([o m] & Hi & St). unfold stops, is_quit, not_quit in St. cbn [fst snd] in St.
    destruct o; [|discriminate]. destruct (list_eq_dec Z.eq_dec m the_quit) as [->|]; [|discriminate]. apply NQ.
    rewrite <- (firstn_skipn k its). apply in_or_app. now left. }
  destruct D as [D|D]; [|exfalso; pose proof (eq_trans (eq_sym NS) D) as Y; discriminate Y].
  exists k. split.
  - rewrite Wb. apply (drained_received (map (wire E c) its) (concat chunks) future k).
    + now rewrite map_length.
    + exact Eq.
    + rewrite skipn_map. exact D.
  - assert (Fk : Forall item_ok (firstn k its)) by (rewrite <- (firstn_skipn k its) in Fi; apply Forall_app in Fi; tauto).
    split; [|split; [|apply no_raise_sout]].
    + assert (Gen : forall l : list (bool * pystr), Forall item_ok l -> existsb stops l = false ->
        Forall2 (fun m b => serialize E (the_packet c false m) = Ok b) (map snd (filter fst l)) (writes (flat_map (sout E c) l))); [|exact (Gen _ Fk NS)].
      clear - reg Dp. intros l Fk NS. induction l as [|[o m] l IH]; [constructor|]. cbn [existsb] in NS. apply orb_false_iff in NS as (N1 & N2).
      inversion Fk; subst. unfold writes. cbn [flat_map]. rewrite flat_map_app. fold (writes (flat_map (sout E c) l)).
      unfold stops in N1. cbn [fst snd] in N1. unfold sout at 1. cbn [fst snd filter]. destruct o; cbn [andb] in N1.
      * rewrite N1. cbn [flat_map app map]. constructor; [apply (wire_ok E c depth reg Dp (false, m)); assumption|auto].
      * cbn [flat_map app]. auto.
    + assert (Gen : forall l : list (bool * pystr), existsb stops l = false -> closes (flat_map (sout E c) l) = 0%nat); [|exact (Gen _ NS)].
      clear. intros l NS. induction l as [|[o m] l IH]; [reflexivity|]. cbn [existsb] in NS. apply orb_false_iff in NS as (N1 & N2).
      cbn [flat_map]. rewrite closes_app, IH by exact N2. unfold stops in N1. unfold sout. cbn [fst snd] in *. destruct o; cbn [andb] in N1; [rewrite N1|]; reflexivity.
Qed.
Print Assumptions C68_server_answers_originals.

(** Whatever bytes arrive in whatever state, everything the server writes is a
    packet that is not marked as original; so that a server's answers make no
    server answer. *)
Theorem C68_server_writes_only_answers :
  forall (E : env) (c depth : nat) (data : bytes) (d : dser) (b : bytes),
  let '(_, _, out) := data_received E depth c (server_handle E c) data d tt in
  In (AWrite b) out -> exists m, serialize E (echo_packet c (Some false) m) = Ok b.
Proof.
  intros E c depth data d b. unfold data_received. generalize (S (length (b_data (d_bio (d_update data d))))). generalize (d_update data d). clear. intros d0 n. revert d0.
  induction n as [|f IH]; intro d; cbn [consume]; [intros []|].
  destruct (d_step E depth c d) as [d1 [[p|e]|]]; [|apply IH|intros []].
  destruct (server_handle E c tt p) as [[[] out] v] eqn:Eh.
  assert (H : In (AWrite b) out -> exists m, serialize E (echo_packet c (Some false) m) = Ok b).
  { revert Eh. unfold server_handle. destruct (echo_view p) as [[o m]|]; [|intros [= <- <-] []].
    destruct (truthy o); [|intros [= <- <-] [X|[]]; discriminate].
    destruct (eqb m (Some quit_text)); [intros [= <- <-]; cbn; intuition discriminate|].
    destruct (serialize E (echo_packet c (Some false) m)) as [w|e] eqn:Es; intros [= <- <-]; cbn [In]; [|intuition discriminate].
    intros [X|[X|[]]]; [discriminate|]. injection X as ->. exists m. exact Es. }
  specialize (IH d1). destruct v as [| |e].
  - destruct (consume E depth c (server_handle E c) f d1 tt) as [[d2 u2] out2]. intro X. apply in_app_or in X as [X|X]; auto.
  - exact H.
  - intro X. apply in_app_or in X as [X|[X|[]]]; [auto|discriminate].
Qed.
Print Assumptions C68_server_writes_only_answers.

Theorem C68_no_ping_pong :
  forall (E : env) (c depth : nat) (ms : list pystr) (bss chunks : list bytes) (future : bytes),
  echo_registered E c -> (0 < depth)%nat -> Forall message_ok ms ->
  Forall2 (fun m b => serialize E (the_packet c false m) = Ok b) ms bss -> concat chunks ++ future = concat bss ->
  writes (snd (serve E c depth chunks)) = [] /\ closes (snd (serve E c depth chunks)) = 0%nat.
Proof.
  intros E c depth ms bss chunks future reg Dp F W Eq.
  destruct (C68_server_answers_originals E c depth (map (pair false) ms) bss chunks future reg Dp) as (k & _ & Wr & Cl & _); auto.
  - clear -F. induction F; constructor; auto.
  - clear -W. induction W; constructor; auto.
  - intro H. apply in_map_iff in H as (? & X & _). discriminate.
  - split; [|exact Cl]. replace (filter fst (firstn k (map (pair false) ms))) with (@nil (bool * pystr)) in Wr.
    + inversion Wr. reflexivity.
    + rewrite firstn_map. clear. induction (firstn k ms) as [|m l IH]; [reflexivity|exact IH].
Qed.
Print Assumptions C68_no_ping_pong.

(** ** Examples and findings *)
Definition echo_env : env :=
  Env (fun c => echo_cls)
      (fun base name ver => if eqb name echo_ident && ((v_major ver =? 1) && (v_minor ver =? 0)) then Ok (Some 0%nat) else Ok None)
      (fun c base => Nat.eqb c base).
Example C68_ex_registered : echo_registered echo_env 0.
Proof. split; [reflexivity|]. split; [reflexivity|]. split; [reflexivity|]. intros c' H. now apply Nat.eqb_eq in H. Qed.
Example C68_ex_messages : message_ok (lit "hello") /\ message_ok [] /\ message_ok the_quit.
Proof. repeat split; try (vm_compute; reflexivity); ascii. Qed.
(** a run with both directions cut into pieces *)
Definition ex_ops : list sop :=
  [Send (lit "hello"); ToServer 20; Send (lit "world"); ToServer 47; ToClient 30; Send (lit "__QUIT__"); ToServer 500; ToClient 500].
Example C68_ex_run : let y := sys_run echo_env 0 3 ex_ops in
  callbacks (y_clog y) = [Some (lit "hello"); Some (lit "world")] /\ closes (y_slog y) = 1%nat /\ y_up y = [] /\ y_down y = [].
Proof. vm_compute. auto. Qed.

(** Finding: QUIT is not the end.  The server leaves the rest of what it has
    received in its deserializer; when more arrives, it goes on answering,
    after it has closed. *)
Theorem C68_refuted_quit_is_final :
  exists os, user_sent os = [lit "__QUIT__"; lit "late"; lit "later"] /\
  (let y := sys_run echo_env 0 3 (firstn 4 os) in closes (y_slog y) = 1%nat /\ callbacks (y_clog y) = []) /\
  (let y := sys_run echo_env 0 3 os in callbacks (y_clog y) = [Some (lit "late"); Some (lit "later")]).
Proof.
  exists [Send (lit "__QUIT__"); Send (lit "late"); ToServer 500; ToClient 500; Send (lit "later"); ToServer 500; ToClient 500].
  vm_compute. auto.
Qed.
Print Assumptions C68_refuted_quit_is_final.

(** Finding: an EchoPacket without its message makes the server's
    data_received raise (the answer cannot be encoded). *)
Theorem C68_refuted_any_packet_is_handled :
  exists data, let '(_, _, out) := data_received echo_env 3 0 (server_handle echo_env 0) data (d_new echo_env 3 0) tt in
  out = [ASayGot None; ARaise PacketEncodingError].
Proof.
  exists (match enc_header echo_ident (lit "1.0") [0; 1; 0; 0; 1] with Ok b => b | Raise _ => [] end). vm_compute. reflexivity.
Qed.
Print Assumptions C68_refuted_any_packet_is_handled.

(** A packet on the wire may leave [original] unset (although no EchoPacket
    without it can be sent): neither side takes it for one of its own. *)
Theorem C68_unset_original :
  let data := match enc_header echo_ident (lit "1.0") [0; 1; 0; 1; 0; 2; 104; 105] with Ok b => b | Raise _ => [] end in
  snd (data_received echo_env 3 0 (server_handle echo_env 0) data (d_new echo_env 3 0) tt) = [ASayDrop] /\
  snd (data_received echo_env 3 0 client_handle data (d_new echo_env 3 0) tt) = [ASayDrop].
Proof. vm_compute. auto. Qed.
Print Assumptions C68_unset_original.

(** Finding: the client's close() always raises, so that it never tells the
    server to quit. *)
Theorem C68_refuted_client_close : client_close = Raise AttributeError.
Proof. reflexivity. Qed.
Print Assumptions C68_refuted_client_close.

(** Finding: a message with a character outside ASCII never comes back. *)
Theorem C68_refuted_nonascii :
  exists os, user_sent os = [[233]] /\ let y := sys_run echo_env 0 3 os in
  y_up y = [] /\ y_down y = [] /\ callbacks (y_clog y) = [] /\ no_raise (y_clog y).
Proof. exists [Send [233]; ToServer 500; ToClient 500]. vm_compute. repeat split. intros e []. Qed.
Print Assumptions C68_refuted_nonascii.

(** A line typed by the user is sent without its newline. *)
Theorem C68_typed_line :
  forall (E : env) (c : nat) (m : pystr), (forall r, m <> r ++ [10]) ->
  stdin_alert E c (m ++ [10]) = client_send E c m /\ stdin_alert E c m = client_send E c m.
Proof.
  intros E c m N. unfold stdin_alert. rewrite rev_app_distr. cbn [rev app]. rewrite rev_involutive. split; [reflexivity|].
  destruct (rev m) as [|x r] eqn:R; [reflexivity|]. assert (m = rev r ++ [x]) by (rewrite <- (rev_involutive m), R; reflexivity).
  destruct (Z.eq_dec x 10) as [->|Nx]; [destruct (N (rev r) H)|].
  replace (match x :: r with 10 :: r0 => rev r0 | _ => m end) with m; [reflexivity|].
  destruct x as [|x|x]; try reflexivity. do 4 (destruct x as [x|x|]; try reflexivity); congruence.
Qed.
Print Assumptions C68_typed_line.

(** ** The raw echo programs *)
Definition got (r : rclient) : bytes := match rc_received r with Some b => b | None => [] end.
(** However the bytes are cut and whenever they are delivered: the client has a
    prefix of what it sent; when nothing is under way any more it has all of
    it, and has closed exactly once (if it sent anything at all: a client that
    sends nothing never closes). *)
Theorem C68_raw_echo :
  forall (sent : bytes) (os : list rop), let y := raw_run sent os in
  prefix (got (r_client y)) sent /\
  (r_up y = [] -> r_down y = [] -> got (r_client y) = sent) /\
  rc_closes (r_client y) = (if list_eq_dec Z.eq_dec (got (r_client y)) sent then if sent then 0 else 1 else 0)%nat.
Proof.
  intros sent os y.
  assert (G : got (r_client y) ++ r_down y ++ r_up y = sent).
  { unfold got. exact (raw_inv sent os (raw_start sent) eq_refl). }
  split; [exists (r_down y ++ r_up y); now rewrite G|]. split; [intros U D; rewrite U, D, !app_nil_r in G; exact G|].
  unfold y, raw_run. clear y G. 
  assert (H : forall (os : list rop) z, got (r_client z) ++ r_down z ++ r_up z = sent ->
    rc_closes (r_client z) = (if list_eq_dec Z.eq_dec (got (r_client z)) sent then if sent then 0 else 1 else 0)%nat ->
    let z' := fold_left (raw_step sent) os z in
    rc_closes (r_client z') = (if list_eq_dec Z.eq_dec (got (r_client z')) sent then if sent then 0 else 1 else 0)%nat).
  { clear os. induction os as [|o os IH]; intros z G Cl; [exact Cl|]. cbn [fold_left]. apply IH.
    - unfold got. exact (raw_inv sent [o] z G).
    - destruct o as [n|n]; cbn [raw_step r_client]; [exact Cl|].
      destruct (firstn n (r_down z)) as [|x l] eqn:Fn; [exact Cl|]. cbn [r_client].
      assert (Eg : match rc_received (r_client z) with None => x :: l | Some b => b ++ x :: l end = got (r_client z) ++ x :: l)
        by (unfold got; destruct (rc_received (r_client z)); reflexivity).
      assert (Gg : got (raw_received sent (x :: l) (r_client z)) = got (r_client z) ++ x :: l) by exact Eg.
      rewrite Gg. cbn [raw_received rc_closes]. rewrite Eg. clear Eg Gg.
      rewrite <- (firstn_skipn n (r_down z)), Fn in G. set (g := got (r_client z)) in *.
      assert (Ng : g <> sent).
      { intro Q. rewrite Q in G. rewrite <- (app_nil_r sent) in G at 2. apply app_inv_head in G. discriminate. }
      destruct (list_eq_dec Z.eq_dec g sent) as [Q|_]; [contradiction|]. rewrite Cl.
      assert (Le : sent = (g ++ x :: l) ++ skipn n (r_down z) ++ r_up z) by (rewrite <- G, <- !app_assoc; reflexivity).
      destruct (Z.leb_spec (zlen sent) (zlen (g ++ x :: l))) as [L|L].
      + rewrite Le, zlen_app in L. assert (R : skipn n (r_down z) ++ r_up z = []).
        { destruct (skipn n (r_down z) ++ r_up z) as [|w t]; [reflexivity|]. rewrite zlen_cons in L. pose proof (zlen_nonneg t). lia. }
        rewrite R, app_nil_r in Le. destruct (list_eq_dec Z.eq_dec (g ++ x :: l) sent) as [_|Nq]; [|symmetry in Le; contradiction].
        destruct sent; [|reflexivity]. destruct g; discriminate.
      + destruct (list_eq_dec Z.eq_dec (g ++ x :: l) sent) as [Q|_]; [|reflexivity]. rewrite Q in L. lia. }
  apply H; [reflexivity|]. cbn [raw_start r_client rc_closes got rc_received]. destruct (list_eq_dec Z.eq_dec [] sent) as [<-|]; reflexivity.
Qed.
Print Assumptions C68_raw_echo.
Example C68_ex_raw : let y := raw_run (lit "abcdef") [RToServer 4; RToClient 3; RToServer 9; RToClient 1; RToClient 7] in
  got (r_client y) = lit "abcdef" /\ rc_closes (r_client y) = 1%nat.
Proof. vm_compute. auto. Qed.

(** *** The report *)
Lemma marks_eq d1 d2 : length d1 = length d2 -> marks (length d1) 0 d1 d2 = Ok (map (fun xy => if fst xy =? snd xy then 32 else 94) (combine d1 d2)).
Proof.
  assert (H : forall n p1 p2 r1 r2, length p1 = length p2 -> length r1 = n -> length r2 = n ->
    marks n (zlen p1) (p1 ++ r1) (p2 ++ r2) = Ok (map (fun xy => if fst xy =? snd xy then 32 else 94) (combine r1 r2))).
  { induction n as [|n IH]; intros p1 p2 r1 r2 Lp L1 L2.
    - destruct r1, r2; try discriminate. reflexivity.
    - destruct r1 as [|x r1], r2 as [|y r2]; try discriminate. cbn [marks combine map fst snd].
      assert (Z1 : zlen (p1 ++ x :: r1) = zlen p1 + 1 + zlen r1) by (rewrite zlen_app, zlen_cons; lia).
      assert (Z2 : zlen (p2 ++ y :: r2) = zlen p1 + 1 + zlen r2) by (rewrite zlen_app, zlen_cons; unfold zlen; lia).
      pose proof (zlen_nonneg r1). pose proof (zlen_nonneg r2).
      destruct (Z.ltb_spec (zlen (p1 ++ x :: r1)) (zlen p1)); [lia|]. destruct (Z.ltb_spec (zlen (p2 ++ y :: r2)) (zlen p1)); [lia|]. cbn [orb].
      unfold zlen at 1 2. rewrite Nat2Z.id. rewrite nth_error_app2, Nat.sub_diag by lia. rewrite nth_error_app2 by lia. rewrite Lp, Nat.sub_diag. cbn [nth_error bind].
      replace (zlen p1 + 1) with (zlen (p1 ++ [x])) by (rewrite zlen_app, zlen_cons, zlen_nil; lia).
      replace (p1 ++ x :: r1) with ((p1 ++ [x]) ++ r1) by (now rewrite <- app_assoc). replace (p2 ++ y :: r2) with ((p2 ++ [y]) ++ r2) by (now rewrite <- app_assoc).
      rewrite IH; [|rewrite !app_length; cbn; lia|cbn in L1; lia|cbn in L2; lia]. cbn [bind].
      f_equal. f_equal. destruct (x =? y); reflexivity. }
  intro L. apply (H (length d1) [] [] d1 d2); auto.
Qed.
Lemma marks_short d1 d2 : zlen d1 <> zlen d2 -> forall m n i, 0 <= i -> i + Z.of_nat m = Z.min (zlen d1) (zlen d2) -> (m < n)%nat -> marks n i d1 d2 = Raise IndexError.
Proof.
  intro Ne. induction m as [|m IH]; intros n i Pi Em Lt; (destruct n as [|n]; [lia|]); cbn [marks].
  - destruct (Z.ltb_spec (zlen d1) i); [lia|]. destruct (Z.ltb_spec (zlen d2) i); [lia|]. cbn [orb].
    destruct (nth_error d1 (Z.to_nat i)) eqn:N1; [|reflexivity]. destruct (nth_error d2 (Z.to_nat i)) eqn:N2; [|reflexivity]. exfalso.
    assert (nth_error d1 (Z.to_nat i) <> None) as A1 by congruence. assert (nth_error d2 (Z.to_nat i) <> None) as A2 by congruence.
    apply nth_error_Some in A1. apply nth_error_Some in A2. unfold zlen in *. lia.
  - destruct (Z.ltb_spec (zlen d1) i); [lia|]. destruct (Z.ltb_spec (zlen d2) i); [lia|]. cbn [orb].
    destruct (nth_error d1 (Z.to_nat i)); [|reflexivity]. destruct (nth_error d2 (Z.to_nat i)); [|reflexivity]. cbn [bind].
    rewrite (IH n (i + 1)) by lia. reflexivity.
Qed.

(** The report says "no errors" exactly when the client received what it sent;
    for fewer than 60 bytes a caret stands under the bytes that differ, and
    only there. *)
Theorem C68_report :
  forall (sent received : bytes), length received = length sent -> zlen sent < 60 ->
  let text := [9] ++ sent ++ [10; 9] ++ received ++ [10; 9] ++ map (fun xy => if fst xy =? snd xy then 32 else 94) (combine sent received) ++ [10] in
  raw_report sent (Some received) =
    Ok (if list_eq_dec Z.eq_dec sent received then RepNoErrors (CmpText text)
        else RepErrors (zlen received) (zlen (filter (fun xy => fst xy =? snd xy) (combine sent received))) (CmpText text)).
Proof.
  intros sent received L L60 text. unfold raw_report, compare_data.
  assert (Zl : zlen received = zlen sent) by (unfold zlen; now rewrite L). rewrite Zl, Z.max_id.
  destruct (Z.ltb_spec (zlen sent) 60); [|lia]. unfold zlen at 1. rewrite Nat2Z.id, (marks_eq sent received (eq_sym L)). cbn [bind].
  assert (Et : [9] ++ sent ++ [10] ++ [9] ++ received ++ [10] ++ [9] ++ map (fun xy => if fst xy =? snd xy then 32 else 94) (combine sent received) ++ [10] = text).
  { unfold text. cbn [app]. reflexivity. }
  rewrite Et. unfold eqb, eq_dec. destruct (EqDec_list sent received) as [Q|Q]; destruct (list_eq_dec Z.eq_dec sent received); try contradiction; [reflexivity|].
  f_equal. f_equal. unfold correct_bytes.
  assert (HC : forall n p1 p2 r1 r2, length p1 = length p2 -> length r1 = n -> length r2 = n ->
    zlen (filter (fun i => (i <? zlen (p1 ++ r1)) && match nth_error (p1 ++ r1) (Z.to_nat i), nth_error (p2 ++ r2) (Z.to_nat i) with
            Some x, Some y => x =? y | _, _ => false end) (map Z.of_nat (seq (length p1) n)))
    = zlen (filter (fun xy => fst xy =? snd xy) (combine r1 r2))).
  { clear. induction n as [|n IH]; intros p1 p2 r1 r2 Lp L1 L2.
    - destruct r1, r2; try discriminate. reflexivity.
    - destruct r1 as [|x r1], r2 as [|y r2]; try discriminate. cbn [seq map filter combine fst snd].
      rewrite Nat2Z.id. rewrite nth_error_app2, Nat.sub_diag by lia. rewrite nth_error_app2 by lia. rewrite Lp, Nat.sub_diag. cbn [nth_error].
      destruct (Z.ltb_spec (Z.of_nat (length p2)) (zlen (p1 ++ x :: r1))) as [_|Q]; [|unfold zlen in Q; rewrite app_length in Q; cbn in Q; lia].
      cbn [andb]. specialize (IH (p1 ++ [x]) (p2 ++ [y]) r1 r2). rewrite !app_length in IH. cbn [length] in IH. rewrite Nat.add_1_r, <- !app_assoc in IH. cbn [app] in IH.
      rewrite <- Lp. rewrite <- Lp in IH.
      destruct (x =? y); rewrite ?zlen_cons, IH; cbn in L1, L2; lia. }
  rewrite L. apply (HC (length sent) [] [] sent received); auto.
Qed.
Print Assumptions C68_report.
Example C68_ex_report : raw_report (lit "abcd") (Some (lit "abXd")) =
  Ok (RepErrors 4 3 (CmpText ([9] ++ lit "abcd" ++ [10; 9] ++ lit "abXd" ++ [10; 9] ++ lit "  ^ " ++ [10]))).
Proof. vm_compute. reflexivity. Qed.

(** a complete raw run ends with "no errors" *)
Theorem C68_raw_report_complete :
  forall (sent : bytes) (os : list rop), sent <> [] -> let y := raw_run sent os in
  r_up y = [] -> r_down y = [] ->
  exists t, raw_report sent (rc_received (r_client y)) = Ok (RepNoErrors t).
Proof.
  intros sent os N y U D. destruct (C68_raw_echo sent os) as (_ & A & _). fold y in A. specialize (A U D). unfold got in A.
  destruct (rc_received (r_client y)) as [b|]; [|congruence]. subst b. unfold raw_report, compare_data.
  rewrite Z.max_id. assert (Q : eqb sent sent = true) by (unfold eqb; destruct (eq_dec sent sent); congruence). rewrite Q.
  destruct (zlen sent <? 60).
  - unfold zlen. rewrite Nat2Z.id, (marks_eq sent sent eq_refl). cbn [bind]. eauto.
  - destruct (error_offsets 0 sent sent); cbn [bind]; eauto.
Qed.
Print Assumptions C68_raw_report_complete.

(** Finding: for a short message of which not all bytes came back, the report
    itself raises IndexError (10: > instead of >=). *)
Theorem C68_refuted_short_report :
  forall (sent received : bytes), zlen received <> zlen sent -> zlen sent < 60 -> zlen received < 60 ->
  raw_report sent (Some received) = Raise IndexError.
Proof.
  intros sent received Ne L1 L2. unfold raw_report, compare_data. destruct (Z.ltb_spec (Z.max (zlen sent) (zlen received)) 60); [|lia].
  rewrite (marks_short sent received (not_eq_sym Ne) (Z.to_nat (Z.min (zlen sent) (zlen received)))); [reflexivity|lia| |].
  - pose proof (zlen_nonneg sent). pose proof (zlen_nonneg received). lia.
  - pose proof (zlen_nonneg sent). pose proof (zlen_nonneg received). lia.
Qed.
Print Assumptions C68_refuted_short_report.

Lemma error_offsets_none d1 : forall d2 i, error_offsets i d1 d2 = [] <-> firstn (length d2) d1 = firstn (length d1) d2.
Proof.
  induction d1 as [|x d1 IH]; intros d2 i; cbn [error_offsets length firstn].
  - rewrite firstn_nil. tauto.
  - destruct d2 as [|y d2]; [cbn; tauto|]. cbn [length firstn]. destruct (Z.eqb_spec x y) as [->|Nq]; cbn [negb app].
    + rewrite IH. split; [intros ->; reflexivity|intros [= ->]; reflexivity].
    + split; [discriminate|intros [= X _]; contradiction].
Qed.
(** Finding: a long message that came back cut short is called an error, but
    no byte is marked. *)
Theorem C68_refuted_long_report :
  forall (sent : bytes) (n : nat), (n < length sent)%nat -> 60 <= zlen sent ->
  raw_report sent (Some (firstn n sent)) = Ok (RepErrors (Z.of_nat n) (Z.of_nat n) (CmpLongSame (firstn 5 sent, zlen sent, skipn (length sent - 5) sent)
    (let r := firstn n sent in (firstn 5 r, zlen r, skipn (length r - 5) r)))).
Proof.
  intros sent n Lt L60. cbv zeta. fold (shown sent) (shown (firstn n sent)). unfold raw_report, compare_data.
  assert (Lf : length (firstn n sent) = n) by (rewrite firstn_length; lia).
  assert (Zf : zlen (firstn n sent) = Z.of_nat n) by (unfold zlen; now rewrite Lf).
  rewrite Zf, Z.max_l by (unfold zlen; lia). destruct (Z.ltb_spec (zlen sent) 60); [lia|].
  assert (EO : error_offsets 0 sent (firstn n sent) = []).
  { apply error_offsets_none. rewrite Lf, firstn_firstn. f_equal. lia. }
  rewrite EO. cbn [bind].
  assert (Q : eqb sent (firstn n sent) = false).
  { unfold eqb. destruct (eq_dec sent (firstn n sent)) as [X|]; [|reflexivity]. exfalso. assert (length sent = n) by (rewrite X at 1; exact Lf). lia. }
  rewrite Q. f_equal. f_equal. unfold correct_bytes. rewrite Lf.
  assert (HC : forall l : list nat, (forall i, In i l -> (i < n)%nat) -> zlen (filter (fun i => (i <? zlen sent) && match nth_error sent (Z.to_nat i), nth_error (firstn n sent) (Z.to_nat i) with Some x, Some y => x =? y | _, _ => false end) (map Z.of_nat l)) = zlen l).
  { intros l Hl. induction l as [|i l IH]; [reflexivity|]. cbn [map filter].
    assert (Hi : (i < n)%nat) by (apply Hl; now left). rewrite Nat2Z.id.
    destruct (nth_error sent i) as [x|] eqn:Ni; [|apply nth_error_None in Ni; lia].
    assert (Nf : nth_error (firstn n sent) i = Some x).
    { rewrite <- (firstn_skipn n sent), nth_error_app1 in Ni by (rewrite Lf; lia). exact Ni. }
    rewrite Nf, Z.eqb_refl. destruct (Z.ltb_spec (Z.of_nat i) (zlen sent)) as [_|Q2]; [|unfold zlen in Q2; lia]. cbn [andb].
    rewrite !zlen_cons, IH; [reflexivity|]. intros j Hj. apply Hl. now right. }
  rewrite HC; [unfold zlen; now rewrite seq_length|]. intros i Hi. apply in_seq in Hi. lia.
Qed.
Print Assumptions C68_refuted_long_report.

(** *** The report on long data that differs *)
(** The positions at which the two differ *)
Definition differ (sent received : bytes) : list nat :=
  map fst (filter (fun p => negb (fst (snd p) =? snd (snd p))) (combine (seq 0 (length sent)) (combine sent received))).
(** What stands in a line in the columns of the carets *)
Definition under (carets line : bytes) : bytes := map snd (filter (fun p => fst p =? 94) (combine carets line)).
Definition elsewhere (carets line : bytes) : bytes := map snd (filter (fun p => negb (fst p =? 94)) (combine carets line)).
(** The number of positions at which they agree *)
Definition agree (sent received : bytes) : Z := zlen (filter (fun xy => fst xy =? snd xy) (combine sent received)).

Lemma correct_agree sent received : correct_bytes sent received = agree sent received.
Proof.
  unfold correct_bytes, agree.
  assert (HC : forall n p1 p2 r1 r2, length p1 = length p2 -> length r2 = n ->
    zlen (filter (fun i => (i <? zlen (p1 ++ r1)) && match nth_error (p1 ++ r1) (Z.to_nat i), nth_error (p2 ++ r2) (Z.to_nat i) with
            Some x, Some y => x =? y | _, _ => false end) (map Z.of_nat (seq (length p1) n)))
    = zlen (filter (fun xy => fst xy =? snd xy) (combine r1 r2))).
  { clear. induction n as [|n IH]; intros p1 p2 r1 r2 Lp L2.
    - destruct r2; try discriminate. destruct r1; reflexivity.
    - destruct r2 as [|y r2]; try discriminate. cbn [seq map filter]. rewrite Nat2Z.id.
      destruct r1 as [|x r1].
      + cbn [combine filter]. rewrite app_nil_r.
        assert (HN : forall l, (forall i, In i l -> (length p1 <= i)%nat) -> filter (fun i => (i <? zlen p1) && match nth_error p1 (Z.to_nat i), nth_error (p2 ++ y :: r2) (Z.to_nat i) with Some x, Some y => x =? y | _, _ => false end) (map Z.of_nat l) = []).
        { clear. induction l as [|i l IH]; intro H; [reflexivity|]. cbn [map filter].
          destruct (Z.ltb_spec (Z.of_nat i) (zlen p1)) as [Q|_]; [unfold zlen in Q; specialize (H i (or_introl eq_refl)); lia|]. cbn [andb]. apply IH. intros j Hj. apply H. now right. }
        destruct (Z.ltb_spec (Z.of_nat (length p1)) (zlen p1)) as [Q|_]; [unfold zlen in Q; lia|]. cbn [andb].
        rewrite HN; [reflexivity|]. intros i Hi. apply in_seq in Hi. lia.
      + rewrite nth_error_app2, Nat.sub_diag by lia. rewrite nth_error_app2 by lia. rewrite Lp, Nat.sub_diag. cbn [nth_error combine filter fst snd].
        destruct (Z.ltb_spec (Z.of_nat (length p2)) (zlen (p1 ++ x :: r1))) as [_|Q]; [|unfold zlen in Q; rewrite app_length in Q; cbn in Q; lia].
        cbn [andb]. specialize (IH (p1 ++ [x]) (p2 ++ [y]) r1 r2). rewrite !app_length in IH. cbn [length] in IH. rewrite Nat.add_1_r, <- !app_assoc in IH. cbn [app] in IH.
        rewrite <- Lp. rewrite <- Lp in IH.
        destruct (x =? y); rewrite ?zlen_cons, IH; cbn in L2; lia. }
  apply (HC (length received) [] [] sent received); auto.
Qed.

Lemma error_offsets_differ d1 : forall d2 k, error_offsets (Z.of_nat k) d1 d2 =
  map Z.of_nat (map fst (filter (fun p => negb (fst (snd p) =? snd (snd p))) (combine (seq k (length d1)) (combine d1 d2)))).
Proof.
  induction d1 as [|x d1 IH]; intros d2 k; [reflexivity|]. destruct d2 as [|y d2]; [destruct k; reflexivity|].
  cbn [error_offsets length seq combine filter fst snd]. replace (Z.of_nat k + 1) with (Z.of_nat (S k)) by lia. rewrite IH.
  destruct (negb (x =? y)); reflexivity.
Qed.
Lemma differ_below sent received i : In i (differ sent received) -> (i < length sent)%nat /\ (i < length received)%nat.
Proof.
  unfold differ. intro H. apply in_map_iff in H. destruct H as ([j xy] & <- & H). apply filter_In in H. destruct H as [H _]. cbn [fst].
  assert (G : forall k d1 d2, In (j, xy) (combine (seq k (length d1)) (combine d1 d2)) -> (k <= j < k + length d1)%nat /\ (j < k + length d2)%nat).
  { clear. intros k d1; revert k. induction d1 as [|x d1 IH]; intros k d2 H; [destruct H|]. destruct d2 as [|y d2]; [destruct H|].
    cbn [length seq combine In] in H. destruct H as [[= <- _]|H]; [cbn; lia|]. apply IH in H. cbn [length]. lia. }
  apply G in H. lia.
Qed.
Lemma offset_no_caret o p : Forall (fun c => c <> 94) (offset_text o p).
Proof.
  unfold offset_text. rewrite !Forall_app. split; [|split].
  - vm_compute. repeat constructor; discriminate.
  - pose proof (print_int_chars (o - p)) as F. eapply Forall_impl; [|exact F]. intros a [H|H]; [lia|]. unfold ch_minus in H. lia.
  - vm_compute. repeat constructor; discriminate.
Qed.
Lemma under_app c1 l1 c2 l2 : length c1 = length l1 -> under (c1 ++ c2) (l1 ++ l2) = under c1 l1 ++ under c2 l2 /\ elsewhere (c1 ++ c2) (l1 ++ l2) = elsewhere c1 l1 ++ elsewhere c2 l2.
Proof.
  revert l1. induction c1 as [|a c1 IH]; intros [|b l1] L; try discriminate; [split; reflexivity|]. cbn in L.
  destruct (IH l1 ltac:(lia)) as [A B]. unfold under, elsewhere in *. cbn [app combine filter fst snd]. destruct (a =? 94); cbn [negb map app snd]; rewrite ?A, ?B; auto.
Qed.
Lemma under_dots t : Forall (fun c => c <> 94) t -> under t (repeat 46 (length t)) = [] /\ elsewhere t (repeat 46 (length t)) = repeat 46 (length t).
Proof.
  induction 1 as [|a t Na F IH]; [split; reflexivity|]. destruct IH as [A B]. unfold under, elsewhere in *. cbn [length repeat combine filter fst snd].
  destruct (Z.eqb_spec a 94) as [->|_]; [contradiction|]. cbn [negb map snd]. now rewrite A, B.
Qed.
Lemma lines_spec d : forall os last, (forall o, In o os -> (o < length d)%nat) ->
  let l := error_line d last (map Z.of_nat os) in let c := caret_line last (map Z.of_nat os) in
  length l = length c /\ under c l = map (fun o => nth o d 0) os /\ Forall (fun x => x = 46) (elsewhere c l).
Proof.
  induction os as [|o os IH]; intros last H; [repeat split; constructor|]. cbn [map error_line caret_line].
  specialize (IH (Z.of_nat o) (fun o' Ho => H o' (or_intror Ho))). cbn zeta in IH. destruct IH as (L & U & W).
  assert (Lo : (o < length d)%nat) by (apply H; now left). rewrite Nat2Z.id.
  assert (E1 : firstn 1 (skipn o d) = [nth o d 0]).
  { clear -Lo. revert o Lo. induction d as [|x d IH]; intros o Lo; [cbn in Lo; lia|]. destruct o as [|o]; [reflexivity|]. cbn [skipn nth]. apply IH. cbn in Lo. lia. }
  rewrite E1. set (t := offset_text (Z.of_nat o) last).
  destruct (under_dots t (offset_no_caret _ _)) as [A B].
  destruct (under_app t (repeat 46 (length t)) ([94] ++ caret_line (Z.of_nat o) (map Z.of_nat os)) ([nth o d 0] ++ error_line d (Z.of_nat o) (map Z.of_nat os))) as [Ua Ea]; [now rewrite repeat_length|].
  destruct (under_app [94] [nth o d 0] (caret_line (Z.of_nat o) (map Z.of_nat os)) (error_line d (Z.of_nat o) (map Z.of_nat os)) eq_refl) as [Ub Eb].
  split; [rewrite !app_length, repeat_length; cbn [length]; lia|]. split.
  - rewrite Ua, A, Ub, U. reflexivity.
  - rewrite Ea, B, Eb. apply Forall_app. split; [apply Forall_forall; intros x Hx; now apply repeat_spec in Hx|exact W].
Qed.
Lemma carets_spec os : forall last, caret_line (Z.of_nat last) (map Z.of_nat os) =
  flat_map (fun p => lit "(" ++ print_int (Z.of_nat (fst p) - Z.of_nat (snd p)) ++ lit " bytes)...^") (combine os (last :: os)).
Proof.
  induction os as [|o os IH]; intro last; [reflexivity|]. cbn [map caret_line]. rewrite IH. cbn [combine flat_map fst snd].
  unfold offset_text. rewrite <- !app_assoc. reflexivity.
Qed.
Lemma differ_none a : differ a a = [].
Proof.
  unfold differ. generalize 0%nat. induction a as [|x a IH]; intro k; [reflexivity|]. cbn [length seq combine filter fst snd]. rewrite Z.eqb_refl. apply IH.
Qed.

(** With at least 60 bytes on one side and a difference, the report has three
    lines of the same length.  The third has a caret for each position where
    the two differ, with the distance from the one before; in the columns of
    the carets the first line has the bytes sent and the second those
    received, and dots everywhere else. *)
Theorem C68_long_report :
  forall (sent received : bytes), 60 <= Z.max (zlen sent) (zlen received) -> differ sent received <> [] ->
  exists l1 l2 l3,
    raw_report sent (Some received) =
      Ok (RepErrors (zlen received) (agree sent received) (CmpText ([9] ++ l1 ++ [10; 9] ++ l2 ++ [10; 9] ++ l3))) /\
    length l1 = length l3 /\ length l2 = length l3 /\
    under l3 l1 = map (fun i => nth i sent 0) (differ sent received) /\
    under l3 l2 = map (fun i => nth i received 0) (differ sent received) /\
    Forall (fun x => x = 46) (elsewhere l3 l1) /\ Forall (fun x => x = 46) (elsewhere l3 l2) /\
    l3 = flat_map (fun p => lit "(" ++ print_int (Z.of_nat (fst p) - Z.of_nat (snd p)) ++ lit " bytes)...^")
           (combine (differ sent received) (0%nat :: differ sent received)).
Proof.
  intros sent received L Nd.
  assert (EO : error_offsets 0 sent received = map Z.of_nat (differ sent received)) by exact (error_offsets_differ sent received 0).
  destruct (lines_spec sent (differ sent received) 0) as (A1 & A2 & A3); [intros o Ho; now apply differ_below in Ho|].
  destruct (lines_spec received (differ sent received) 0) as (B1 & B2 & B3); [intros o Ho; now apply differ_below in Ho|].
  exists (error_line sent 0 (map Z.of_nat (differ sent received))), (error_line received 0 (map Z.of_nat (differ sent received))), (caret_line 0 (map Z.of_nat (differ sent received))).
  split; [|repeat (split; [assumption|]); exact (carets_spec (differ sent received) 0)].
  unfold raw_report, compare_data. destruct (Z.ltb_spec (Z.max (zlen sent) (zlen received)) 60); [lia|]. rewrite EO.
  assert (Ne : sent <> received) by (intros ->; now rewrite differ_none in Nd).
  unfold eqb. destruct (eq_dec sent received); [contradiction|]. rewrite correct_agree.
  destruct (differ sent received) as [|o os]; [contradiction|]. cbn [map bind]. rewrite <- !app_assoc. reflexivity.
Qed.
Print Assumptions C68_long_report.
(** [differ] is what its name says *)
Lemma differ_spec sent received i : In i (differ sent received) <-> exists x y, nth_error sent i = Some x /\ nth_error received i = Some y /\ x <> y.
Proof.
  assert (G : forall d1 d2 k, In i (map fst (filter (fun p => negb (fst (snd p) =? snd (snd p))) (combine (seq k (length d1)) (combine d1 d2)))) <->
    exists j x y, i = (k + j)%nat /\ nth_error d1 j = Some x /\ nth_error d2 j = Some y /\ x <> y).
  { induction d1 as [|x d1 IH]; intros d2 k.
    - cbn. split; [intros []|]. intros ([|j] & x & y & _ & H & _); discriminate.
    - destruct d2 as [|y d2].
      + cbn. split; [intros []|]. intros ([|j] & x' & y & _ & _ & H & _); discriminate.
      + cbn [length seq combine filter fst snd]. split.
        * intro H. assert (Q : (x <> y /\ i = k) \/ In i (map fst (filter (fun p => negb (fst (snd p) =? snd (snd p))) (combine (seq (S k) (length d1)) (combine d1 d2))))).
          { destruct (Z.eqb_spec x y); cbn [negb map In fst] in H; [now right|]. destruct H; auto. }
          destruct Q as [[N ->]|Q]; [exists 0%nat, x, y; repeat split; auto|]. apply IH in Q. destruct Q as (j & x' & y' & -> & A & B & N). exists (S j), x', y'. repeat split; auto. lia.
        * intros (j & x' & y' & -> & A & B & N). destruct j as [|j]; cbn [nth_error] in A, B.
          -- injection A as ->. injection B as ->. destruct (Z.eqb_spec x' y'); [contradiction|]. cbn [negb map In fst]. left. lia.
          -- assert (Q : In (k + S j)%nat (map fst (filter (fun p => negb (fst (snd p) =? snd (snd p))) (combine (seq (S k) (length d1)) (combine d1 d2))))) by (apply IH; exists j, x', y'; repeat split; auto; lia).
             destruct (negb (x =? y)); [right|]; exact Q. }
  unfold differ. rewrite G. split; [intros (j & x & y & -> & H); exists x, y; exact H|]. intros (x & y & H). exists i, x, y. auto.
Qed.
Example C68_ex_long : differ (repeat 97 70) (repeat 97 12 ++ [98] ++ repeat 97 6 ++ [99] ++ repeat 97 50) = [12; 19]%nat /\
  raw_report (repeat 97 70) (Some (repeat 97 12 ++ [98] ++ repeat 97 6 ++ [99] ++ repeat 97 50)) =
    Ok (RepErrors 70 68 (CmpText ([9] ++ lit ".............a............a" ++ [10; 9] ++ lit ".............b............c" ++
                                  [10; 9] ++ lit "(12 bytes)...^(7 bytes)...^"))).
Proof. split; vm_compute; reflexivity. Qed.
