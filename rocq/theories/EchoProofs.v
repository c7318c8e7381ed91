(** * The echo programs: proofs *)
From Coq Require Import String.
From Coq Require Import List ZArith Bool Lia.
From Verif Require Import PyBase PyLemmas Utf8Model Utf8Proofs StreamModel StreamProofs AddrModel PacketModel PacketSpec PacketTags PacketExec PacketRound PacketDeser PacketProgress EchoModel EchoSpec.
Import ListNotations.
Open Scope Z_scope.

Lemma echo_inside E c (reg : echo_registered E c) (P : part -> Prop) o m :
  P (the_packet c o m, TPacket c) -> P (VScalar (SvBool o), TScalar SBool) -> P (VStr m, TString) ->
  forall y, inside E y (the_packet c o m, TPacket c) -> P y.
Proof.
  intros P0 P1 P2 y Iy. destruct reg as (Ec & _). inversion Iy as [|? z Hz Hq]; subst; [exact P0|].
  unfold the_packet in Hz. cbn [children fst snd] in Hz. rewrite Ec in Hz. cbn [c_fields set_fields In] in Hz.
  destruct Hz as [<-|[<-|[]]]; (inversion Hq as [|? z' Hz' _]; subst; [assumption|destruct Hz']).
Qed.

Lemma echo_sendable E c o m depth : echo_registered E c -> message_ok m -> (0 < depth)%nat -> sendable E depth c (the_packet c o m).
Proof.
  intros reg (A & L) Dp. assert (R := reg). destruct R as (Ec & El & Es & _).
  assert (En : encodable E (the_packet c o m, TPacket c)).
  { intros y Hy. apply (echo_inside E c reg (part_ok E) o m); [| | |exact Hy].
    - cbn [part_ok fst snd the_packet]. split; [|split].
      + unfold class_ok. rewrite Ec. cbn [c_ident c_version]. split; [eexists; split; [reflexivity|cbn; lia]|].
        split; [do 2 eexists; split; [reflexivity|split; [cbn; lia|split; [reflexivity|exact El]]]|exact Es].
      + rewrite Ec. cbn [c_fields]. unfold fields_ok. split; [reflexivity|]. split; [vm_compute; reflexivity|].
        exists [0; 1]. split; [apply process_fields_iff; vm_compute; reflexivity|repeat constructor; lia].
      + unfold the_packet. rewrite size_packet_eq. rewrite Ec. cbn [c_ident c_version c_fields fs_size wire_size].
        unfold zlen in L |- *. change (utf8_len (lit "test.EchoPacket")) with 15. change (utf8_len (lit "1.0")) with 3. lia.
    - exact Logic.I.
    - cbn [part_ok fst snd]. auto. }
  split; [exact En|]. split; [|split].
  - intros y Hy. apply (echo_inside E c reg (part_complete E) o m); [| | |exact Hy]; cbn [part_complete fst snd the_packet]; try exact Logic.I.
    rewrite Ec. cbn [c_fields required_set]. repeat split; discriminate.
  - destruct depth as [|d]; [lia|]. apply dl_packet; [exact Logic.I|]. intros y Hy.
    unfold the_packet in Hy. cbn [children fst snd] in Hy. rewrite Ec in Hy. cbn [c_fields set_fields In] in Hy.
    destruct Hy as [<-|[<-|[]]]; (apply dl_other; [cbn; tauto|intros z []]).
  - apply flat_fits; [exact En| |exact Logic.I]. intros z y Hz Hq.
    unfold the_packet in Hz. cbn [children fst snd] in Hz. rewrite Ec in Hz. cbn [c_fields set_fields In] in Hz.
    destruct Hz as [<-|[<-|[]]]; (inversion Hq as [|? z' Hz' _]; subst; [cbn; tauto|destruct Hz']).
Qed.

(** the bytes of an EchoPacket *)
Lemma echo_bytes E c o m depth : echo_registered E c -> message_ok m -> (0 < depth)%nat ->
  exists bs, serialize E (the_packet c o m) = Ok bs /\ eaten E depth c (the_packet c o m) bs.
Proof.
  intros reg M Dp. destruct (sendable_bytes E depth c _ (echo_sendable E c o m depth reg M Dp)) as (bs & Eb & Sb & _ & R).
  exists bs. split; [exact Eb|]. split; [|exact R]. intros ->. rewrite zlen_nil in Sb.
  unfold the_packet in Sb. pose proof (packet_size_ge E c c [Some (VScalar (SvBool o)); Some (VStr m)]). lia.
Qed.

(** ** Protocols that consume packets, in general *)
Section Consume.
  Context {S : Type}.
  Variables (E : env) (depth base : nat) (h : S -> val -> S * list act * verdict).
  Hypothesis Dp : (0 < depth)%nat.

  (** what the packets [ps] make the protocol do when they are at hand:
      state, actions, packets left *)
  Fixpoint go (s : S) (ps : list val) : S * list act * list val * bool :=
    match ps with
    | [] => (s, [], [], true)
    | p :: r =>
        match h s p with
        | (s1, out, Next) => let '(s2, out2, l, b) := go s1 r in (s2, out ++ out2, l, b)
        | (s1, out, Return) => (s1, out, r, false)
        | (s1, out, Throw e) => (s1, out ++ [ARaise e], r, false)
        end
    end.

  Lemma consume_go future : forall fuel d s ps bss, expects E depth base d ps bss future -> (length (unread d) < fuel)%nat ->
    exists d' k, (k <= length ps)%nat /\
      (let '(s', out, l, b) := go s (firstn k ps) in
       consume E depth base h fuel d s = (d', s', out) /\
       expects E depth base d' (l ++ skipn k ps) (skipn (length ps - length (l ++ skipn k ps)) bss) future /\
       l = [] /\
       (b = true -> drained (skipn k bss) future)).
  Proof.
    induction fuel as [|f IH]; intros d s ps bss X L; [lia|]. cbn [consume].
    destruct (expects_step E depth base d ps bss future Dp X) as [(p & ps' & bs & bss' & d' & -> & -> & S1 & X1 & L1)|(d' & S1 & X1 & D1)]; rewrite S1.
    - destruct (h s p) as [[s1 out] [| |e]] eqn:Eh.
      + destruct (IH d' s1 ps' bss' X1) as (d2 & k & K & G); [lia|]. exists d2, (Datatypes.S k). split; [cbn; lia|].
        cbn [firstn go skipn]. rewrite Eh. destruct (go s1 (firstn k ps')) as [[[s2 o2] l] b]. destruct G as (G1 & G2 & -> & G3).
        rewrite G1. split; [reflexivity|]. split; [|split; [reflexivity|exact G3]]. cbn [app] in *.
        rewrite skipn_length in G2 |- *. cbn [length].
        replace (Datatypes.S (length ps') - (length ps' - k))%nat with (Datatypes.S (length ps' - (length ps' - k))) by lia. exact G2.
      + exists d', 1%nat. split; [cbn; lia|]. cbn [firstn go skipn]. rewrite Eh. split; [reflexivity|]. split; [|split; [reflexivity|discriminate]].
        cbn [app length]. replace (Datatypes.S (length ps') - length ps')%nat with 1%nat by lia. exact X1.
      + exists d', 1%nat. split; [cbn; lia|]. cbn [firstn go skipn]. rewrite Eh. split; [reflexivity|]. split; [|split; [reflexivity|discriminate]].
        cbn [app length]. replace (Datatypes.S (length ps') - length ps')%nat with 1%nat by lia. exact X1.
    - exists d', 0%nat. split; [lia|]. cbn [firstn go skipn app]. split; [reflexivity|]. rewrite Nat.sub_diag. cbn [skipn]. auto.
  Qed.

  Lemma received_go data future d s ps bss : expects E depth base d ps bss (data ++ future) ->
    exists d' k, (k <= length ps)%nat /\
      (let '(s', out, l, b) := go s (firstn k ps) in
       data_received E depth base h data d s = (d', s', out) /\ l = [] /\
       expects E depth base d' (skipn k ps) (skipn k bss) future /\
       (b = true -> drained (skipn k bss) future)).
  Proof.
    intro X. apply expects_update in X. destruct (consume_go future (Datatypes.S (length (b_data (d_bio (d_update data d))))) _ s _ _ X) as (d' & k & K & G).
    { pose proof (unread_le (d_update data d)). lia. }
    exists d', k. split; [exact K|]. unfold data_received. destruct (go s (firstn k ps)) as [[[s' out] l] b].
    destruct G as (G1 & G2 & -> & G3). split; [exact G1|]. split; [reflexivity|]. split; [|exact G3].
    cbn [app] in G2. rewrite skipn_length in G2. replace (length ps - (length ps - k))%nat with k in G2 by lia. exact G2.
  Qed.
End Consume.

(** ** The echo server and client *)
Section Echo.
  Variables (E : env) (c depth : nat).
  Hypothesis reg : echo_registered E c.
  Hypothesis Dp : (0 < depth)%nat.

  Definition item := (bool * pystr)%type.
  Definition pk (i : item) : val := the_packet c (fst i) (snd i).
  Definition wire (i : item) : bytes := match serialize E (pk i) with Ok b => b | Raise _ => [] end.
  Definition item_ok (i : item) : Prop := message_ok (snd i).
  Lemma wire_ok i : item_ok i -> serialize E (pk i) = Ok (wire i) /\ eaten E depth c (pk i) (wire i).
  Proof.
    intro M. unfold wire, pk. destruct (echo_bytes E c (fst i) (snd i) depth reg M Dp) as (bs & Eb & Et). rewrite Eb. auto.
  Qed.
  Lemma wires_eaten its : Forall item_ok its -> Forall2 (eaten E depth c) (map pk its) (map wire its).
  Proof. induction 1 as [|i its Hi F IH]; constructor; auto. now apply wire_ok. Qed.

  Definition is_quit (m : pystr) : bool := negb (not_quit m).
  Lemma quit_eqb m : eqb (Some m) (Some quit_text) = is_quit m.
  Proof.
    unfold eqb, is_quit, not_quit. change the_quit with quit_text.
    destruct (eq_dec (Some m) (Some quit_text)) as [Q|Q]; destruct (list_eq_dec Z.eq_dec m quit_text) as [R|R]; try reflexivity; congruence.
  Qed.
  Definition sout (i : item) : list act :=
    if fst i then if is_quit (snd i) then [ASayGot (Some (snd i)); ASayQuit; AClose]
                  else [ASayGot (Some (snd i)); AWrite (wire (false, snd i))]
    else [ASayDrop].
  Definition cout (i : item) : list act := [if fst i then ASayDrop else ACall (Some (snd i))].
  Definition stops (i : item) : bool := fst i && is_quit (snd i).

  Lemma server_handle_item i u : item_ok i ->
    server_handle E c u (pk i) = (u, sout i, if stops i then Return else Next).
  Proof.
    intro M. destruct i as [o m]. unfold server_handle, pk, sout, stops. cbn [fst snd the_packet echo_view truthy andb]. destruct o; [|reflexivity].
    cbn [andb]. rewrite quit_eqb. destruct (is_quit m); [reflexivity|].
    change (echo_packet c (Some false) (Some m)) with (pk (false, m)).
    destruct (wire_ok (false, m) M) as (-> & _). reflexivity.
  Qed.
  Lemma client_handle_item i u : client_handle u (pk i) = (u, cout i, Next).
  Proof. destruct i as [[] m]; reflexivity. Qed.

  Lemma server_go its : Forall item_ok its -> forall u,
    let '(u', out, l, b) := go (server_handle E c) u (map pk its) in
    l = [] -> u' = u /\ out = flat_map sout its /\ (b = false -> existsb stops its = true).
  Proof.
    induction 1 as [|i its Hi F IH]; intro u; cbn [map go]; [auto|]. rewrite (server_handle_item i u Hi).
    destruct (stops i) eqn:St.
    - intro L. apply map_eq_nil in L. subst its. cbn [flat_map existsb]. rewrite app_nil_r, St. auto.
    - specialize (IH u). destruct (go _ u (map pk its)) as [[[u2 o2] l] b]. intro L. destruct (IH L) as (-> & -> & X).
      cbn [flat_map existsb]. rewrite St. auto.
  Qed.
  Lemma client_go its : forall u, go client_handle u (map pk its) = (u, flat_map cout its, [], true).
  Proof. induction its as [|i its IH]; intro u; cbn [map go]; [reflexivity|]. rewrite client_handle_item, IH. reflexivity. Qed.

  Lemma server_step data future d its : Forall item_ok its ->
    expects E depth c d (map pk its) (map wire its) (data ++ future) ->
    exists d' k, (k <= length its)%nat /\
      data_received E depth c (server_handle E c) data d tt = (d', tt, flat_map sout (firstn k its)) /\
      expects E depth c d' (map pk (skipn k its)) (map wire (skipn k its)) future /\
      (drained (map wire (skipn k its)) future \/ existsb stops (firstn k its) = true).
  Proof.
    intros F X. destruct (received_go E depth c (server_handle E c) Dp data future d tt _ _ X) as (d' & k & K & G).
    rewrite map_length in K. exists d', k. split; [exact K|]. rewrite firstn_map in G.
    assert (F1 : Forall item_ok (firstn k its)) by (rewrite <- (firstn_skipn k its) in F; apply Forall_app in F; tauto).
    pose proof (server_go (firstn k its) F1 tt) as SG.
    destruct (go (server_handle E c) tt (map pk (firstn k its))) as [[[u' out] l] b]. destruct G as (G1 & -> & G2 & G3).
    destruct (SG eq_refl) as (-> & -> & SB). rewrite !skipn_map in G2. rewrite skipn_map in G3.
    split; [exact G1|]. split; [exact G2|]. destruct b; auto.
  Qed.
  Lemma client_step data future d its :
    expects E depth c d (map pk its) (map wire its) (data ++ future) ->
    exists d' k, (k <= length its)%nat /\
      data_received E depth c client_handle data d tt = (d', tt, flat_map cout (firstn k its)) /\
      expects E depth c d' (map pk (skipn k its)) (map wire (skipn k its)) future /\
      drained (map wire (skipn k its)) future.
  Proof.
    intros X. destruct (received_go E depth c client_handle Dp data future d tt _ _ X) as (d' & k & K & G).
    rewrite map_length in K. exists d', k. split; [exact K|]. rewrite firstn_map, client_go in G.
    destruct G as (G1 & _ & G2 & G3). rewrite !skipn_map in G2. rewrite skipn_map in G3. auto.
  Qed.
  Lemma drained_start its : drained (map wire its) (concat (map wire its)) \/ exists i, In i its /\ wire i = [].
  Proof.
    destruct its as [|i its]; [left; reflexivity|]. cbn [map drained concat]. destruct (wire i) as [|x w] eqn:W.
    - right. exists i. split; [now left|exact W].
    - left. exists [], (x :: w). repeat split. discriminate.
  Qed.
  Lemma drained_nil (its : list item) : drained (map wire its) [] -> its = [].
  Proof.
    destruct its as [|i its]; [reflexivity|]. cbn [map drained]. intros (pre & r & N & _ & X). symmetry in X. apply app_eq_nil in X. tauto.
  Qed.

  (** *** any sequence of data_received calls *)
  Lemma server_feed chunks : forall future d its acc, Forall item_ok its ->
    expects E depth c d (map pk its) (map wire its) (concat chunks ++ future) ->
    (drained (map wire its) (concat chunks ++ future) \/ existsb stops acc = true) ->
    let '(d', outs) := fold_left (fun dl data => let '(d', _, out) := data_received E depth c (server_handle E c) data (fst dl) tt in (d', snd dl ++ out)) chunks (d, flat_map sout acc) in
    exists k, (k <= length its)%nat /\ outs = flat_map sout (acc ++ firstn k its) /\
      expects E depth c d' (map pk (skipn k its)) (map wire (skipn k its)) future /\
      (drained (map wire (skipn k its)) future \/ existsb stops (acc ++ firstn k its) = true).
  Proof.
    induction chunks as [|data chunks IH]; intros future d its acc F X D; cbn [fold_left concat app] in *.
    - exists 0%nat. cbn [firstn skipn]. rewrite app_nil_r. split; [lia|]. auto.
    - rewrite <- app_assoc in X. destruct (server_step data (concat chunks ++ future) d its F X) as (d1 & k & K & R1 & X1 & D1).
      cbn [fst snd]. rewrite R1. rewrite <- flat_map_app.
      assert (F1 : Forall item_ok (skipn k its)) by (rewrite <- (firstn_skipn k its) in F; apply Forall_app in F; tauto).
      specialize (IH future d1 (skipn k its) (acc ++ firstn k its) F1 X1).
      destruct (fold_left _ chunks _) as [d' outs]. destruct IH as (j & J & R2 & X2 & D2).
      { destruct D1 as [D1|D1]; [now left|right]. rewrite existsb_app, D1. apply orb_true_r. }
      exists (k + j)%nat. rewrite skipn_length in J. split; [lia|].
      assert (Q : firstn (k + j) its = firstn k its ++ firstn j (skipn k its)).
      { rewrite <- (firstn_skipn k its) at 1. rewrite firstn_app, firstn_firstn, firstn_length.
        replace (Nat.min (k + j) k) with k by lia. f_equal. f_equal. lia. }
      rewrite Q, app_assoc. split; [exact R2|]. rewrite PyLemmas.skipn_skipn in X2, D2. rewrite (Nat.add_comm j k) in X2, D2. auto.
  Qed.

  (** *** client and server together *)
  Definition ups (ms : list pystr) : list item := map (pair true) ms.
  Definition downs (ms : list pystr) : list item := map (pair false) (filter not_quit ms).
  Lemma ups_ok ms : Forall message_ok ms -> Forall item_ok (ups ms).
  Proof. intro F. unfold ups. induction F; constructor; auto. Qed.
  Lemma downs_ok ms : Forall message_ok ms -> Forall item_ok (downs ms).
  Proof. intro F. unfold downs. induction F as [|m ms M F IH]; cbn [filter map]; [constructor|]. destruct (not_quit m); [constructor|]; auto. Qed.
  Lemma downs_app a b : downs (a ++ b) = downs a ++ downs b.
  Proof. unfold downs. now rewrite filter_app, map_app. Qed.
  Lemma written_app a b : written (a ++ b) = written a ++ written b.
  Proof. apply flat_map_app. Qed.
  Lemma written_sout ms : written (flat_map sout (ups ms)) = concat (map wire (downs ms)).
  Proof.
    induction ms as [|m ms IH]; [reflexivity|]. unfold ups, downs in *. cbn [map flat_map filter]. rewrite written_app, IH.
    unfold sout, is_quit. cbn [fst snd]. destruct (not_quit m); cbn [negb map concat written flat_map app]; rewrite ?app_nil_r; reflexivity.
  Qed.
  Lemma send_ok m : message_ok m -> client_send E c m = Ok (wire (true, m)).
  Proof. intro M. exact (proj1 (wire_ok (true, m) M)). Qed.

  Definition inv (all : list pystr) (y : sys) (unsent : list pystr) : Prop :=
    exists done todo cdone ctodo,
      all = done ++ todo /\ filter not_quit all = cdone ++ ctodo /\
      expects E depth c (y_server y) (map pk (ups todo)) (map wire (ups todo)) (y_up y ++ concat (map wire (ups unsent))) /\
      (drained (map wire (ups todo)) (y_up y ++ concat (map wire (ups unsent))) \/ In the_quit done) /\
      expects E depth c (y_client y) (map pk (map (pair false) ctodo)) (map wire (map (pair false) ctodo)) (y_down y ++ concat (map wire (downs todo))) /\
      drained (map wire (map (pair false) ctodo)) (y_down y ++ concat (map wire (downs todo))) /\
      y_slog y = flat_map sout (ups done) /\ y_clog y = map (fun m => ACall (Some m)) cdone.

  Lemma stops_quit ms : existsb stops (ups ms) = true -> In the_quit ms.
  Proof.
    intro H. apply existsb_exists in H as ([o m] & Hi & St). unfold ups in Hi. apply in_map_iff in Hi as (m' & [= <- <-] & Hi).
    unfold stops, is_quit, not_quit in St. cbn [fst snd andb] in St. destruct (list_eq_dec Z.eq_dec m' the_quit) as [->|]; [exact Hi|discriminate].
  Qed.
  Lemma drained_first ms its : Forall item_ok its -> its = ms -> drained (map wire ms) (concat (map wire ms)).
  Proof.
    intros F ->. destruct (drained_start ms) as [D|(i & Hi & W)]; [exact D|]. rewrite Forall_forall in F.
    destruct (wire_ok i (F i Hi)) as (_ & N & _). congruence.
  Qed.
  Lemma inv_start all : Forall message_ok all -> inv all (depth1 E c depth) all.
  Proof.
    intro F. exists [], all, [], (filter not_quit all). cbn [depth1 y_server y_client y_up y_down y_slog y_clog app].
    split; [reflexivity|]. split; [reflexivity|].
    split; [apply (expects_new E depth c); [apply wires_eaten, ups_ok, F|exact Dp]|].
    split; [left; apply (drained_first _ _ (ups_ok all F) eq_refl)|].
    split; [apply (expects_new E depth c); [apply wires_eaten, downs_ok, F|exact Dp]|].
    split; [apply (drained_first _ _ (downs_ok all F) eq_refl)|]. auto.
  Qed.
  Lemma inv_step all y o os : Forall message_ok all -> Forall message_ok (user_sent (o :: os)) ->
    inv all y (user_sent (o :: os)) -> inv all (sys_step E c depth y o) (user_sent os).
  Proof.
    intros F Fu (done & todo & cdone & ctodo & Ea & Ec & X & D & XC & DC & SL & CL).
    destruct o as [m|n|n]; cbn [sys_step user_sent flat_map app] in *; fold (user_sent os) in *.
    - rewrite (send_ok m (Forall_inv Fu)).
      exists done, todo, cdone, ctodo. unfold ups in X, D. cbn [map concat] in X, D. rewrite app_assoc in X, D.
      cbn [y_server y_client y_up y_down y_slog y_clog].
      split; [exact Ea|]. split; [exact Ec|]. split; [exact X|]. split; [exact D|]. auto.
    - rewrite <- (firstn_skipn n (y_up y)), <- app_assoc in X.
      assert (Ft : Forall item_ok (ups todo)) by (apply ups_ok; rewrite Ea in F; apply Forall_app in F; tauto).
      destruct (server_step _ _ _ _ Ft X) as (d' & k & K & R & X1 & D1). rewrite R.
      cbn [y_server y_client y_up y_down y_slog y_clog].
      unfold ups in R, X1, D1, K |- *. rewrite firstn_map, skipn_map in *. rewrite map_length in K.
      exists (done ++ firstn k todo), (skipn k todo), cdone, ctodo. cbn [y_server y_client y_up y_down y_slog y_clog].
      split; [rewrite <- app_assoc, firstn_skipn; exact Ea|]. split; [exact Ec|]. split; [exact X1|].
      split; [destruct D1 as [D1|D1]; [left; exact D1|right; apply in_or_app; right; apply stops_quit, D1]|].
      fold (ups (firstn k todo)). rewrite written_sout.
      assert (Q : (y_down y ++ concat (map wire (downs (firstn k todo)))) ++ concat (map wire (downs (skipn k todo))) = y_down y ++ concat (map wire (downs todo))).
      { rewrite <- app_assoc, <- concat_app, <- map_app, <- downs_app, firstn_skipn. reflexivity. }
      rewrite Q. split; [exact XC|]. split; [exact DC|]. split; [|exact CL].
      rewrite SL. unfold ups. rewrite map_app, flat_map_app. reflexivity.
    - rewrite <- (firstn_skipn n (y_down y)), <- app_assoc in XC.
      destruct (client_step _ _ _ _ XC) as (d' & k & K & R & X1 & D1). rewrite R.
      rewrite firstn_map, skipn_map in *. rewrite map_length in K.
      exists done, todo, (cdone ++ firstn k ctodo), (skipn k ctodo). cbn [y_server y_client y_up y_down y_slog y_clog].
      split; [exact Ea|]. split; [rewrite <- app_assoc, firstn_skipn; exact Ec|]. split; [exact X|]. split; [exact D|].
      split; [exact X1|]. split; [exact D1|]. split; [exact SL|].
      rewrite CL, map_app. f_equal. clear. generalize (firstn k ctodo) as l. induction l as [|m l IH]; [reflexivity|].
      cbn [map flat_map app]. unfold cout at 1. cbn [fst snd app]. f_equal. exact IH.
  Qed.
  Lemma inv_run os : forall all y, Forall message_ok all -> Forall message_ok (user_sent os) ->
    inv all y (user_sent os) -> inv all (fold_left (sys_step E c depth) os y) [].
  Proof.
    induction os as [|o os IH]; intros all y F Fu X; [exact X|]. cbn [fold_left]. apply IH; auto.
    - destruct o; cbn [user_sent flat_map app] in Fu; [inversion Fu; assumption|assumption|assumption].
    - apply inv_step; auto.
  Qed.
End Echo.

(** ** the raw programs *)
Lemma raw_inv sent os : forall y, 
  (match rc_received (r_client y) with None => [] | Some b => b end ++ r_down y ++ r_up y = sent) ->
  let y' := fold_left (raw_step sent) os y in
  match rc_received (r_client y') with None => [] | Some b => b end ++ r_down y' ++ r_up y' = sent.
Proof.
  induction os as [|o os IH]; intros y X; [exact X|]. cbn [fold_left]. apply IH. destruct o as [n|n]; cbn [raw_step r_client r_up r_down].
  - unfold raw_server. rewrite <- app_assoc, firstn_skipn. exact X.
  - destruct (firstn n (r_down y)) as [|x l] eqn:Fn; [exact X|]. cbn [r_client r_up r_down raw_received rc_received].
    rewrite <- (firstn_skipn n (r_down y)), Fn in X. destruct (rc_received (r_client y)) as [b|]; rewrite <- X; rewrite <- ?app_assoc; reflexivity.
Qed.
