From Coq Require Import String.
From Coq Require Import List ZArith Bool Lia.
From Verif Require Import PyBase PyLemmas AddrModel AddrSpec PnmsModel PnmsSpec PnmsProofs PnmsProofs2 PnmsProofs3 PnmsProps.
From Verif Require Import DeviceModel DeviceSpec DeviceProofs DeviceProofs2 DeviceProofs3 DeviceProps ConnSvcModel VsvcModel VsvcSpec VsvcProofs.
From Verif Require Import StatModel StatSpec.
Import ListNotations.
Open Scope nat_scope.

(** ** Texts *)
Lemma first_line_ok : forall s l, first_of s l -> first_line s = l.
Proof.
  induction s as [|c s IH]; intros l H.
  - destruct H as [(b & r & -> & E & _)|(-> & _)]; [destruct b; discriminate|reflexivity].
  - cbn [first_line]. destruct H as [(b & r & -> & E & N)|(-> & N)].
    + destruct b as [|x b]; cbn [app] in E.
      * injection E as -> _. reflexivity.
      * injection E as -> E. destruct (Z.eqb_spec x 10) as [->|_]; [exfalso; apply N; now left|]. cbn [app]. f_equal. apply IH. left.
        exists b, r. split; [reflexivity|]. split; [exact E|]. intro X. apply N. now right.
    + destruct (Z.eqb_spec c 10) as [->|_]; [exfalso; apply N; now left|]. f_equal. apply IH. right. split; [reflexivity|]. intro X. apply N. now right.
Qed.
Lemma first_of_some s : first_of s (first_line s).
Proof.
  induction s as [|c s IH]; [right; split; [reflexivity|intros []]|]. cbn [first_line]. destruct (Z.eqb_spec c 10) as [->|N].
  - left. exists [], s. split; [reflexivity|]. split; [reflexivity|intros []].
  - destruct IH as [(b & r & E & E2 & H)|(E & H)].
    + left. exists (c :: b), r. rewrite E. split; [reflexivity|]. split; [rewrite E2, E; reflexivity|]. intros [X|X]; [congruence|tauto].
    + right. rewrite E. split; [reflexivity|]. intros [X|X]; [congruence|tauto].
Qed.
Lemma starts_app p : forall s, starts p s = true <-> exists b, s = p ++ b.
Proof.
  induction p as [|x p IH]; intros s; cbn [starts]; [split; [intros _; now exists s|reflexivity]|].
  destruct s as [|y s]; [split; [discriminate|intros (b & E); discriminate]|]. rewrite andb_true_iff, IH, Z.eqb_eq. split.
  - intros (-> & b & ->). now exists b.
  - intros (b & E). injection E as -> ->. split; [reflexivity|now exists b].
Qed.
Lemma contains_ok p : forall s, contains p s = true <-> exists a b, s = a ++ p ++ b.
Proof.
  induction s as [|c s IH]; cbn [contains]; rewrite orb_true_iff, starts_app.
  - split; [intros [(b & E)|X]; [|discriminate]; now exists [], b|]. intros ([|x a] & b & E); [|discriminate]. left. now exists b.
  - rewrite IH. split.
    + intros [(b & E)|(a & b & ->)]; [now exists [], b|now exists (c :: a), b].
    + intros ([|x a] & b & E); [left; now exists b|]. injection E as -> E. right. now exists a, b.
Qed.
Lemma lower_small s : lower s = map small s.
Proof. reflexivity. Qed.
Lemma contains_occurs p s : contains p (lower s) = true <-> occurs p s.
Proof. rewrite contains_ok. reflexivity. Qed.
Lemma link_ok s x : link_word s x ->
  (if contains (lit "disconnected") (lower s) then lit "Failed" else if contains (lit "connected") (lower s) then lit "Live" else lit "Unknown") = x.
Proof.
  intros [(A & ->)|[(A & B & ->)|(A & B & ->)]]; rewrite <- contains_occurs in *.
  - now rewrite A.
  - apply not_true_is_false in A. now rewrite A, B.
  - apply not_true_is_false in A, B. now rewrite A, B.
Qed.
Lemma loc_text_ok l : loc_text l = show_loc l.
Proof. destruct l as [[h|] [p|]]; reflexivity. Qed.

Section Look.
  Context (c : config) (W : wf c) (T : tidy c) (Cm : complete c) (os0 : pystr -> osd) (w : world) (pid : pystr -> Z) (content : pystr -> pystr).
  Context (first link : pystr -> pystr) (F : forall d, first_of (content d) (first d)) (Lk : forall d, link_word (content d) (link d)).
  Context (os1 : pystr -> osd).
  Notation n := (net_of c).
  Hypothesis R1 : forall d, dhas (g_devices c) d = true -> in_use n os0 d = true -> iface n d = true \/ is_remote_ap n d = false -> o_files (os1 d) = true.

  (** the devices in [L] have been looked at *)
  Definition seen (L : list pystr) (v : vsvc) : Prop :=
    forall x, s_os (vs_dst v) x = if smem L x && negb (in_use n os0 x) then Osd false (o_alive (os1 x)) else os1 x.
  Definition St (L : list pystr) (v : vsvc) : Prop := SInv c os0 v /\ seen L v.

  Lemma line_ok d : line content d = first d.
  Proof. unfold line. apply first_line_ok, F. Qed.
  Lemma live_iface d : iface n d = true -> in_use n os0 d = works n os0 d.
  Proof. unfold in_use. now intros ->. Qed.
  Lemma look_seen L d v : St L v -> St (d :: L) (after_look d (in_use n os0 d) v).
  Proof.
    intros [I H]. split; [now apply look_inv|]. intros x. destruct (in_use n os0 d) eqn:U; cbn [after_look vs_dst].
    - rewrite H. unfold smem. destruct (in_dec eq_dec x L) as [Y|N], (in_dec eq_dec x (d :: L)) as [Y'|N']; try reflexivity; [exfalso; apply N'; now right|].
      destruct Y' as [<-|Y']; [now rewrite U|contradiction].
    - unfold unlink, set_os. cbn [s_os]. destruct (eq_dec x d) as [->|N].
      + unfold smem. destruct (in_dec eq_dec d (d :: L)) as [_|N]; [|exfalso; apply N; now left]. rewrite U. cbn. f_equal. rewrite H. destruct (_ && _); reflexivity.
      + rewrite H. unfold smem. destruct (in_dec eq_dec x L) as [Y|N1], (in_dec eq_dec x (d :: L)) as [Y'|N']; try reflexivity; [exfalso; apply N'; now right|].
        destruct Y' as [<-|Y']; [congruence|contradiction].
  Qed.
  Lemma has_kind d t : dget (g_devices c) d = Some t -> exists k, type_kind t = Some k.
  Proof. intros E. pose proof (w_type _ W _ _ E). destruct (type_kind t); [eauto|congruence]. Qed.
  Lemma dev_dget d : dhas (g_devices c) d = true -> exists t k, dget (g_devices c) d = Some t /\ type_kind t = Some k.
  Proof. intros H. apply dhas_true in H as [t H]. destruct (has_kind _ _ H) as [k K]. eauto. Qed.
  Lemma remote_dev d t : dget (g_devices c) d = Some t -> remote (devices c) d = (negb (iface n d) && is_remote_ap n d).
  Proof.
    intros E. unfold remote, kind. rewrite devices_get, E. unfold device_of. rewrite iface_kind, E. destruct (type_kind t) as [[|]|] eqn:K; cbn [v_kind negb andb]; [reflexivity| |].
    - now apply (remote_spec c d t W).
    - exfalso. destruct (has_kind _ _ E) as [k K']. congruence.
  Qed.
  Lemma started_use d t : dget (g_devices c) d = Some t -> (negb (iface n d) && is_remote_ap n d) = false -> is_on (started c os0 d) = in_use n os0 d.
  Proof.
    intros E R. unfold in_use. rewrite iface_kind, E in R |- *. destruct (has_kind _ _ E) as [[|] K]; rewrite K in *; cbn [negb andb] in R.
    - exact (proj2 (status_iface c os0 d t W T E K)).
    - rewrite R. exact (proj2 (status_access c os0 d t W E K)).
  Qed.
  Lemma ask_ok L d v t : St L v -> dget (g_devices c) d = Some t ->
    ask c d v = ((if negb (iface n d) && is_remote_ap n d then Enabled else started c os0 d), after_look d (in_use n os0 d) v).
  Proof.
    intros [I H] E. unfold ask. rewrite (remote_dev d t E). destruct (negb (iface n d) && is_remote_ap n d) eqn:R.
    - unfold in_use. apply andb_prop in R as (R & ->). destruct (iface n d); [discriminate|]. reflexivity.
    - unfold DeviceModel.enabled. rewrite (remote_dev d t E), R. destruct I as [_ S]. unfold status_of. rewrite (S d) by (apply dhas_true; eauto).
      rewrite (started_use d t E R). destruct (in_use n os0 d); [|reflexivity]. destruct v; reflexivity.
  Qed.
  Lemma word_ok d t : dget (g_devices c) d = Some t ->
    status_text (if negb (iface n d) && is_remote_ap n d then Enabled else started c os0 d) = word n os0 d.
  Proof.
    intros E. unfold word. destruct (negb (iface n d) && is_remote_ap n d) eqn:R.
    - unfold in_use. apply andb_prop in R as (R & ->). destruct (iface n d); [discriminate|]. reflexivity.
    - rewrite <- (started_use d t E R). unfold started, lst. destruct (lup (devices c) os0 d) eqn:U; [reflexivity|].
      change (up os0 d) with (runs_at os0 d). destruct (runs_at os0 d) eqn:V; [|rewrite andb_false_r; reflexivity].
      cbn [is_on status_text]. destruct (iface n d) eqn:Q; [reflexivity|]. rewrite iface_kind, E in Q. destruct (has_kind _ _ E) as [[|] K]; rewrite K in Q; [discriminate|].
      rewrite (proj1 (status_access c os0 d t W E K)) in U. congruence.
  Qed.
  Lemma managed_local d : managed n d = true -> is_remote_ap n d = false.
  Proof. unfold managed, is_remote_ap. intros H. apply eqb_t in H. rewrite H. reflexivity. Qed.
  Lemma iface_access d : iface n d = true -> PnmsSpec.access n d = true -> False.
  Proof. rewrite iface_kind, access_kind. destruct (dget (g_devices c) d) as [t|]; [destruct (type_kind t) as [[|]|]|]; discriminate. Qed.
  Lemma lift_inj (x p : (location + verr) * vsvc) : andthen x (fun l v => ret (Some l) v) = lift p -> x = p.
  Proof. destruct x as [[l|e] v], p as [[l'|e'] v']; cbn; unfold ret; intros H; inversion H; reflexivity. Qed.
  Lemma tcp_ok L d v : St L v -> PnmsSpec.access n d = true ->
    exists v', tcp_location (line content) d v = (access_place n os0 first d, v') /\ St (if managed n d then d :: L else L) v'.
  Proof.
    intros [I H] A. assert (Q : tcp_location (line content) d v = (access_place n os0 first d, looked c os0 d v)).
    { pose proof (location_access c W os0 w (line content) Cm v d I A) as E. destruct (access_dget c d A) as (t & Et & K).
      assert (Hd : dhas (g_devices c) d = true) by (apply dhas_true; eauto).
      rewrite location_plain in E by now apply (plain_dev c W). rewrite (get_ok c os0 w v d I (plain_dev c W d Hd)), Hd in E. cbn [andthen] in E.
      replace (place_ap n d (runs_at os0 d) (o_files (s_os (vs_dst v) d)) (line content d)) with (access_place n os0 first d) in E.
      - now apply lift_inj in E.
      - unfold access_place, place_ap. rewrite line_ok. destruct (option_of n d (lit "physical_connection_type")) as [ty|] eqn:Ty; [|reflexivity].
        destruct (eqb ty (lit "managed")) eqn:M; [|reflexivity]. apply eqb_t in M. subst ty. destruct (runs_at os0 d) eqn:Ru; [|reflexivity].
        assert (Rm : is_remote_ap n d = false) by (apply managed_local; unfold managed; rewrite Ty; reflexivity).
        assert (U : in_use n os0 d = true). { unfold in_use. rewrite Ru, Rm. destruct (iface n d) eqn:Q; [exfalso; now apply (iface_access d)|reflexivity]. }
        rewrite H, U. cbn [negb]. rewrite andb_false_r, (R1 d Hd U (or_intror Rm)). reflexivity. }
    exists (looked c os0 d v). split; [exact Q|]. unfold looked. destruct (iface n d) eqn:Q2; [exfalso; now apply (iface_access d)|].
    fold (managed n d). destruct (managed n d) eqn:M; [|split; assumption].
    replace (runs_at os0 d) with (in_use n os0 d); [apply look_seen; split; assumption|]. unfold in_use. now rewrite Q2, (managed_local d M).
  Qed.

  (** *** the number of the process *)
  Lemma pid_ok L earlier d v : St L v -> (in_use n os0 d = false -> smem L d = managed n d && existsb (fun x => eqb (t_conn n x) (Some d)) earlier) ->
    pid_text pid d v = if pid_shown n os0 os1 pid earlier d then lit "(PID: " ++ print_int (pid d) ++ lit ")" else [].
  Proof.
    intros [_ H] M. unfold pid_text, pid_shown. rewrite H. destruct (in_use n os0 d) eqn:U; cbn [negb orb].
    - rewrite andb_false_r, andb_true_r. reflexivity.
    - rewrite andb_true_r, (M eq_refl). destruct (_ && existsb _ _); cbn [o_files negb andb]; [rewrite andb_false_r|rewrite andb_true_r]; reflexivity.
  Qed.
  Lemma auto_ok d : dhas (g_devices c) d = true ->
    bool_text (match setting c d (lit "auto_enable") with Some t => eqb t (lit "true") | None => false end) = truth (eqb (option_of n d (lit "auto_enable")) (Some (lit "true"))).
  Proof.
    intros H. rewrite (net_option c d) by (try exact W; try reflexivity; exact H). destruct (option_of n d (lit "auto_enable")) as [x|]; [|reflexivity].
    unfold truth, bool_text. destruct (eqb x (lit "true")) eqn:E; [apply eqb_t in E; subst x; reflexivity|]. apply eqb_f in E. now rewrite eqb_no by congruence.
  Qed.
  Lemma base_ok L earlier k d t v : St L v -> dget (g_devices c) d = Some t ->
    (in_use n os0 d = false -> smem L d = managed n d && existsb (fun x => eqb (t_conn n x) (Some d)) earlier) ->
    exists v', base_text pid k d v = (inl (about n os0 os1 pid k earlier d), v') /\ St (d :: L) v'.
  Proof.
    intros S E M. unfold base_text. rewrite (conf_ok c os0 v (proj1 S)). cbn [andthen]. rewrite (ask_ok L d v t S E).
    rewrite (word_ok d t E), auto_ok by (apply dhas_true; eauto). rewrite (pid_ok L earlier d v S M).
    exists (after_look d (in_use n os0 d) v). split; [reflexivity|]. now apply look_seen.
  Qed.

  (** *** one device *)
  Definition looks (d : pystr) : list pystr :=
    (if iface n d then match t_conn n d with Some a => if managed n a then [a] else [] | None => [] end else []) ++ [d].
  Lemma type_cases d t : dget (g_devices c) d = Some t ->
    (t = lit "switch" /\ PnmsSpec.access n d = true /\ iface n d = false) \/ (t = lit "vnic" /\ iface n d = true) \/
    (eqb t (lit "switch") = false /\ eqb t (lit "vnic") = false /\ iface n d = false).
  Proof.
    intros E. destruct (eqb t (lit "switch")) eqn:A.
    - left. apply eqb_t in A. subst t. split; [reflexivity|]. rewrite access_kind, iface_kind, E. split; reflexivity.
    - right. destruct (eqb t (lit "vnic")) eqn:B.
      + left. apply eqb_t in B. subst t. split; [reflexivity|]. rewrite iface_kind, E. reflexivity.
      + right. split; [reflexivity|]. split; [reflexivity|]. unfold iface. cbn [net_of t_dev]. rewrite E. exact B.
  Qed.
  Lemma sub_seen L L' v : (forall x, smem L x = smem L' x) -> St L v -> St L' v.
  Proof. intros E [I H]. split; [exact I|]. intros x. now rewrite H, E. Qed.
  Lemma mem_eq (L L' : list pystr) : (forall x, In x L <-> In x L') -> forall x, smem L x = smem L' x.
  Proof. intros H x. unfold smem. destruct (in_dec eq_dec x L), (in_dec eq_dec x L'); try reflexivity; exfalso; firstorder. Qed.
  Lemma conn_access d a : t_conn n d = Some a -> PnmsSpec.access n a = true /\ dhas (g_devices c) a = true /\ a <> [] /\ sec_get (g_connections c) d = Some a.
  Proof.
    cbn [net_of t_conn]. destruct (dget (g_connections c) d) as [a'|] eqn:E; [|discriminate]. destruct (dhas (g_devices c) a') eqn:Ha; [|discriminate]. intros [= ->].
    destruct (w_conn _ W _ _ E) as ((t & Et & _) & P & K). apply dhas_true in Ha as [ta Ha]. split; [rewrite access_kind, Ha, (K _ Ha); reflexivity|].
    split; [apply dhas_true; eauto|]. split; [apply P|]. unfold sec_get. rewrite plain_lower; [exact E|]. apply (plain_dev c W), dhas_true. eauto.
  Qed.
  Lemma conn_none d : dhas (g_devices c) d = true -> t_conn n d = None -> sec_get (g_connections c) d = None.
  Proof.
    intros Hd. cbn [net_of t_conn]. unfold sec_get. rewrite plain_lower by now apply (plain_dev c W).
    destruct (dget (g_connections c) d) as [a|] eqn:E; [|reflexivity]. rewrite (T _ _ E). discriminate.
  Qed.
  Lemma peer_ok L d v : St L v -> dhas (g_devices c) d = true ->
    exists v', peer_text w content d v = (match t_conn n d with
                 | None => inl (lit "None")
                 | Some a => then_ (access_place n os0 first a) (fun l => inl (a ++ lit " (" ++ show_loc l ++ lit ")"))
                 end, v') /\ St (match t_conn n d with Some a => if managed n a then [a] else [] | None => [] end ++ L) v'.
  Proof.
    intros S Hd. unfold peer_text. rewrite (conf_ok c os0 v (proj1 S)). cbn [andthen]. destruct (t_conn n d) as [a|] eqn:Ca.
    - destruct (conn_access d a Ca) as (A & Ha & Ne & E). rewrite E. destruct a as [|x a]; [congruence|].
      rewrite (get_ok c os0 w v _ (proj1 S) (plain_dev c W _ Ha)), Ha. cbn [andthen].
      destruct (tcp_ok L _ v S A) as (v' & Q & S'). rewrite Q. destruct (access_place n os0 first (x :: a)) as [l|e]; cbn [andthen then_ ret]; exists v'.
      + rewrite loc_text_ok. split; [reflexivity|]. destruct (managed n (x :: a)); exact S'.
      + split; [reflexivity|]. destruct (managed n (x :: a)); exact S'.
    - rewrite (conn_none d Hd Ca). exists v. split; [reflexivity|exact S].
  Qed.
  Lemma device_ok L earlier d v : St L v -> dhas (g_devices c) d = true ->
    (in_use n os0 d = false -> smem L d = managed n d && existsb (fun x => eqb (t_conn n x) (Some d)) earlier) ->
    exists v', device_text w pid content d v = (block n os0 os1 pid first link earlier d, v') /\
      ((exists x, block n os0 os1 pid first link earlier d = inl x) -> St (looks d ++ L) v').
  Proof.
    intros S Hd M. pose proof Hd as Hd'. apply dhas_true in Hd' as [t E]. unfold device_text. rewrite (conf_ok c os0 v (proj1 S)). cbn [andthen].
    rewrite (get_ok c os0 w v d (proj1 S) (plain_dev c W d Hd)), Hd. cbn [andthen]. rewrite (kind_sec c W d Hd), E.
    unfold block. replace (t_dev n d) with (Some (t, match dget (g_sections c) d with Some s => s | None => [] end)) by (cbn [net_of t_dev]; now rewrite E).
    destruct (type_cases d t E) as [(-> & A & NI)|[(-> & A)|(-> & -> & NI)]].
    - rewrite eqb_refl. unfold switch_text. destruct (base_ok L earlier (lit "switch") d _ v S E M) as (v1 & Q & S1). rewrite Q. cbn [andthen].
      destruct (tcp_ok (d :: L) d v1 S1 A) as (v2 & Q2 & S2). rewrite Q2. destruct (access_place n os0 first d) as [l|e]; cbn [andthen then_].
      2: exists v2; split; [reflexivity|intros (x & X); discriminate].
      rewrite (conf_ok c os0 v2 (proj1 S2)). cbn [andthen]. unfold opt_of. rewrite (net_option c d) by (try exact W; try reflexivity; exact Hd).
      destruct (proj2 (Cm d) A) as (ty & Ety & _). rewrite Ety. cbn [andthen ret]. exists v2. split.
      + rewrite loc_text_ok. unfold managed. rewrite Ety. unfold truth, bool_text.
        replace (eqb (Some ty) (Some (lit "managed"))) with (eqb ty (lit "managed")); [reflexivity|].
        destruct (eqb ty (lit "managed")) eqn:X; [apply eqb_t in X; subst ty; reflexivity|]. apply eqb_f in X. now rewrite eqb_no by congruence.
      + intros _. unfold looks. rewrite NI. cbn [app]. apply (sub_seen (if managed n d then d :: d :: L else d :: L)); [|exact S2].
        apply mem_eq. intros x. destruct (managed n d); cbn [In]; tauto.
    - replace (eqb (lit "vnic") (lit "switch")) with false by reflexivity. rewrite eqb_refl. unfold vnic_text.
      destruct (base_ok L earlier (lit "vnic") d _ v S E M) as (v1 & Q & S1). rewrite Q. cbn [andthen].
      destruct (peer_ok (d :: L) d v1 S1 Hd) as (v2 & Q2 & S2). rewrite Q2.
      destruct (match t_conn n d with None => inl (lit "None") | Some a => then_ (access_place n os0 first a) (fun l => inl (a ++ lit " (" ++ show_loc l ++ lit ")")) end) as [cx|e]; cbn [andthen then_].
      2: exists v2; split; [reflexivity|intros (x & X); discriminate].
      rewrite (address_iface c W os0 v2 d (proj1 S2) A). destruct (own_address n d) as [ad|]; cbn [andthen].
      2: exists v2; split; [reflexivity|intros (x & X); discriminate].
      rewrite (conf_ok c os0 v2 (proj1 S2)). cbn [andthen]. unfold link_text. rewrite (ask_ok _ d v2 _ S2 E). rewrite A. cbn [negb andb].
      rewrite (started_use d _ E) by (rewrite A; reflexivity). pose proof (look_seen _ d v2 S2) as S3. rewrite (live_iface d A) in *.
      assert (Fin : St (looks d ++ L) (after_look d (works n os0 d) v2)).
      { eapply sub_seen; [|exact S3]. apply mem_eq. intros x. unfold looks. rewrite A. cbn [In]. rewrite !in_app_iff. cbn [In]. tauto. }
      destruct (works n os0 d) eqn:Wk.
      + assert (Fi : o_files (s_os (vs_dst (after_look d true v2)) d) = true).
        { rewrite (proj2 S3). rewrite (live_iface d A), Wk. cbn [negb]. rewrite andb_false_r. apply R1; [exact Hd|now rewrite (live_iface d A)|now left]. }
        rewrite Fi. cbn [andthen ret]. rewrite (link_ok _ _ (Lk d)). unfold routes_of. rewrite map_map. eexists. split; [reflexivity|]. intros _. exact Fin.
      + cbn [andthen ret]. unfold routes_of. rewrite map_map. eexists. split; [reflexivity|]. intros _. exact Fin.
    - destruct (base_ok L earlier t d _ v S E M) as (v1 & Q & S1). rewrite Q. exists v1. split; [reflexivity|]. intros _. unfold looks. rewrite NI. exact S1.
  Qed.

  (** *** all of them *)
  Lemma conn_iface x a : t_conn n x = Some a -> iface n x = true.
  Proof.
    cbn [net_of t_conn]. destruct (dget (g_connections c) x) as [a'|] eqn:E; [|discriminate]. intros _.
    destruct (w_conn _ W _ _ E) as ((t & Et & K) & _). rewrite iface_kind, Et, K. reflexivity.
  Qed.
  Lemma earlier_looks L earlier d : (forall x, In x L <-> In x (flat_map looks earlier)) -> ~ In d earlier ->
    smem L d = managed n d && existsb (fun x => eqb (t_conn n x) (Some d)) earlier.
  Proof.
    intros E N. unfold smem. destruct (in_dec eq_dec d L) as [Y|Y].
    - symmetry. apply E, in_flat_map in Y as (x & Hx & Y). unfold looks in Y. apply in_app_iff in Y as [Y|[<-|[]]]; [|contradiction].
      destruct (iface n x); [|destruct Y]. destruct (t_conn n x) as [a|] eqn:Ca; [|destruct Y]. destruct (managed n a) eqn:Ma; [|destruct Y]. destruct Y as [<-|[]].
      rewrite Ma. cbn [andb]. apply existsb_exists. exists x. split; [exact Hx|]. rewrite Ca. apply eqb_refl.
    - symmetry. apply not_true_is_false. intros X. apply andb_prop in X as (Ma & X). apply existsb_exists in X as (x & Hx & Ca). apply eqb_t in Ca. apply Y, E, in_flat_map.
      exists x. split; [exact Hx|]. unfold looks. rewrite (conn_iface x d Ca), Ca, Ma. now left.
  Qed.
  Lemma devices_ok : forall ds earlier L v, NoDup (earlier ++ ds) -> (forall d, In d ds -> dhas (g_devices c) d = true) ->
    St L v -> (forall x, In x L <-> In x (flat_map looks earlier)) ->
    exists v', devices_text w pid content ds v = (blocks n os0 os1 pid first link earlier ds, v') /\
      ((exists x, blocks n os0 os1 pid first link earlier ds = inl x) -> St (flat_map looks (earlier ++ ds)) v').
  Proof.
    induction ds as [|d ds IH]; intros earlier L v N H S E.
    - exists v. split; [reflexivity|]. intros _. rewrite app_nil_r. apply (sub_seen L); [|exact S]. apply mem_eq. exact E.
    - cbn [devices_text blocks]. assert (Nd : ~ In d earlier). { apply NoDup_remove_2 in N. intro X. apply N, in_or_app. now left. }
      destruct (device_ok L earlier d v S (H d (or_introl eq_refl)) (fun _ => earlier_looks L earlier d E Nd)) as (v1 & Q & S1). rewrite Q.
      destruct (block n os0 os1 pid first link earlier d) as [x|e] eqn:B; cbn [andthen then_].
      2: exists v1; split; [reflexivity|intros (x & X); discriminate].
      specialize (S1 (ex_intro _ x eq_refl)). destruct (IH (earlier ++ [d]) (looks d ++ L) v1) as (v2 & Q2 & S2).
      + now rewrite <- app_assoc.
      + intros y Y. apply H. now right.
      + exact S1.
      + intros y. rewrite in_app_iff, flat_map_app, in_app_iff. cbn [flat_map]. rewrite app_nil_r, E. tauto.
      + rewrite Q2. destruct (blocks n os0 os1 pid first link (earlier ++ [d]) ds) as [y|e] eqn:B2; cbn [andthen then_ ret].
        * exists v2. split; [reflexivity|]. intros _. specialize (S2 (ex_intro _ y eq_refl)). now rewrite <- app_assoc in S2.
        * exists v2. split; [reflexivity|intros (z & X); discriminate].
  Qed.
  Lemma page_ok v : St [] v -> exists v', status_all w pid content v = (status_page n os0 os1 pid first link (dkeys (g_devices c)), v') /\
    ((exists x, status_page n os0 os1 pid first link (dkeys (g_devices c)) = inl x) -> St (flat_map looks (dkeys (g_devices c))) v').
  Proof.
    intros S. unfold status_all, status_page. rewrite (conf_ok c os0 v (proj1 S)). cbn [andthen].
    destruct (devices_ok (dkeys (g_devices c)) [] [] v) as (v' & Q & S').
    - apply W.
    - intros d. apply dhas_in.
    - exact S.
    - intros x. reflexivity.
    - rewrite Q. destruct (blocks n os0 os1 pid first link [] (dkeys (g_devices c))) as [x|e] eqn:B; cbn [andthen then_ ret]; exists v'.
      + split; [reflexivity|]. intros _. apply S'. eauto.
      + split; [reflexivity|]. intros (z & X). discriminate.
  Qed.
End Look.

(** ** The order of the devices *)
Section Keys.
  Context (s s' : section).
  Definition kept (m : mgr) : Prop := g_devices (n_mem m) = s' /\ (g_devices (n_file m) = s \/ g_devices (n_file m) = s').
  Lemma kept_save m : g_devices (n_mem m) = s' -> kept (save m).
  Proof. intros H. split; [exact H|now right]. Qed.
  Lemma kept_disconnect m d : kept m -> kept (disconnect m d).
  Proof. intros K. unfold disconnect. destruct (connected_to m d) as [[|x r]|]; try exact K. apply kept_save. destruct (in_adapter _ _); apply K. Qed.
  Lemma kept_get : forall f d m, kept m -> kept (snd (get_device f d m)).
  Proof.
    induction f as [|f IH]; intros d m K; [exact K|]. cbn [get_device]. destruct d as [|x d]; [exact K|].
    destruct (smem _ _); [exact K|]. destruct (sec_get _ _) as [t|]; [|exact K]. destruct (type_kind t) as [[|]|]; try exact K; destruct (negb _); try exact K.
    match goal with |- context [connected_to ?m ?d] => destruct (connected_to m d) as [a|] end; [|exact K].
    match goal with |- context [get_device f a ?m1] => assert (K1 : kept (snd (get_device f a m1))) by (apply IH; exact K); destruct (get_device f a m1) as [[[y|]|e] m2] end; cbn [snd] in *; [exact K1|now apply kept_disconnect|exact K1].
  Qed.
  Lemma kept_load f : forall l m, kept m -> kept (snd (load_devices f l m)).
  Proof.
    induction l as [|d l IH]; intros m K; [exact K|]. cbn [load_devices]. pose proof (kept_get f d m K) as K1. destruct (get_device f d m) as [[o|e] m1]; cbn [snd] in *; auto.
  Qed.
End Keys.
Lemma kept_iface s d m k : kept s s m -> (forall m', kept s s m' -> kept s s (snd (k m'))) -> kept s s (snd (with_iface d m k)).
Proof.
  intros K H. unfold with_iface. pose proof (kept_get s s (fuel_of (n_mem m)) d m K) as K1. destruct (get_device _ d m) as [[[y|]|e] m1]; cbn [snd] in *; try exact K1.
  destruct (kind_of m1 d) as [[|]|]; try exact K1. now apply H.
Qed.
Definition changed (k : command) (s : section) : section :=
  match k with CAdd d t _ => sec_set s d t | CRemove d => sec_del s d | _ => s end.
Lemma exec_keys k s m : kept s s m -> g_devices (n_file (snd (exec k m))) = s \/ g_devices (n_file (snd (exec k m))) = changed k s.
Proof.
  intros K. assert (Done : forall m', kept s s m' -> g_devices (n_file m') = s \/ g_devices (n_file m') = changed k s) by (intros m' (_ & [H|H]); now left).
  assert (Mid : forall m', kept s (changed k s) m' -> g_devices (n_file m') = s \/ g_devices (n_file m') = changed k s) by (intros m' (_ & H); exact H).
  destruct k as [d t args|d|d a|d|d r|d r|]; cbn [exec changed] in *.
  - unfold add_device. destruct (sec_has _ _); [apply Done, K|]. destruct (type_kind t) as [kd|]; [|apply Done, K].
    match goal with |- context [get_device ?f d ?m1] => assert (K1 : kept s (sec_set s d t) m1) by (split; [cbn; now rewrite (proj1 K)|left; destruct K as (_ & [H|H]); exact H]);
      pose proof (kept_get s _ f d m1 K1) as K2; destruct (get_device f d m1) as [[[y|]|e] m2] end; cbn [snd] in *; try (apply Mid; exact K2).
    destruct (settings kd args); [|apply Mid; exact K2]. apply Mid. cbn [snd]. apply kept_save. apply K2.
  - unfold remove_device. destruct (negb _); [apply Done, K|]. pose proof (kept_get s s (fuel_of (n_mem m)) d m K) as K1.
    destruct (get_device _ d m) as [[[y|]|e] m1]; cbn [snd] in *; try (apply Done; exact K1).
    assert (Fin : forall m3, kept s s m3 -> forall o, g_devices (n_file (save (Mgr (Config (sec_del (g_devices (n_mem m3)) d) (g_connections (n_mem m3)) (g_routes (n_mem m3)) (ddel (g_sections (n_mem m3)) d)) (n_file m3) o))) = sec_del s d).
    { intros m3 K3 o. cbn. now rewrite (proj1 K3). }
    destruct (kind_of m1 d) as [[|]|]; cbn [fst snd].
    + pose proof (kept_disconnect s s m1 d K1) as K2. destruct (remove_routes _ _ _); cbn [fst snd]; [right; apply Fin; exact K2|apply Done; exact K2].
    + right. apply Fin. exact K1.
    + right. apply Fin. exact K1.
  - apply Done. unfold connect. apply kept_iface; [exact K|]. intros m' K'. pose proof (kept_get s s (fuel_of (n_mem m')) a m' K') as K1.
    destruct (get_device _ a m') as [[[y|]|e] m1]; cbn [snd] in *; try exact K1. destruct (kind_of m1 y) as [[|]|]; try exact K1. cbn [snd]. apply kept_save. apply K1.
  - apply Done, kept_iface; [exact K|]. intros m' K'. cbn [snd]. now apply kept_disconnect.
  - apply Done. unfold route_add. apply kept_iface; [exact K|]. intros m' K'. destruct (is_default r); [cbn [snd]; apply kept_save, K'|].
    destruct (add_route _ _ _); cbn [snd]; [apply kept_save, K'|exact K'].
  - apply Done. unfold route_remove. apply kept_iface; [exact K|]. intros m' K'. destruct (is_default r).
    + destruct (unset_default_route _ _); cbn [snd]; [apply kept_save, K'|exact K'].
    + destruct (remove_route _ _ _); cbn [snd]; [exact K'|exact K'].
  - apply Done, K.
Qed.
Lemma run_keys k c : g_devices (snd (run k c)) = g_devices c \/ g_devices (snd (run k c)) = changed k (g_devices c).
Proof.
  unfold run, load. assert (K : kept (g_devices c) (g_devices c) (Mgr c c [])) by (split; [reflexivity|now left]).
  pose proof (kept_load _ _ (fuel_of c) (dkeys (g_devices c)) _ K) as K1. destruct (load_devices _ _ _) as [[u|e] m]; cbn [snd] in *.
  - pose proof (exec_keys k _ m K1) as H. destruct (exec k m) as [o m']. exact H.
  - left. destruct K1 as (_ & [H|H]); exact H.
Qed.
Lemma dkeys_ddel {V} (d : dict pystr V) k : NoDup (dkeys d) -> dkeys (ddel d k) = filter (fun x => negb (eqb x k)) (dkeys d).
Proof.
  induction d as [|[k' v] r IH]; intros N; [reflexivity|]. cbn [ddel dkeys map fst filter] in *. inversion N as [|? ? N1 N2]; subst. destruct (eq_dec k k') as [->|D].
  - rewrite eqb_refl. cbn [negb]. clear IH N N2. induction r as [|[a b] r IH]; [reflexivity|]. cbn [map fst filter] in *. rewrite eqb_no by (intros ->; apply N1; now left). cbn [negb]. f_equal. apply IH. intro X. apply N1. now right.
  - rewrite eqb_no by congruence. cbn [negb dkeys map fst]. f_equal. apply IH. exact N2.
Qed.
Lemma dev_in c d : t_dev (net_of c) d <> None <-> In d (dkeys (g_devices c)).
Proof.
  cbn [net_of t_dev]. destruct (dget (g_devices c) d) as [t|] eqn:E.
  - split; [intros _; eapply dget_some_in_keys; eauto|discriminate].
  - split; [congruence|]. intros H. apply dhas_in, dhas_true in H as [t H]. congruence.
Qed.
Lemma run_order c k : wf c -> plain_command k -> dkeys (g_devices (snd (run k c))) =
  match effect k (net_of c) with
  | None => dkeys (g_devices c)
  | Some _ => match k with CAdd d _ _ => dkeys (g_devices c) ++ [d] | CRemove d => filter (fun x => negb (eqb x d)) (dkeys (g_devices c)) | _ => dkeys (g_devices c) end
  end.
Proof.
  intros W P. destruct (run_ok c k W P) as (W' & O). destruct (run_keys k c) as [E|E].
  - rewrite E. destruct (effect k (net_of c)) as [n'|] eqn:Ef; [|reflexivity]. destruct k as [d t args|d|d a|d|d r|d r|]; try reflexivity.
    + exfalso. destruct O as (_ & L & _). specialize (L I). assert (X : In d (dkeys (g_devices c))).
      { rewrite <- E. apply dev_in. rewrite (proj1 L). cbn [effect] in Ef. destruct (t_dev _ d); [discriminate|]. destruct (type_kind t); [|discriminate]. destruct (settings _ _); [|discriminate]. injection Ef as <-. cbn [t_dev]. unfold PnmsSpec.upd. destruct (eq_dec d d); [discriminate|congruence]. }
      apply dev_in in X. cbn [effect] in Ef. destruct (t_dev (net_of c) d); [discriminate|congruence].
    + destruct O as (_ & L & _). specialize (L I). symmetry. assert (X : ~ In d (dkeys (g_devices c))).
      { rewrite <- E. intros X. apply dev_in in X. apply X. rewrite (proj1 L). cbn [effect] in Ef. destruct (t_dev (net_of c) d) eqn:D; injection Ef as <-; [|exact D]. cbn [t_dev]. unfold PnmsSpec.upd. destruct (eq_dec d d); [reflexivity|congruence]. }
      clear - X. induction (dkeys (g_devices c)) as [|a l IH]; [reflexivity|]. cbn [filter]. rewrite eqb_no by (intros ->; apply X; now left). cbn [negb]. f_equal. apply IH. intro Y. apply X. now right.
  - rewrite E. destruct k as [d t args|d|d a|d|d r|d r|]; cbn [changed]; try (destruct (effect _ _); reflexivity).
    + unfold sec_set. cbn [plain_command] in P. rewrite (plain_lower d P). destruct (effect (CAdd d t args) (net_of c)) as [n'|] eqn:Ef.
      * apply dkeys_dset_new. intros X. apply dev_in in X. cbn [effect] in Ef. destruct (t_dev (net_of c) d); [discriminate|congruence].
      * destruct O as (_ & L). destruct (in_dec eq_dec d (dkeys (g_devices c))) as [Y|Y]; [now apply dkeys_dset_has|]. exfalso.
        apply Y, dev_in. rewrite <- (proj1 L). apply dev_in. rewrite E. unfold changed, sec_set. rewrite (plain_lower d P). apply in_dkeys_dset. now left.
    + unfold sec_del. cbn [plain_command] in P. rewrite (plain_lower d P). cbn [effect]. destruct (t_dev (net_of c) d); apply dkeys_ddel; apply W.
Qed.
Definition same_dev (a b : net) : Prop := forall d, t_dev a d = t_dev b d.
Lemma effect_dev k a b : same_dev a b ->
  match k with
  | CAdd _ _ _ | CRemove _ => match effect k a, effect k b with Some a', Some b' => same_dev a' b' | None, None => True | _, _ => False end
  | _ => match effect k b with Some b' => same_dev a b' | None => True end /\ match effect k a with Some a' => same_dev a' b | None => True end
  end.
Proof.
  intros H. destruct k as [d t args|d|d x|d|d r|d r|]; cbn [effect].
  - rewrite (H d). destruct (t_dev b d); [exact I|]. destruct (type_kind t); [|exact I]. destruct (settings _ _); [|exact I]. intros y. cbn [t_dev]. unfold PnmsSpec.upd. destruct (eq_dec y d); auto.
  - rewrite (H d). destruct (t_dev b d); [|exact H]. intros y. cbn [t_dev]. unfold PnmsSpec.upd. destruct (eq_dec y d); auto.
  - split; destruct (_ && _); try exact I; exact H.
  - split; destruct (iface _ _); try exact I; exact H.
  - split; (destruct (iface _ _); [|exact I]); (destruct (eqb r _); [exact H|]); destruct (owner _ _); try exact I; exact H.
  - split; destruct (_ && _); try exact I; exact H.
  - split; exact H.
Qed.
Lemma excluded k : lasting k \/ ~ lasting k.
Proof. destruct k; cbn; auto. destruct (eq_dec route (lit "default")); auto. Qed.
Lemma run_dev c n k : wf c -> plain_command k -> same_dev (net_of c) n ->
  same_dev (net_of (snd (run k c))) (match effect k n with Some n' => n' | None => n end) /\
  dkeys (g_devices (snd (run k c))) =
  match effect k n with
  | None => dkeys (g_devices c)
  | Some _ => match k with CAdd d _ _ => dkeys (g_devices c) ++ [d] | CRemove d => filter (fun x => negb (eqb x d)) (dkeys (g_devices c)) | _ => dkeys (g_devices c) end
  end.
Proof.
  intros W P H. destruct (run_ok c k W P) as (W' & O). rewrite (run_order c k W P). pose proof (effect_dev k _ _ H) as D.
  assert (Else : match effect k n with Some b' => same_dev (net_of c) b' | None => True end /\ match effect k (net_of c) with Some a' => same_dev a' n | None => True end ->
    same_dev (net_of (snd (run k c))) (match effect k n with Some n' => n' | None => n end)).
  { intros (D1 & D2). assert (S : same_dev (net_of (snd (run k c))) n).
    { destruct (effect k (net_of c)) as [a'|].
      - destruct O as (_ & L & R). destruct (excluded k) as [X|X]; intros y; [rewrite (proj1 (L X))|rewrite (proj1 (R X))]; auto.
      - destruct O as (_ & L). intros y. rewrite (proj1 L). auto. }
    destruct (effect k n) as [b'|]; [|exact S]. intros y. rewrite (S y), <- (H y). apply D1. }
  destruct k as [d t args|d|d x|d|d r|d r|].
  1,2: split; [|destruct (effect _ (net_of c)), (effect _ n); try contradiction; reflexivity].
  1,2: destruct (effect _ (net_of c)) as [a'|], (effect _ n) as [b'|]; try contradiction;
    [destruct O as (_ & L & _); specialize (L I); intros y; rewrite (proj1 L); apply D|destruct O as (_ & L); intros y; rewrite (proj1 L); apply H].
  all: split; [apply Else, D|destruct (effect _ (net_of _)), (effect _ n); reflexivity].
Qed.
Lemma runs_order : forall ks c n, wf c -> Forall plain_command ks -> same_dev (net_of c) n -> dkeys (g_devices (runs ks c)) = added ks n (dkeys (g_devices c)).
Proof.
  induction ks as [|k ks IH]; intros c n W F H; [reflexivity|]. inversion F as [|? ? P F']; subst. cbn [runs added].
  destruct (run_dev c n k W P H) as (S & Q). destruct (run_ok c k W P) as (W' & _). destruct (effect k n) as [n'|]; rewrite (IH _ _ W' F' S), Q; reflexivity.
Qed.

(** ** Equal networks have the same page *)
Section Eq.
  Context (a b : net) (E : net_eq a b) (os0 os1 : pystr -> osd) (pid : pystr -> Z) (first link : pystr -> pystr).
  Lemma remote_eq d : is_remote_ap a d = is_remote_ap b d.
  Proof. unfold is_remote_ap. now rewrite (option_eq a b _ _ E). Qed.
  Lemma managed_eq d : managed a d = managed b d.
  Proof. unfold managed. now rewrite (option_eq a b _ _ E). Qed.
  Lemma in_use_eq d : in_use a os0 d = in_use b os0 d.
  Proof. unfold in_use. now rewrite (iface_eq a b _ E), (works_eq a b _ _ E), remote_eq. Qed.
  Lemma about_eq k e d : about a os0 os1 pid k e d = about b os0 os1 pid k e d.
  Proof.
    unfold about, word, pid_shown. rewrite in_use_eq, (iface_eq a b _ E), managed_eq, (option_eq a b _ _ E).
    replace (existsb (fun x => eqb (t_conn a x) (Some d)) e) with (existsb (fun x => eqb (t_conn b x) (Some d)) e); [reflexivity|].
    induction e as [|x e IH]; [reflexivity|]. cbn [existsb]. rewrite IH. destruct E as (_ & E2 & _). now rewrite E2.
  Qed.
  Lemma block_eq e d : block a os0 os1 pid first link e d = block b os0 os1 pid first link e d.
  Proof.
    unfold block. destruct E as (E1 & E2 & E3). rewrite E1, E2, E3. destruct (t_dev b d) as [[t s]|]; [|reflexivity].
    rewrite about_eq, managed_eq. unfold access_place, own_address. rewrite (place_ap_eq a b) by exact E. rewrite (works_eq a b _ _ E), (option_eq a b _ _ E).
    destruct (t_conn b d) as [x|]; [rewrite (place_ap_eq a b) by exact E|]; reflexivity.
  Qed.
  Lemma blocks_eq : forall ds e, blocks a os0 os1 pid first link e ds = blocks b os0 os1 pid first link e ds.
  Proof. induction ds as [|d ds IH]; intros e; [reflexivity|]. cbn [blocks]. rewrite block_eq. destruct (block _ _ _ _ _ _ _ d); [|reflexivity]. cbn [then_]. now rewrite IH. Qed.
  Lemma page_eq ds : status_page a os0 os1 pid first link ds = status_page b os0 os1 pid first link ds.
  Proof. unfold status_page. now rewrite blocks_eq. Qed.
End Eq.
