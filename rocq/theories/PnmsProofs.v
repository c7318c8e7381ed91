From Coq Require Import String.
From Coq Require Import List ZArith Bool Lia.
From Verif Require Import PyBase PyLemmas AddrModel PnmsModel PnmsSpec.
Import ListNotations.
Open Scope nat_scope.

Lemma eqb_true {A} `{EqDec A} (x y : A) : eqb x y = true <-> x = y.
Proof. unfold eqb. destruct (eq_dec x y); split; congruence. Qed.
Lemma eqb_false {A} `{EqDec A} (x y : A) : eqb x y = false <-> x <> y.
Proof. unfold eqb. destruct (eq_dec x y); split; congruence. Qed.
Lemma eqb_t {A} `{EqDec A} (x y : A) : eqb x y = true -> x = y.
Proof. apply eqb_true. Qed.
Lemma eqb_f {A} `{EqDec A} (x y : A) : eqb x y = false -> x <> y.
Proof. apply eqb_false. Qed.
Lemma eqb_refl {A} `{EqDec A} (x : A) : eqb x x = true.
Proof. now apply eqb_true. Qed.
Lemma eqb_no {A} `{EqDec A} (x y : A) : x <> y -> eqb x y = false.
Proof. apply eqb_false. Qed.
Lemma smem_t (l : list pystr) (x : pystr) : smem l x = true -> In x l.
Proof. apply smem_true. Qed.
Lemma smem_i (l : list pystr) (x : pystr) : In x l -> smem l x = true.
Proof. apply smem_true. Qed.
Lemma plain_lower s : plain s -> lower s = s.
Proof.
  intros [_ F]. unfold lower. induction F as [|c s N F IH]; [reflexivity|]. cbn [map]. rewrite IH. f_equal.
  destruct ((65 <=? c) && (c <=? 90))%Z eqn:E; [|reflexivity]. exfalso. apply N. apply andb_prop in E as [E1 E2]. apply Z.leb_le in E1, E2. lia.
Qed.
Lemma default_lower : lower default_key = default_key.
Proof. vm_compute. reflexivity. Qed.

(** ** Dictionaries and filters *)
Lemma filter_all {A} (f : A -> bool) l : (forall x, In x l -> f x = true) -> filter f l = l.
Proof. induction l as [|x l IH]; intros H; [reflexivity|]. cbn. rewrite (H x) by now left. rewrite IH by (intros; apply H; now right). reflexivity. Qed.
Lemma ddel_filter {V} (d : dict pystr V) k : NoDup (dkeys d) -> ddel d k = filter (fun p => negb (eqb (fst p) k)) d.
Proof.
  unfold dkeys. induction d as [|[a b] r IH]; intros ND; [reflexivity|]. cbn [ddel filter fst map] in *. inversion ND as [|? ? NI ND']; subst.
  destruct (eq_dec k a) as [->|N].
  - unfold eqb at 1. destruct (eq_dec a a); [|congruence]. cbn [negb]. symmetry. apply filter_all. intros [x y] I. cbn [fst].
    destruct (eqb x a) eqn:Ex; [|reflexivity]. apply eqb_t in Ex. exfalso. apply NI. apply in_map_iff. exists (x, y). auto.
  - unfold eqb at 1. destruct (eq_dec a k); [congruence|]. cbn [negb]. f_equal. now apply IH.
Qed.
Lemma filter_filter {A} (f g : A -> bool) l : filter f (filter g l) = filter (fun x => g x && f x) l.
Proof. induction l as [|x l IH]; [reflexivity|]. cbn. destruct (g x); cbn; [|exact IH]. destruct (f x); now rewrite IH. Qed.
Lemma filter_ext_in' {A} (f g : A -> bool) l : (forall x, In x l -> f x = g x) -> filter f l = filter g l.
Proof. induction l as [|x l IH]; intros H; [reflexivity|]. cbn. rewrite (H x) by now left. rewrite IH by (intros; apply H; now right). reflexivity. Qed.
Lemma dkeys_filter_in {V} (f : pystr * V -> bool) (d : dict pystr V) k : In k (dkeys (filter f d)) -> In k (dkeys d).
Proof. unfold dkeys. intros H. apply in_map_iff in H as (p & <- & I). apply filter_In in I as [I _]. now apply in_map. Qed.
Lemma nodup_filter_keys {V} (f : pystr * V -> bool) (d : dict pystr V) : NoDup (dkeys d) -> NoDup (dkeys (filter f d)).
Proof.
  unfold dkeys. induction d as [|p d IH]; intros ND; [constructor|]. cbn in *. inversion ND; subst. destruct (f p); [|auto]. cbn. constructor; [|auto].
  intros X. apply in_map_iff in X as (q & E & I). apply filter_In in I as [I _]. apply H1. rewrite <- E. now apply in_map.
Qed.
Lemma dget_filter {V} (f : pystr * V -> bool) (d : dict pystr V) k : NoDup (dkeys d) ->
  dget (filter f d) k = match dget d k with Some v => if f (k, v) then Some v else None | None => None end.
Proof.
  intros ND. destruct (dget d k) as [v|] eqn:E.
  - pose proof (dget_in _ _ _ E) as I. destruct (f (k, v)) eqn:F.
    + apply in_dget; [now apply nodup_filter_keys|]. apply filter_In. auto.
    + apply dget_none. intros X. unfold dkeys in X. apply in_map_iff in X as ([k' v'] & Ek & I'). cbn in Ek. subst k'. apply filter_In in I' as [I' F'].
      apply (in_dget _ _ _ ND) in I'. congruence.
  - apply dget_none in E. apply dget_none. intros X. apply E. eapply dkeys_filter_in; eauto.
Qed.

(** ** Well-formed files *)
Definition vnic_in (devs : section) (d : pystr) : Prop := exists t, dget devs d = Some t /\ type_kind t = Some Iface.
Record wf (c : config) : Prop := {
  w_nd : NoDup (dkeys (g_devices c));
  w_plain : forall d, In d (dkeys (g_devices c)) -> plain d;
  w_type : forall d t, dget (g_devices c) d = Some t -> type_kind t <> None;
  w_sec : forall d, In d (dkeys (g_devices c)) -> dhas (g_sections c) d = true;
  w_snd : NoDup (dkeys (g_sections c));
  w_cnd : NoDup (dkeys (g_connections c));
  w_conn : forall d a, dget (g_connections c) d = Some a ->
      vnic_in (g_devices c) d /\ plain a /\ forall t, dget (g_devices c) a = Some t -> type_kind t = Some Access;
  w_rnd : NoDup (dkeys (g_routes c));
  w_route : forall r d, dget (g_routes c) r = Some d -> lower r = r /\ vnic_in (g_devices c) d
}.
Lemma wf_empty : wf config_empty.
Proof. constructor; cbn; try constructor; try contradiction; discriminate. Qed.

Definition clean (c : config) : config :=
  Config (g_devices c) (filter (fun p => dhas (g_devices c) (snd p)) (g_connections c)) (g_routes c) (g_sections c).
Lemma wf_clean c : wf c -> wf (clean c).
Proof.
  intros W. constructor; cbn; try apply W.
  - apply nodup_filter_keys, W.
  - intros d a H. rewrite dget_filter in H by apply W. destruct (dget (g_connections c) d) as [a'|] eqn:E; [|discriminate].
    destruct (dhas _ _); [|discriminate]. injection H as ->. now apply (w_conn _ W).
Qed.
Lemma net_clean c : wf c -> net_eq (net_of (clean c)) (net_of c).
Proof.
  intros W. split; [reflexivity|]. split; [|reflexivity]. intros d. cbn. rewrite dget_filter by apply W.
  destruct (dget (g_connections c) d) as [a|]; [|reflexivity]. cbn [snd]. destruct (dhas (g_devices c) a) eqn:E; [|reflexivity]. now rewrite E.
Qed.
Lemma net_eq_trans a b c : net_eq a b -> net_eq b c -> net_eq a c.
Proof. intros (A1 & A2 & A3) (B1 & B2 & B3). repeat split; intros; congruence. Qed.
Lemma net_eq_sym a b : net_eq a b -> net_eq b a.
Proof. intros (A1 & A2 & A3). repeat split; intros; congruence. Qed.
Lemma net_eq_refl a : net_eq a a.
Proof. repeat split. Qed.

(** ** Loading *)
Definition filt (c : config) (done : list pystr) : section :=
  filter (fun p => dhas (g_devices c) (snd p) || negb (smem done (fst p))) (g_connections c).
Record LInv (c : config) (done seen : list pystr) (m : mgr) : Prop := {
  l_mem : n_mem m = Config (g_devices c) (filt c done) (g_routes c) (g_sections c);
  l_file : n_file m = n_mem m;
  l_nd : NoDup (n_objs m);
  l_sub : forall n, In n (n_objs m) -> In n (dkeys (g_devices c));
  l_if : forall n t, In n (n_objs m) -> dget (g_devices c) n = Some t -> type_kind t = Some Iface -> In n seen
}.
Lemma plain_cons n : plain n -> exists x r, n = x :: r.
Proof. intros [N _]. destruct n; [congruence|eauto]. Qed.
Lemma get_loaded f n m : n <> [] -> In n (n_objs m) -> get_device (S f) n m = (Ok (Some n), m).
Proof. intros N I. cbn [get_device]. destruct n as [|x r]; [congruence|]. apply smem_i in I. now rewrite I. Qed.
Lemma get_absent f n m : n <> [] -> ~ In n (n_objs m) -> sec_get (g_devices (n_mem m)) n = None -> get_device (S f) n m = (Ok None, m).
Proof.
  intros N I E. cbn [get_device]. destruct n as [|x r]; [congruence|]. destruct (smem (n_objs m) (x :: r)) eqn:S; [apply smem_t in S; contradiction|]. now rewrite E.
Qed.
Lemma get_access c done seen m f n t : wf c -> LInv c done seen m -> dget (g_devices c) n = Some t -> type_kind t = Some Access ->
  exists m', get_device (S f) n m = (Ok (Some n), m') /\ LInv c done seen m' /\ In n (n_objs m') /\ incl (n_objs m) (n_objs m').
Proof.
  intros W L E K. pose proof (w_plain _ W n (dget_some_in_keys _ _ _ E)) as P.
  destruct (smem (n_objs m) n) eqn:S.
  { apply smem_t in S. exists m. rewrite get_loaded by (try apply P; assumption). split; [reflexivity|]. split; [exact L|]. split; [exact S|]. intros z Z; exact Z. }
  assert (NI : ~ In n (n_objs m)) by (intros X; apply smem_i in X; congruence).
  exists (Mgr (n_mem m) (n_file m) (n :: n_objs m)). split.
  - cbn [get_device]. destruct (plain_cons n P) as (x & r & ->). rewrite S. unfold sec_get. rewrite plain_lower by exact P. rewrite (l_mem _ _ _ _ L). cbn [g_devices g_sections].
    rewrite E, K, (w_sec _ W) by (eapply dget_some_in_keys; eauto). reflexivity.
  - split; [|split; [now left|intros z Z; now right]]. destruct L as [L1 L2 L3 L4 L5]. constructor; cbn; auto.
    + constructor; assumption.
    + intros z [<-|Z]; [eapply dget_some_in_keys; eauto|auto].
    + intros z t' [<-|Z] E' K'; [congruence|eauto].
Qed.
Lemma filt_same c done n : (forall a, In (n, a) (g_connections c) -> dhas (g_devices c) a = true) -> filt c (n :: done) = filt c done.
Proof.
  intros H. unfold filt. apply filter_ext_in'. intros [k a] I. cbn [fst snd]. destruct (dhas (g_devices c) a) eqn:E; [reflexivity|]. cbn. f_equal.
  unfold smem. destruct (in_dec eq_dec k (n :: done)) as [X|X]; destruct (in_dec eq_dec k done) as [Y|Y]; try reflexivity.
  - destruct X as [->|X]; [|contradiction]. rewrite (H a I) in E. discriminate.
  - exfalso. apply X. now right.
Qed.
Lemma dget_filt c done n : wf c -> ~ In n done -> dget (filt c done) n = dget (g_connections c) n.
Proof.
  intros W N. unfold filt. rewrite dget_filter by apply W. destruct (dget (g_connections c) n) as [a|]; [|reflexivity]. cbn [fst snd].
  unfold smem. destruct (in_dec eq_dec n done); [contradiction|]. now rewrite orb_true_r.
Qed.
Lemma get_iface c done seen m f n t : wf c -> LInv c done seen m -> dget (g_devices c) n = Some t -> type_kind t = Some Iface ->
  ~ In n done -> ~ In n (n_objs m) ->
  exists m', get_device (S (S f)) n m = (Ok (Some n), m') /\ LInv c (n :: done) (n :: seen) m' /\ In n (n_objs m') /\ incl (n_objs m) (n_objs m').
Proof.
  intros W L E K ND NO. pose proof (w_plain _ W n (dget_some_in_keys _ _ _ E)) as P.
  set (m1 := Mgr (n_mem m) (n_file m) (n :: n_objs m)).
  assert (L1 : LInv c done (n :: seen) m1).
  { destruct L as [A1 A2 A3 A4 A5]. constructor; cbn; auto.
    - constructor; assumption.
    - intros z [<-|Z]; [eapply dget_some_in_keys; eauto|auto].
    - intros z t' [<-|Z] E' K'; [now left|right; eauto]. }
  assert (G : get_device (S (S f)) n m =
    match dget (g_connections c) n with
    | None => (Ok (Some n), m1)
    | Some a => let (r, m2) := get_device (S f) a m1 in
        match r with Raise e => (Raise e, m2) | Ok (Some _) => (Ok (Some n), m2) | Ok None => (Ok (Some n), disconnect m2 n) end
    end).
  { remember (S f) as f'. cbn [get_device]. destruct (plain_cons n P) as (x & r & En). rewrite En at 1.
    destruct (smem (n_objs m) n) eqn:S; [apply smem_t in S; contradiction|].
    unfold sec_get at 1. rewrite plain_lower by exact P. rewrite (l_mem _ _ _ _ L) at 1. cbn [g_devices]. rewrite E, K.
    rewrite (l_mem _ _ _ _ L) at 1. cbn [g_sections]. rewrite (w_sec _ W) by (eapply dget_some_in_keys; eauto). cbn [negb].
    fold m1. unfold connected_to, sec_get. rewrite plain_lower by exact P. rewrite (l_mem _ _ _ _ L1). cbn [g_connections].
    rewrite dget_filt by assumption. reflexivity. }
  rewrite G. destruct (dget (g_connections c) n) as [a|] eqn:Ec.
  - destruct (w_conn _ W _ _ Ec) as (_ & Pa & Acc).
    destruct (dget (g_devices c) a) as [ta|] eqn:Ea.
    + destruct (get_access c done (n :: seen) m1 f a ta W L1 Ea (Acc _ eq_refl)) as (m2 & G2 & L2 & I2 & Inc). rewrite G2.
      exists m2. split; [reflexivity|]. split; [|split; [apply Inc; now left|intros z Z; apply Inc; now right]].
      destruct L2 as [A1 A2 A3 A4 A5]. constructor; auto. rewrite filt_same; [exact A1|].
      intros a' I'. apply (in_dget _ _ _ (w_cnd _ W)) in I'. rewrite Ec in I'. injection I' as <-. unfold dhas. now rewrite Ea.
    + rewrite get_absent.
      2:{ apply Pa. }
      2:{ intros X. apply (l_sub _ _ _ _ L1) in X. apply dget_none in Ea. contradiction. }
      2:{ unfold sec_get. rewrite plain_lower by exact Pa. rewrite (l_mem _ _ _ _ L1). exact Ea. }
      exists (disconnect m1 n). split; [reflexivity|].
      assert (D : disconnect m1 n = Mgr (Config (g_devices c) (filt c (n :: done)) (g_routes c) (g_sections c)) (Config (g_devices c) (filt c (n :: done)) (g_routes c) (g_sections c)) (n_objs m1)).
      { unfold disconnect, connected_to, sec_get. rewrite plain_lower by exact P. rewrite (l_mem _ _ _ _ L1) at 1. cbn [g_connections]. rewrite dget_filt by assumption. rewrite Ec.
        destruct (plain_cons a Pa) as (y & r & ->). unfold in_adapter. rewrite (l_mem _ _ _ _ L1). cbn [g_connections].
        assert (I : In n (dkeys (filt c done))). { apply dget_some_in_keys with (v := y :: r). now rewrite dget_filt. }
        apply smem_i in I. rewrite I. unfold set_connections, set_mem, save. rewrite (l_mem _ _ _ _ L1). cbn.
        unfold sec_del. rewrite plain_lower by exact P. rewrite ddel_filter by (apply nodup_filter_keys, W). unfold filt. rewrite filter_filter.
        assert (FE : filter (fun x : pystr * pystr => (dhas (g_devices c) (snd x) || negb (smem done (fst x))) && negb (eqb (fst x) n)) (g_connections c) =
                     filter (fun p : pystr * pystr => dhas (g_devices c) (snd p) || negb (smem (n :: done) (fst p))) (g_connections c)).
        { apply filter_ext_in'. intros [k a'] I'. cbn [fst snd]. unfold smem.
          destruct (eqb k n) eqn:Ek.
          - apply eqb_t in Ek. subst k. apply (in_dget _ _ _ (w_cnd _ W)) in I'. rewrite Ec in I'. injection I' as <-. unfold dhas. rewrite Ea. cbn [orb].
            destruct (in_dec eq_dec n (n :: done)) as [_|X]; [|exfalso; apply X; now left]. cbn. now rewrite andb_false_r.
          - apply eqb_f in Ek. cbn [negb]. rewrite andb_true_r. f_equal. destruct (in_dec eq_dec k (n :: done)) as [[X|X]|X]; destruct (in_dec eq_dec k done) as [Y|Y]; try reflexivity; try congruence; try contradiction.
            exfalso. apply X. now right. }
        rewrite FE. reflexivity. }
      rewrite D. split; [|split; [now left|intros z Z; now right]].
      destruct L1 as [A1 A2 A3 A4 A5]. constructor; cbn; auto.
  - exists m1. split; [reflexivity|]. split; [|split; [now left|intros z Z; now right]].
    destruct L1 as [A1 A2 A3 A4 A5]. constructor; auto. rewrite filt_same; [exact A1|].
    intros a' I'. apply (in_dget _ _ _ (w_cnd _ W)) in I'. congruence.
Qed.
Lemma load_loop c f : wf c -> forall names done m, LInv c done done m -> NoDup names ->
  (forall n, In n names -> In n (dkeys (g_devices c)) /\ ~ In n done) ->
  exists done' m', load_devices (S (S f)) names m = (Ok tt, m') /\ LInv c done' done' m' /\ incl done done' /\
    (forall n, In n names -> In n (n_objs m') /\ (vnic_in (g_devices c) n -> In n done')) /\ incl (n_objs m) (n_objs m').
Proof.
  intros W. induction names as [|n names IH]; intros done m L ND H.
  { exists done, m. split; [reflexivity|]. split; [exact L|]. split; [intros z Z; exact Z|]. split; [intros ? []|intros z Z; exact Z]. }
  inversion ND as [|? ? NI ND']; subst. destruct (H n (or_introl eq_refl)) as [In_ Nd].
  assert (exists t, dget (g_devices c) n = Some t) as [t E]. { destruct (dget (g_devices c) n) eqn:E; [eauto|]. apply dget_none in E. contradiction. }
  destruct (type_kind t) as [[|]|] eqn:K; [| |exfalso; now apply (w_type _ W _ _ E)].
  - assert (NO : ~ In n (n_objs m)). { intros X. apply Nd. exact (l_if _ _ _ _ L n t X E K). }
    destruct (get_iface c done done m f n t W L E K Nd NO) as (m1 & G & L1 & I1 & Inc1).
    destruct (IH (n :: done) m1 L1 ND') as (done' & m' & G' & L' & Id & F & Inc).
    { intros z Z. destruct (H z (or_intror Z)) as [A B]. split; [exact A|]. intros [->|X]; contradiction. }
    exists done', m'. cbn [load_devices]. rewrite G. split; [exact G'|]. split; [exact L'|]. split; [intros z Z; apply Id; now right|]. split.
    + intros z [<-|Z]; [|now apply F]. split; [now apply Inc|]. intros _. apply Id. now left.
    + intros z Z. apply Inc, Inc1, Z.
  - destruct (get_access c done done m (S f) n t W L E K) as (m1 & G & L1 & I1 & Inc1).
    destruct (IH done m1 L1 ND') as (done' & m' & G' & L' & Id & F & Inc).
    { intros z Z. apply (H z (or_intror Z)). }
    exists done', m'. cbn [load_devices]. rewrite G. split; [exact G'|]. split; [exact L'|]. split; [exact Id|]. split.
    + intros z [<-|Z]; [|now apply F]. split; [now apply Inc|]. intros (t' & E' & K'). congruence.
    + intros z Z. apply Inc, Inc1, Z.
Qed.
(** The manager after loading: everything loaded, dangling connections gone. *)
Record ready (c : config) (m : mgr) : Prop := {
  r_mem : n_mem m = c; r_file : n_file m = c; r_nd : NoDup (n_objs m); r_objs : forall n, In n (n_objs m) <-> In n (dkeys (g_devices c))
}.
Lemma load_ok c : wf c -> exists m, load c = (Ok tt, m) /\ ready (clean c) m.
Proof.
  intros W. unfold load, fuel_of.
  destruct (load_loop c (length (g_sections c)) W (dkeys (g_devices c)) [] (Mgr c c [])) as (done & m & G & L & _ & F & _).
  - constructor; cbn; auto; [|constructor|contradiction]. unfold filt. rewrite filter_all; [now destruct c|]. intros [k a] _. cbn. now rewrite orb_true_r.
  - apply W.
  - intros n I. split; [exact I|intros []].
  - exists m. split; [exact G|].
    assert (Fc : filt c done = filter (fun p => dhas (g_devices c) (snd p)) (g_connections c)).
    { unfold filt. apply filter_ext_in'. intros [k a] I. cbn [fst snd]. apply (in_dget _ _ _ (w_cnd _ W)) in I. destruct (w_conn _ W _ _ I) as (V & _ & _).
      assert (X : In k done). { apply F; [|exact V]. destruct V as (t & Et & _). eapply dget_some_in_keys; eauto. }
      apply smem_i in X. rewrite X. cbn. now rewrite orb_false_r. }
    destruct L as [A1 A2 A3 A4 A5]. constructor.
    + rewrite A1. unfold clean. now rewrite Fc.
    + rewrite A2, A1. unfold clean. now rewrite Fc.
    + exact A3.
    + intros n. cbn. split; [apply A4|]. intros X. now apply F.
Qed.
