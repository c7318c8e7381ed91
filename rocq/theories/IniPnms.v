(** * The network's configuration: names and values stay words *)
From Coq Require Import String.
From Coq Require Import List ZArith Bool Lia.
From Verif Require Import PyBase PyLemmas PnmsModel IniModel IniSpec IniProofs IniProofs2 IniProofs3.
Import ListNotations.
Open Scope Z_scope.

(** ** Words *)
Lemma word_char_facts c : word_char c -> ~ space c /\ c <> 61 /\ c <> 58 /\ c <> 10 /\ c <> 13 /\ ~ (65 <= c <= 90) /\ c <> 35 /\ c <> 59 /\ c <> 91.
Proof. unfold word_char, space. cbn [In lit]. vm_compute (Z.of_N _). intro H. repeat split; lia. Qed.
Lemma word_facts s : word s -> stripped s /\ (forall c, In c s -> c <> 61 /\ c <> 58 /\ c <> 10 /\ c <> 13 /\ ~ (65 <= c <= 90)) /\ ~ like_comment s /\ (forall r, s <> 91 :: r).
Proof.
  intros [N F]. rewrite Forall_forall in F. assert (G : forall c, In c s -> _) by (intros c X; exact (word_char_facts c (F c X))).
  split; [|split; [|split]].
  - split; [intros c r ->; apply G; now left|intros r c ->; apply G, in_or_app; right; now left].
  - intros c X. apply G in X. tauto.
  - intros [r [E|E]]; cbn in E; subst s; destruct (G _ (or_introl eq_refl)); tauto.
  - intros r ->. destruct (G 91 (or_introl eq_refl)). tauto.
Qed.
Lemma word_key k : word k -> key_ok k.
Proof. intro W. destruct (word_facts k W) as (A & B & C & _). constructor; [apply W|exact A|exact C|exact B]. Qed.
Lemma word_value v : v = [] \/ word v -> value_ok v.
Proof.
  intros [->|W].
  - constructor; cbn; [tauto| |tauto|destruct a; discriminate]. intros l [<-|[]]. split; [discriminate|]. intros r c E. destruct r; discriminate.
  - destruct (word_facts v W) as (A & B & _). assert (S1 : split_on 10 v = [v]) by (apply split_on_clean; intro X; apply B in X; tauto). constructor.
    + intro X. apply B in X. tauto.
    + rewrite S1. intros l [<-|[]]. exact A.
    + rewrite S1. intros l [].
    + intros a ->. assert (X : In 10 (a ++ [10])) by (apply in_or_app; right; now left). apply B in X. tauto.
Qed.
(** Options and values that are words, in sections of any names of one line, are kept. *)
Lemma plain_options d : plain_section d -> options_ok d.
Proof.
  intros [ND W]. split; [exact ND|]. apply Forall_forall. intros [k v] X. destruct (W k v X) as [Wk Wv]. split; [now apply word_key|]. split; [now apply word_value|].
  cbn [fst snd]. intro H. apply header_shape in H as (r & E & _). destruct (word_facts k Wk) as (_ & _ & _ & N). destruct Wk as [Nk _]. destruct k as [|c k]; [congruence|]. injection E as -> _. now apply (N k).
Qed.

(** ** Sections of words *)
Lemma word_lower k : word k -> lower k = k.
Proof. intro W. destruct (word_facts k W) as (_ & A & _). apply lower_id. intros c X. apply A in X. tauto. Qed.
Lemma ps_set s k v : plain_section s -> word k -> (v = [] \/ word v) -> plain_section (sec_set s k v).
Proof.
  intros [ND W] Wk Wv. unfold sec_set. rewrite (word_lower k Wk). split; [now apply (nodup_dset s k v)|]. intros k' v' X.
  assert (F : Forall (fun kv : pystr * pystr => word (fst kv) /\ (snd kv = [] \/ word (snd kv))) (dset s k v)).
  { apply Forall_dset; [|now split]. apply Forall_forall. intros [a b] Y. now apply W. }
  rewrite Forall_forall in F. exact (F _ X).
Qed.
Lemma ps_del s k : plain_section s -> plain_section (sec_del s k).
Proof.
  intros [ND W]. unfold sec_del. split; [now apply (nodup_ddel s)|]. intros k' v' X. apply (in_ddel s _ _ ND) in X as [X _]. now apply W.
Qed.
Lemma wordb_word_lit s : forallb (fun c => ((97 <=? c) && (c <=? 122)) || ((48 <=? c) && (c <=? 57)) || existsb (Z.eqb c) (lit "_-.@*/")) s = true -> s <> [] -> word s.
Proof.
  intros H N. split; [exact N|]. apply Forall_forall. intros c X. rewrite forallb_forall in H. specialize (H c X).
  rewrite !orb_true_iff, !andb_true_iff, !Z.leb_le in H. unfold word_char. destruct H as [[H|H]|H]; [tauto|tauto|]. right. right. apply existsb_exists in H as (y & Y & E). apply Z.eqb_eq in E. now subst.
Qed.
Ltac litword := apply wordb_word_lit; [reflexivity|discriminate].
Lemma type_word t k : type_kind t = Some k -> word t.
Proof.
  unfold type_kind, eqb. destruct (eq_dec t (lit "vnic")) as [->|_]; [intros _; litword|]. destruct (eq_dec t (lit "switch")) as [->|_]; [intros _; litword|].
  destruct (eq_dec t (lit "unreliable_switch")) as [->|_]; [intros _; litword|]. discriminate.
Qed.
Definition plain_mgr (m : mgr) : Prop := plain (n_mem m) /\ plain (n_file m).
Lemma pm_save m : plain_mgr m -> plain_mgr (save m).
Proof. intros [A _]. now split. Qed.
Lemma pm_connections m s : plain_mgr m -> plain_section s -> plain_mgr (set_connections m s).
Proof. intros [[A B C D] F] P. split; [|exact F]. now constructor. Qed.
Lemma pm_routes m s : plain_mgr m -> plain_section s -> plain_mgr (set_routes m s).
Proof. intros [[A B C D] F] P. split; [|exact F]. now constructor. Qed.
Lemma pm_disconnect m n : plain_mgr m -> plain_mgr (disconnect m n).
Proof.
  intro P. unfold disconnect. destruct (connected_to m n) as [[|]|]; try exact P. apply pm_save. destruct (in_adapter _ _); [|exact P]. apply pm_connections; [exact P|]. apply ps_del. apply P.
Qed.
Lemma pm_objs m o : plain_mgr m -> plain_mgr (Mgr (n_mem m) (n_file m) o).
Proof. exact (fun P => P). Qed.
Lemma pm_get f : forall n m r m', get_device f n m = (r, m') -> plain_mgr m -> plain_mgr m' /\ forall t, r = Ok (Some t) -> t = n.
Proof.
  induction f as [|f IH]; intros n m r m' E P; cbn [get_device] in E; [injection E as <- <-; split; [exact P|discriminate]|].
  destruct n as [|x n]; [injection E as <- <-; split; [exact P|discriminate]|]. set (nm := x :: n) in *. clearbody nm. clear x n.
  destruct (smem (n_objs m) nm); [injection E as <- <-; split; [exact P|congruence]|].
  destruct (sec_get _ nm) as [ty|]; [|injection E as <- <-; split; [exact P|discriminate]].
  destruct (type_kind ty) as [k|]; [|injection E as <- <-; split; [exact P|discriminate]].
  destruct (negb _); [injection E as <- <-; split; [exact P|discriminate]|].
  assert (P1 : plain_mgr (Mgr (n_mem m) (n_file m) (nm :: n_objs m))) by exact P.
  destruct k; [|injection E as <- <-; split; [exact P1|congruence]].
  match type of E with match ?x with _ => _ end = _ => destruct x as [c|]; [|injection E as <- <-; split; [exact P1|congruence]] end.
  match type of E with (let (_, _) := ?x in _) = _ => destruct x as [r2 m2] eqn:G end. destruct (IH _ _ _ _ G P1) as [P2 _].
  destruct r2 as [[t|]|e]; injection E as <- <-; (split; [|congruence]); try exact P2. now apply pm_disconnect.
Qed.
Lemma pm_load ns f : forall m r m', load_devices f ns m = (r, m') -> plain_mgr m -> plain_mgr m'.
Proof.
  induction ns as [|n ns IH]; intros m r m' E P; cbn in E; [injection E as <- <-; exact P|].
  destruct (get_device f n m) as [o m1] eqn:G. destruct (pm_get _ _ _ _ _ G P) as [P1 _]. destruct o; [now apply (IH m1 r m')|]. injection E as <- <-. exact P1.
Qed.
Lemma ps_nil : plain_section [].
Proof. split; [constructor|intros k v []]. Qed.
Lemma pm_sections m n s : plain_mgr m -> word n -> plain_section s ->
  plain_mgr (set_mem m (Config (g_devices (n_mem m)) (g_connections (n_mem m)) (g_routes (n_mem m)) (dset (g_sections (n_mem m)) n s))).
Proof.
  intros [[A B C [ND D]] F] W P. split; [|exact F]. constructor; cbn; try assumption. split; [now apply (nodup_dset (g_sections (n_mem m)))|].
  assert (G : Forall (fun e : pystr * section => ~ In 10 (fst e) /\ ~ In 13 (fst e) /\ plain_section (snd e)) (dset (g_sections (n_mem m)) n s)).
  { apply Forall_dset; [apply Forall_forall; intros [a b] Y; now apply D|]. destruct (word_facts n W) as (_ & X & _). split; [intro Y; apply X in Y; tauto|]. split; [intro Y; apply X in Y; tauto|exact P]. }
  rewrite Forall_forall in G. intros a b Y. exact (G _ Y).
Qed.
Lemma ps_iface args s : Forall word args -> iface_settings args = Ok s -> plain_section s.
Proof.
  intros F E. destruct args as [|a r]; [discriminate|]. inversion F; subst. cbn [iface_settings] in E. destruct (iface_flags r s_true) as [auto|] eqn:X; [|discriminate]. injection E as <-.
  assert (Wa : word auto).
  { clear -X. assert (word s_true) by litword. revert X H. generalize s_true. induction r as [|b r IH]; intros q X W; cbn in X; [injection X as <-; exact W|].
    destruct (eqb b _); [|discriminate]. apply (IH _ X). litword. }
  split; [cbn; repeat constructor; cbn; intuition discriminate|]. intros k v [Y|[Y|[]]]; injection Y as <- <-; (split; [litword|now right]).
Qed.
Lemma ap_words f : forall args c c', Forall word args -> ap_args f args c = Ok c' ->
  word (ap_auto c) -> word (ap_type c) -> (ap_addr c = [] \/ word (ap_addr c)) -> (ap_port c = [] \/ word (ap_port c)) ->
  word (ap_auto c') /\ word (ap_type c') /\ (ap_addr c' = [] \/ word (ap_addr c')) /\ (ap_port c' = [] \/ word (ap_port c')).
Proof.
  induction f as [|f IH]; intros args c c' F E A B C D; cbn [ap_args] in E; [discriminate|]. destruct args as [|a r]; [injection E as <-; split; [exact A|split; [exact B|split; [exact C|exact D]]]|].
  inversion F; subst. destruct (eqb a (lit "manual")); [apply (IH _ _ _ H2 E); try assumption; litword|]. destruct (eqb a (lit "auto-enable")); [apply (IH _ _ _ H2 E); try assumption; litword|].
  destruct (eqb a (lit "managed")); [now apply (IH _ _ _ H2 E)|]. destruct (eqb a (lit "remote")).
  - destruct r as [|x [|p r]]; try discriminate. inversion H2; subst. inversion H4; subst. apply (IH _ _ _ H6 E); try assumption; now right.
  - destruct (_ || _); [|discriminate]. destruct r as [|p r]; [discriminate|]. inversion H2; subst. apply (IH _ _ _ H4 E); try assumption. now right.
Qed.
Lemma ps_ap args s : Forall word args -> ap_settings args = Ok s -> plain_section s.
Proof.
  intros F E. unfold ap_settings in E. destruct (ap_args _ args _) as [c|] eqn:X; [|discriminate].
  apply ap_words in X as (A & B & C & D); [|exact F|litword|litword|now left|now left].
  assert (N : forall l : section, s = l -> NoDup (map fst l) -> (forall k v, In (k, v) l -> word k /\ (v = [] \/ word v)) -> plain_section s) by (intros l -> N1 N2; now split).
  destruct (eqb (ap_type c) (lit "managed")); [|destruct (eqb (ap_type c) (lit "remote"))]; injection E as E; symmetry in E; apply (N _ E).
  1,3,5: cbn; repeat constructor; cbn; intuition discriminate.
  all: intros k v Y; cbn [app In] in Y; repeat destruct Y as [Y|Y]; try contradiction; injection Y as <- <-; (split; [litword|]); tauto.
Qed.
Lemma pm_mem m c : plain c -> plain_mgr m -> plain_mgr (set_mem m c).
Proof. intros A [_ B]. now split. Qed.
Lemma pm_add n t args m r m' : word n -> Forall word args -> add_device n t args m = (r, m') -> plain_mgr m -> plain_mgr m'.
Proof.
  intros W F E P. unfold add_device in E. destruct (sec_has _ n); [injection E as <- <-; exact P|]. destruct (type_kind t) as [k|] eqn:K; [|injection E as <- <-; exact P].
  set (m1 := set_mem m _) in E. assert (P1 : plain_mgr m1).
  { pose proof (pm_sections m n [] P W ps_nil) as [Q _]. destruct Q as [A B C D]. cbn in A, B, C, D. split; [|apply P]. constructor; cbn; try assumption. apply ps_set; [exact A|exact W|right; now apply type_word in K]. }
  clearbody m1. cbn zeta in E. destruct (get_device _ n m1) as [r2 m2] eqn:G. destruct (pm_get _ _ _ _ _ G P1) as [P2 _].
  destruct r2 as [[d|]|e]; [|injection E as <- <-; exact P2|injection E as <- <-; exact P2].
  destruct (settings k args) as [s|e] eqn:S1; injection E as <- <-; [|exact P2]. apply pm_save. apply pm_sections; [exact P2|exact W|]. destruct k; [now apply (ps_iface args)|now apply (ps_ap args)].
Qed.
Lemma ps_remove_routes rs d : forall s s', remove_routes rs d s = Ok s' -> plain_section s -> plain_section s'.
Proof.
  induction rs as [|r rs IH]; intros s s' E P; cbn in E; [injection E as <-; exact P|]. destruct (remove_route s d r) as [s1|] eqn:R; [|discriminate]. apply (IH _ _ E).
  unfold remove_route in R. destruct (negb _); [discriminate|]. destruct (negb _); [discriminate|]. injection R as <-. now apply ps_del.
Qed.
Lemma pm_remove n m r m' : remove_device n m = (r, m') -> plain_mgr m -> plain_mgr m'.
Proof.
  intros E P. unfold remove_device in E. destruct (negb _); [injection E as <- <-; exact P|]. destruct (get_device _ n m) as [r1 m1] eqn:G. destruct (pm_get _ _ _ _ _ G P) as [P1 _].
  destruct r1 as [[d|]|e]; [|injection E as <- <-; exact P1|injection E as <- <-; exact P1]. cbn zeta in E.
  match type of E with match fst ?x with _ => _ end = _ => assert (P2 : plain_mgr (snd x)); [|destruct x as [[u|e] m3]] end.
  - destruct (kind_of m1 n) as [[|]|]; try exact P1. pose proof (pm_disconnect m1 n P1) as Pd. destruct (remove_routes _ n _) as [s|] eqn:R; [|exact Pd]. apply pm_routes; [exact Pd|]. apply (ps_remove_routes _ _ _ _ R). apply Pd.
  - cbn in E, P2. injection E as <- <-. apply pm_save. destruct P2 as [[A B C [ND D]] Fl]. split; [|exact Fl]. constructor; cbn; try assumption; [now apply ps_del|].
    split; [now apply (nodup_ddel (g_sections (n_mem m3)))|]. intros a b Y. apply (in_ddel _ _ _ ND) in Y as [Y _]. now apply D.
  - cbn in E, P2. injection E as <- <-. exact P2.
Qed.
Lemma pm_iface n m k r m' : with_iface n m k = (r, m') -> plain_mgr m -> (forall m1 r m', plain_mgr m1 -> k m1 = (r, m') -> plain_mgr m') -> plain_mgr m'.
Proof.
  intros E P H. unfold with_iface in E. destruct (get_device _ n m) as [r1 m1] eqn:G. destruct (pm_get _ _ _ _ _ G P) as [P1 _].
  destruct r1 as [[d|]|e]; [|injection E as <- <-; exact P1|injection E as <- <-; exact P1]. destruct (kind_of m1 n) as [[|]|]; [now apply (H m1 r)|injection E as <- <-; exact P1|injection E as <- <-; exact P1].
Qed.
Lemma pm_exec k m r m' : word_command k -> exec k m = (r, m') -> plain_mgr m -> plain_mgr m'.
Proof.
  intros W E P. destruct k as [n t args|n|n t|n|n rt|n rt|]; cbn in W, E.
  - destruct W as (W1 & _ & W2). now apply (pm_add n t args m r).
  - now apply (pm_remove n m r).
  - apply (pm_iface _ _ _ _ _ E P). intros m1 r1 m1' P1 X. destruct (get_device _ t m1) as [r2 m2] eqn:G. destruct (pm_get _ _ _ _ _ G P1) as [P2 T].
    destruct r2 as [[d|]|e]; [|injection X as <- <-; exact P2|injection X as <- <-; exact P2]. rewrite (T d eq_refl) in X. destruct (kind_of m2 t) as [[|]|]; injection X as <- <-; try exact P2.
    apply pm_save, pm_connections; [exact P2|]. apply ps_set; [apply P2|apply W|right; apply W].
  - apply (pm_iface _ _ _ _ _ E P). intros m1 r1 m1' P1 X. injection X as <- <-. now apply pm_disconnect.
  - apply (pm_iface _ _ _ _ _ E P). intros m1 r1 m1' P1 X. cbn zeta in X. destruct W as [W1 W2]. destruct (is_default rt).
    + injection X as <- <-. apply pm_save, pm_routes; [exact P1|]. apply ps_set; [apply P1|litword|now right].
    + unfold add_route in X. destruct (in_adapter _ _); injection X as <- <-; [exact P1|]. apply pm_save, pm_routes; [exact P1|]. apply ps_set; [apply P1|exact W2|now right].
  - apply (pm_iface _ _ _ _ _ E P). intros m1 r1 m1' P1 X. cbn zeta in X. destruct (is_default rt).
    + unfold unset_default_route in X. destruct (eqb _ _); injection X as <- <-; [|exact P1]. apply pm_save, pm_routes; [exact P1|]. apply ps_del. apply P1.
    + unfold remove_route in X. destruct (negb _); [injection X as <- <-; exact P1|]. destruct (negb _); injection X as <- <-; [exact P1|]. apply pm_routes; [exact P1|]. apply ps_del. apply P1.
  - injection E as <- <-. exact P.
Qed.
Lemma plain_run k f : word_command k -> plain f -> plain (snd (run k f)).
Proof.
  intros W P. unfold run. destruct (load f) as [r m] eqn:L. unfold load in L. assert (Pm : plain_mgr m) by (apply (pm_load _ _ _ _ _ L); now split).
  destruct r; [|apply Pm]. destruct (exec k m) as [o m'] eqn:E. cbn. now apply (pm_exec k m o m').
Qed.
Lemma plain_runs ks : forall f, Forall word_command ks -> plain f -> plain (runs ks f).
Proof. induction ks as [|k ks IH]; intros f F P; [exact P|]. inversion F; subst. cbn. apply IH; [assumption|]. now apply plain_run. Qed.
Lemma plain_empty : plain config_empty.
Proof. constructor; try apply ps_nil. split; [constructor|intros n s []]. Qed.
Lemma cut_app p s : cut p (p ++ s) = Some s.
Proof. induction p as [|x p IH]; [reflexivity|]. cbn. now rewrite Z.eqb_refl. Qed.
Lemma config_of_ini c : config_of (ini_of c) = c.
Proof.
  destruct c as [d cn r ss]. assert (F : flat_map (fun s => match cut (lit "Config_") (fst s) with Some n => [(n, snd s)] | None => [] end) (i_sects (ini_of (Config d cn r ss))) = ss).
  { unfold ini_of. cbn [i_sects g_devices g_connections g_routes g_sections app flat_map fst snd].
    change (cut (lit "Config_") (lit "devices")) with (@None pystr). change (cut (lit "Config_") (lit "connections")) with (@None pystr). change (cut (lit "Config_") (lit "routes")) with (@None pystr).
    cbn [app]. induction ss as [|[n s] ss IH]; [reflexivity|]. cbn [map flat_map fst snd]. rewrite cut_app. cbn [app]. now rewrite IH. }
  unfold config_of. rewrite F. reflexivity.
Qed.
