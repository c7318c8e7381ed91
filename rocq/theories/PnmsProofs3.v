From Coq Require Import String.
From Coq Require Import List ZArith Bool Lia.
From Verif Require Import PyBase PyLemmas AddrModel AddrSpec AddrProofs PnmsModel PnmsSpec PnmsProofs PnmsProofs2.
Import ListNotations.
Open Scope nat_scope.

(** ** Lookup *)
Definition in_block (a : addr) (route : pystr) : Prop := exists b, from_string ClsBlock route = Ok b /\ covers b a.
Lemma loop_ok a o : forall s, (forall r d, In (r, d) s -> r <> default_key -> exists b, from_string ClsBlock r = Ok b) ->
  (exists d, first_match s (in_block a) d /\ routing_loop s a o = Ok (Some d)) \/
  ((forall r d, In (r, d) s -> r <> default_key -> ~ in_block a r) /\ routing_loop s a o = Ok o).
Proof.
  induction s as [|[r d] s IH]; intros V.
  - right. split; [intros ? ? []|reflexivity].
  - cbn [routing_loop]. destruct (eqb r default_key) eqn:E.
    + apply eqb_t in E. destruct IH as [(x & (l & q & t & -> & Nq & Bq & A) & H)|(A & H)].
      * intros r0 d0 I0. apply (V r0 d0). now right.
      * left. exists x. split; [|exact H]. exists ((r, d) :: l), q, t. repeat split; auto. intros p [<-|I]; [intros X; contradiction|now apply A].
      * right. split; [|exact H]. intros r' d' [X|I]; [injection X as <- <-; contradiction|eapply A; eauto].
    + apply eqb_f in E. destruct (V r d (or_introl eq_refl) E) as [b Hb]. rewrite Hb. destruct (is_parent_block b a) eqn:B.
      * left. exists d. split; [|reflexivity]. exists [], r, s. split; [reflexivity|]. split; [exact E|]. split; [exists b; split; [exact Hb|now apply is_parent_covers]|intros ? []].
      * assert (NB : ~ in_block a r). { intros (b' & Hb' & C). assert (b' = b) by congruence. subst. apply is_parent_covers in C. congruence. }
        destruct IH as [(x & (l & q & t & -> & Nq & Bq & A) & H)|(A & H)].
        -- intros r0 d0 I0. apply (V r0 d0). now right.
        -- left. exists x. split; [|exact H]. exists ((r, d) :: l), q, t. repeat split; auto. intros p [<-|I]; [intros _; exact NB|now apply A].
        -- right. split; [|exact H]. intros r' d' [X|I]; [injection X as <- <-; intros _; exact NB|eapply A; eauto].
Qed.
Lemma loop_bad a o r d rest : r <> default_key -> forall l,
  (forall p, In p l -> fst p <> default_key -> (exists b, from_string ClsBlock (fst p) = Ok b) /\ ~ in_block a (fst p)) ->
  forall e, from_string ClsBlock r = Raise e -> routing_loop (l ++ (r, d) :: rest) a o = Raise e.
Proof.
  intros N l. induction l as [|[q x] l IH]; intros A e B; cbn [app routing_loop].
  - rewrite eqb_no by exact N. now rewrite B.
  - destruct (eqb q default_key) eqn:E; [apply IH; auto; intros; apply A; [now right|assumption]|]. apply eqb_f in E.
    destruct (A (q, x) (or_introl eq_refl) E) as [(b & Hb) NB]. cbn [fst] in *. rewrite Hb. destruct (is_parent_block b a) eqn:P.
    + exfalso. apply NB. exists b. split; [exact Hb|now apply is_parent_covers].
    + apply IH; auto. intros; apply A; [now right|assumption].
Qed.

(** ** Histories *)
Lemma runs_wf : forall ks c, wf c -> Forall plain_command ks -> wf (runs ks c).
Proof. induction ks as [|k ks IH]; intros c W P; [exact W|]. inversion P; subst. cbn [runs]. apply IH; [|assumption]. now apply run_ok. Qed.
Lemma runs_effects : forall ks c n, wf c -> Forall plain_command ks -> Forall lasting ks -> net_eq (net_of c) n -> net_eq (net_of (runs ks c)) (effects ks n).
Proof.
  induction ks as [|k ks IH]; intros c n W P L E; [exact E|]. inversion P; subst. inversion L; subst. cbn [runs effects].
  destruct (run_ok c k W) as [W' H]; [assumption|]. apply IH; auto. pose proof (effect_eq k _ _ E) as EE.
  destruct (effect k (net_of c)) as [x|]; destruct (effect k n) as [y|]; try contradiction.
  - destruct H as (_ & H & _). eapply net_eq_trans; [|exact EE]. auto.
  - destruct H as (_ & H). eapply net_eq_trans; eauto.
Qed.

(** ** A device whose section is missing *)
Lemma lower_idem s : lower (lower s) = lower s.
Proof.
  unfold lower. rewrite map_map. apply map_ext. intros c. destruct ((65 <=? c)%Z && (c <=? 90)%Z) eqn:E; [|now rewrite E].
  apply andb_true_iff in E as [E1 E2]. apply Z.leb_le in E1, E2. destruct ((65 <=? c + 32)%Z && (c + 32 <=? 90)%Z) eqn:F; [|reflexivity].
  apply andb_true_iff in F as [_ F]. apply Z.leb_le in F. lia.
Qed.
Definition same_part (m m' : mgr) : Prop :=
  g_devices (n_mem m') = g_devices (n_mem m) /\ g_sections (n_mem m') = g_sections (n_mem m).
Definition objs_ok (m : mgr) : Prop := forall n, In n (n_objs m) -> dhas (g_sections (n_mem m)) n = true.
Lemma disconnect_same m n : same_part m (disconnect m n) /\ n_objs (disconnect m n) = n_objs m.
Proof.
  unfold disconnect, same_part. destruct (connected_to m n) as [[|z a]|]; try now repeat split.
  destruct (in_adapter _ _); repeat split.
Qed.
Lemma get_sections' : forall f n m r m', get_device f n m = (r, m') -> objs_ok m ->
  same_part m m' /\ objs_ok m' /\ (forall o, r = Ok o -> sec_has (g_devices (n_mem m)) n = true -> dhas (g_sections (n_mem m)) n = true).
Proof.
  induction f as [|f IH]; intros n m r m' H O; cbn [get_device] in H; [injection H as <- <-; repeat split; auto; discriminate|].
  destruct n as [|z n']; [injection H as <- <-; repeat split; auto; discriminate|].
  destruct (smem (n_objs m) (z :: n')) eqn:S; [injection H as <- <-; repeat split; auto; intros; apply O; now apply smem_t|].
  unfold sec_has, dhas at 1. unfold sec_get in H. destruct (dget (g_devices (n_mem m)) (lower (z :: n'))) as [t|] eqn:E; [|injection H as <- <-; repeat split; auto; discriminate].
  destruct (type_kind t) as [k|]; [|injection H as <- <-; repeat split; auto; discriminate].
  destruct (dhas (g_sections (n_mem m)) (z :: n')) eqn:D; cbn [negb] in H; [|injection H as <- <-; repeat split; auto; discriminate].
  assert (O1 : objs_ok (Mgr (n_mem m) (n_file m) ((z :: n') :: n_objs m))). { intros y [<-|Y]; [exact D|exact (O y Y)]. }
  destruct k; [|injection H as <- <-; repeat split; auto].
  destruct (connected_to _ (z :: n')) as [a|]; [|injection H as <- <-; repeat split; auto].
  destruct (get_device f a _) as [r2 m2] eqn:G. apply IH in G as ((A1 & A2) & A3 & _); [|exact O1]. cbn [n_mem] in A1, A2.
  destruct r2 as [[x|]|e]; injection H as <- <-.
  - repeat split; auto.
  - destruct (disconnect_same m2 (z :: n')) as ((B1 & B2) & B3). repeat split; auto; try congruence. intros y Y. rewrite B3 in Y. rewrite B2. auto.
  - repeat split; auto.
Qed.
Lemma get_sections f n m : objs_ok m ->
  same_part m (snd (get_device f n m)) /\ objs_ok (snd (get_device f n m)) /\
  (forall o, fst (get_device f n m) = Ok o -> sec_has (g_devices (n_mem m)) n = true -> dhas (g_sections (n_mem m)) n = true).
Proof. destruct (get_device f n m) as [r m'] eqn:G. cbn [fst snd]. intros O. exact (get_sections' f n m r m' G O). Qed.
Lemma load_sections f : forall ns m, objs_ok m -> fst (load_devices f ns m) = Ok tt ->
  forall n, In n ns -> sec_has (g_devices (n_mem m)) n = true -> dhas (g_sections (n_mem m)) n = true.
Proof.
  induction ns as [|x ns IH]; intros m O H n I Hn; [contradiction|]. cbn [load_devices] in H. destruct (get_sections f x m O) as ((A1 & A2) & A3 & A4).
  destruct (get_device f x m) as [[o|e] m1]; cbn [fst snd] in *; [|discriminate]. destruct I as [->|I]; [eapply A4; eauto|].
  rewrite <- A2. apply (IH m1 A3 H n I). now rewrite A1.
Qed.
Lemma load_same f : forall ns m, objs_ok m -> same_part m (snd (load_devices f ns m)) /\ objs_ok (snd (load_devices f ns m)).
Proof.
  induction ns as [|x ns IH]; intros m O; [repeat split; auto|]. cbn [load_devices]. destruct (get_sections f x m O) as ((A1 & A2) & A3 & _).
  destruct (get_device f x m) as [[o|e] m1]; cbn [fst snd] in *; [|repeat split; auto]. destruct (IH m1 A3) as ((B1 & B2) & B3). repeat split; congruence || auto.
Qed.
Lemma add_capital c d t args c' : run (CAdd d t args) c = (Ok tt, c') -> lower d <> d -> dhas (g_sections c) (lower d) = false ->
  In (lower d) (dkeys (g_devices c')) /\ dhas (g_sections c') (lower d) = false.
Proof.
  unfold run. intros H N S. unfold load in H.
  assert (O : objs_ok (Mgr c c [])) by (intros ? []).
  destruct (load_same (fuel_of c) (dkeys (g_devices c)) _ O) as ((A1 & A2) & A3).
  destruct (load_devices _ _ _) as [[u|e] m]; cbn [snd] in *; [|discriminate]. cbn [exec] in H. cbn [n_mem] in *.
  unfold add_device in H. destruct (sec_has (g_devices (n_mem m)) d); [discriminate|]. destruct (type_kind t) as [k|]; [|discriminate].
  set (m1 := set_mem m _) in H.
  assert (O1 : objs_ok m1).
  { intros y Y. cbn in *. unfold dhas. rewrite dget_dset. destruct (eq_dec y d); [reflexivity|]. apply A3, Y. }
  destruct (get_sections (fuel_of (n_mem m1)) d m1 O1) as ((B1 & B2) & _ & _).
  destruct (get_device _ d m1) as [[[x|]|e] m2]; cbn [snd] in *; try discriminate. destruct (settings k args) as [s|e]; [|discriminate].
  injection H as <-. cbn [save set_mem n_file n_mem g_devices g_sections]. rewrite B1, B2. cbn [m1 set_mem n_mem g_devices g_sections]. split.
  - unfold sec_set. apply in_dkeys_dset. now left.
  - unfold dhas in *. rewrite !dget_dset_other by exact N. rewrite A2. exact S.
Qed.
Lemma capital_stuck c n k : In (lower n) (dkeys (g_devices c)) -> dhas (g_sections c) (lower n) = false -> exists e, fst (run k c) = Raise e.
Proof.
  intros I S. unfold run, load. pose proof (load_sections (fuel_of c) (dkeys (g_devices c)) (Mgr c c [])) as L.
  destruct (load_devices _ _ _) as [[[]|e] m]; [|cbn [fst]; eauto]. exfalso. cbn [fst n_mem] in L. rewrite (L (fun _ (x : In _ []) => match x with end) eq_refl (lower n) I) in S; [discriminate|].
  unfold sec_has. rewrite lower_idem. now apply dhas_in.
Qed.

(** ** Settings *)
Lemma iface_flags_ok : forall r auto s, iface_flags r auto = Ok s <-> Forall (fun w => w = lit "manual") r /\ s = match r with [] => auto | _ => s_false end.
Proof.
  induction r as [|w r IH]; intros auto s; cbn [iface_flags].
  - split; [intros H; injection H as <-; split; [constructor|reflexivity]|intros [_ ->]; reflexivity].
  - destruct (eqb w (lit "manual")) eqn:E.
    + apply eqb_t in E. rewrite IH. split.
      * intros [F ->]. split; [constructor; auto|now destruct r].
      * intros [F ->]. inversion F; subst. split; [assumption|now destruct r].
    + apply eqb_f in E. split; [discriminate|]. intros [F _]. inversion F; contradiction.
Qed.
Definition ap_of (os : list apopt) (c : apconf) : apconf :=
  fold_left (fun c o => match o with
    | OManual => ApConf s_false (ap_type c) (ap_addr c) (ap_port c)
    | OAuto => ApConf s_true (ap_type c) (ap_addr c) (ap_port c)
    | OManaged => ApConf (ap_auto c) (lit "managed") (ap_addr c) (ap_port c)
    | ORemote a p => ApConf (ap_auto c) (lit "remote") a p
    | OLocal p => ApConf (ap_auto c) (lit "local") (ap_addr c) p
    | OPublic p => ApConf (ap_auto c) (lit "public") (ap_addr c) p
    end) os c.
Lemma ap_args_words : forall os f c, length (concat (map words os)) < f -> ap_args f (concat (map words os)) c = Ok (ap_of os c).
Proof.
  induction os as [|o os IH]; intros f c L; (destruct f as [|f]; [lia|]); [reflexivity|].
  destruct o; cbn [map concat words app length] in L |- *; cbn [ap_args];
    repeat (match goal with |- context [eqb (lit ?a) (lit ?b)] => let v := eval vm_compute in (eqb (lit a) (lit b)) in change (eqb (lit a) (lit b)) with v end); cbn [orb];
    rewrite IH by lia; reflexivity.
Qed.
Lemma ap_args_inv : forall f args c c', ap_args f args c = Ok c' -> exists os, args = concat (map words os).
Proof.
  induction f as [|f IH]; intros args c c' H; [discriminate|]. cbn [ap_args] in H. destruct args as [|w r]; [exists []; reflexivity|].
  destruct (eqb w (lit "manual")) eqn:E1; [apply eqb_t in E1; subst; destruct (IH _ _ _ H) as [os ->]; exists (OManual :: os); reflexivity|].
  destruct (eqb w (lit "auto-enable")) eqn:E2; [apply eqb_t in E2; subst; destruct (IH _ _ _ H) as [os ->]; exists (OAuto :: os); reflexivity|].
  destruct (eqb w (lit "managed")) eqn:E3; [apply eqb_t in E3; subst; destruct (IH _ _ _ H) as [os ->]; exists (OManaged :: os); reflexivity|].
  destruct (eqb w (lit "remote")) eqn:E4.
  { apply eqb_t in E4; subst. destruct r as [|a [|p r]]; try discriminate. destruct (IH _ _ _ H) as [os ->]; exists (ORemote a p :: os); reflexivity. }
  destruct (eqb w (lit "local")) eqn:E5; [|destruct (eqb w (lit "public")) eqn:E6]; cbn [orb] in H; [| |discriminate].
  - apply eqb_t in E5; subst. destruct r as [|p r]; try discriminate. destruct (IH _ _ _ H) as [os ->]; exists (OLocal p :: os); reflexivity.
  - apply eqb_t in E6; subst. destruct r as [|p r]; try discriminate. destruct (IH _ _ _ H) as [os ->]; exists (OPublic p :: os); reflexivity.
Qed.
Lemma ap_of_spec : forall os, let c := ap_of os (ApConf s_true (lit "managed") [] []) in
  ap_auto c = match last_of enabling os with Some OManual => lit "false" | _ => lit "true" end /\
  match last_of connecting os with
  | Some (ORemote a p) => ap_type c = lit "remote" /\ ap_addr c = a /\ ap_port c = p
  | Some (OLocal p) => ap_type c = lit "local" /\ ap_port c = p
  | Some (OPublic p) => ap_type c = lit "public" /\ ap_port c = p
  | _ => ap_type c = lit "managed"
  end.
Proof.
  intros os. induction os as [|o os IH] using rev_ind; [split; reflexivity|].
  unfold ap_of. rewrite fold_left_app. cbn [fold_left]. fold (ap_of os (ApConf s_true (lit "managed") [] [])).
  unfold last_of in *. rewrite rev_unit. cbn [find]. destruct IH as [I1 I2].
  destruct o; cbn [enabling connecting negb ap_auto ap_type ap_addr ap_port]; (split; [first [exact I1|reflexivity]|first [exact I2|repeat split; reflexivity]]).
Qed.
Lemma ap_settings_words os : ap_settings (concat (map words os)) = Ok (ap_meaning os).
Proof.
  unfold ap_settings. rewrite ap_args_words by lia. unfold ap_meaning. destruct (ap_of_spec os) as [A B]. rewrite A.
  destruct (last_of connecting os) as [[]|]; try (rewrite B; reflexivity).
  - destruct B as (-> & -> & ->). reflexivity.
  - destruct B as (-> & ->). reflexivity.
  - destruct B as (-> & ->). reflexivity.
Qed.
