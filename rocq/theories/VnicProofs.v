(** * Proofs about the VNIC, part 1: closing *)
From Coq Require Import List ZArith Bool Lia.
From Verif Require Import PyBase PyLemmas VnicModel VnicSpec.
Import ListNotations.
Open Scope Z_scope.

(** ** lists of objects *)
Lemma nth_upd {A} n (f : A -> A) l m : nth_error (upd n f l) m =
  if Nat.eqb n m then option_map f (nth_error l n) else nth_error l m.
Proof.
  unfold upd. destruct (nth_error l n) as [x|] eqn:E.
  - apply nth_error_split in E. destruct E as (l1 & l2 & -> & <-).
    assert (S1 : firstn (length l1) (l1 ++ x :: l2) = l1) by (rewrite firstn_app, firstn_all, Nat.sub_diag; apply app_nil_r).
    assert (S2 : skipn (S (length l1)) (l1 ++ x :: l2) = l2) by (clear; induction l1 as [|y l1 IH]; [reflexivity|exact IH]).
    rewrite S1, S2. destruct (Nat.eqb_spec (length l1) m) as [<-|N].
    + rewrite nth_error_app2, Nat.sub_diag by lia. reflexivity.
    + destruct (Nat.lt_ge_cases m (length l1)).
      * rewrite !nth_error_app1 by lia. reflexivity.
      * rewrite !nth_error_app2 by lia. destruct (m - length l1)%nat eqn:D; [lia|]. reflexivity.
  - destruct (Nat.eqb_spec n m) as [<-|N]; [rewrite E; reflexivity|reflexivity].
Qed.
Lemma length_upd {A} n (f : A -> A) l : length (upd n f l) = length l.
Proof.
  unfold upd. destruct (nth_error l n) as [x|] eqn:E; [|reflexivity].
  apply nth_error_split in E. destruct E as (l1 & l2 & -> & <-).
  assert (S1 : firstn (length l1) (l1 ++ x :: l2) = l1) by (rewrite firstn_app, firstn_all, Nat.sub_diag; apply app_nil_r).
  assert (S2 : skipn (S (length l1)) (l1 ++ x :: l2) = l2) by (clear; induction l1 as [|y l1 IH]; [reflexivity|exact IH]).
  rewrite S1, S2, !app_length. reflexivity.
Qed.
Lemma nth_upd_same {A} n (f : A -> A) l x : nth_error l n = Some x -> nth_error (upd n f l) n = Some (f x).
Proof. intros E. rewrite nth_upd, Nat.eqb_refl, E. reflexivity. Qed.
Lemma nth_upd_other {A} n (f : A -> A) l m : n <> m -> nth_error (upd n f l) m = nth_error l m.
Proof. intros N. rewrite nth_upd. destruct (Nat.eqb_spec n m); congruence. Qed.

Lemma about_app k l1 l2 : about k (l1 ++ l2) = about k l1 ++ about k l2.
Proof. unfold about. apply filter_app. Qed.

(** ** number of open controls *)
Definition open_count (l : list sctl) : nat := length (filter (fun x => negb (sc_closed x)) l).
Definition mono (l l' : list sctl) : Prop :=
  length l = length l' /\ forall c x, nth_error l c = Some x -> exists x', nth_error l' c = Some x' /\ (sc_closed x = true -> sc_closed x' = true).
Lemma mono_refl l : mono l l.
Proof. split; [reflexivity|]. eauto. Qed.
Lemma mono_trans a b c : mono a b -> mono b c -> mono a c.
Proof.
  intros [L1 M1] [L2 M2]. split; [congruence|]. intros i x E. destruct (M1 i x E) as (x1 & E1 & C1). destruct (M2 i x1 E1) as (x2 & E2 & C2). eauto.
Qed.
Lemma mono_count l : forall l', mono l l' -> (open_count l' <= open_count l)%nat.
Proof.
  induction l as [|x l IH]; intros [|x' l'] [L M]; try discriminate; [lia|]. unfold open_count in *. cbn [filter].
  destruct (M 0%nat x eq_refl) as (y & Ey & C). cbn in Ey. injection Ey as <-.
  assert (M' : mono l l') by (split; [cbn in L; lia|]; intros c z E; exact (M (S c) z E)).
  specialize (IH l' M'). destruct (sc_closed x) eqn:E1, (sc_closed x') eqn:E2; cbn [negb length]; try lia.
Qed.
Lemma mono_upd n f l : (forall x, sc_closed x = true -> sc_closed (f x) = true) -> mono l (upd n f l).
Proof.
  intros Hf. split; [symmetry; apply length_upd|]. intros c x E. rewrite nth_upd. destruct (Nat.eqb_spec n c) as [->|N]; [|eauto].
  rewrite E. cbn. eauto.
Qed.
Lemma count_shut c x l : nth_error l c = Some x -> sc_closed x = false -> S (open_count (upd c sc_shut l)) = open_count l.
Proof.
  intros E C. unfold upd. rewrite E. apply nth_error_split in E. destruct E as (l1 & l2 & -> & <-).
  assert (S1 : firstn (length l1) (l1 ++ x :: l2) = l1) by (rewrite firstn_app, firstn_all, Nat.sub_diag; apply app_nil_r).
  assert (S2 : skipn (S (length l1)) (l1 ++ x :: l2) = l2) by (clear; induction l1 as [|y l1 IH]; [reflexivity|exact IH]).
  rewrite S1, S2. unfold open_count. rewrite !filter_app. cbn [filter sc_shut sc_closed negb]. rewrite C. cbn [negb]. rewrite !app_length. cbn [length]. lia.
Qed.
Lemma count_le l : (open_count l <= length l)%nat.
Proof. unfold open_count. induction l as [|x l IH]; cbn [filter]; [lia|]. destruct (negb (sc_closed x)); cbn [length]; lia. Qed.

Lemma conn_mono rec k s : (forall c s, mono (v_ctls s) (v_ctls (fst (rec c s)))) -> mono (v_ctls s) (v_ctls (fst (close_connection rec k s))).
Proof.
  intros R. unfold close_connection. destruct (dget (v_conns s) k) as [cd|]; [|apply mono_refl]. cbn [v_ctls set_ctls set_conns].
  assert (M : mono (v_ctls s) (upd (cn_ctl cd) (sc_drop_key k) (v_ctls s))) by (apply mono_upd; auto).
  destruct (nth_error _ _) as [x|]; [|exact M]. destruct (negb (sc_closed x) && negb (sc_listen x)); [|exact M].
  match goal with |- context [rec ?c ?s2] => specialize (R c s2); destruct (rec c s2) as [s3 l3] end. cbn [fst v_ctls] in R |- *.
  eapply mono_trans; [exact M|exact R].
Qed.
Lemma conns_mono rec ks : (forall c s, mono (v_ctls s) (v_ctls (fst (rec c s)))) -> forall s, mono (v_ctls s) (v_ctls (fst (close_connections rec ks s))).
Proof.
  intros R. induction ks as [|k ks IH]; intros s; [apply mono_refl|]. cbn [close_connections].
  pose proof (conn_mono rec k s R) as M1. destruct (close_connection rec k s) as [s1 l1]. specialize (IH s1).
  destruct (close_connections rec ks s1) as [s2 l2]. cbn [fst] in *. eapply mono_trans; eauto.
Qed.
Lemma close_mono f : forall c s, mono (v_ctls s) (v_ctls (fst (close_ctl f c s))).
Proof.
  induction f as [|f IH]; intros c s; [apply mono_refl|]. cbn [close_ctl]. destruct (nth_error (v_ctls s) c) as [x|]; [|apply mono_refl].
  destruct (sc_closed x); [apply mono_refl|].
  assert (M0 : mono (v_ctls s) (upd c sc_shut (v_ctls s))) by (apply mono_upd; reflexivity).
  pose proof (conns_mono (close_ctl f) (sc_keys x) IH (set_ctls (upd c sc_shut (v_ctls s)) s)) as M1.
  destruct (close_connections (close_ctl f) (sc_keys x) (set_ctls (upd c sc_shut (v_ctls s)) s)) as [s2 l2]. cbn [fst v_ctls set_ctls] in M1.
  assert (M2 : mono (v_ctls s) (v_ctls s2)) by (eapply mono_trans; eauto).
  destruct (sc_port x) as [p|]; [|exact M2]. destruct (dget (v_ports s2) p) as [c'|]; [|exact M2].
  specialize (IH c' (set_ports (ddel (v_ports s2) p) s2)). destruct (close_ctl f c' _) as [s3 l3]. cbn [fst v_ctls set_ports] in *. eapply mono_trans; eauto.
Qed.
(** more fuel than open controls changes nothing *)
Lemma conns_ext n r1 r2 ks : (forall c s, (open_count (v_ctls s) <= n)%nat -> r1 c s = r2 c s) -> (forall c s, mono (v_ctls s) (v_ctls (fst (r1 c s)))) ->
  forall s, (open_count (v_ctls s) <= n)%nat -> close_connections r1 ks s = close_connections r2 ks s.
Proof.
  intros E M. induction ks as [|k ks IH]; intros s L; [reflexivity|]. cbn [close_connections].
  assert (X : close_connection r1 k s = close_connection r2 k s).
  { unfold close_connection. destruct (dget (v_conns s) k) as [cd|]; [|reflexivity]. cbn [v_ctls set_ctls set_conns].
    destruct (nth_error _ _) as [x|]; [|reflexivity]. destruct (negb (sc_closed x) && negb (sc_listen x)); [|reflexivity].
    rewrite E; [reflexivity|]. cbn [v_ctls set_ctls set_conns]. pose proof (mono_count _ _ (mono_upd (cn_ctl cd) (sc_drop_key k) (v_ctls s) (fun x H => H))). lia. }
  rewrite <- X. pose proof (conn_mono r1 k s M) as M1. destruct (close_connection r1 k s) as [s1 l1]. cbn [fst] in M1. apply mono_count in M1.
  rewrite IH by lia. reflexivity.
Qed.
Lemma close_fuel f : forall g c s, (open_count (v_ctls s) <= f)%nat -> (open_count (v_ctls s) <= g)%nat -> close_ctl f c s = close_ctl g c s.
Proof.
  induction f as [|f IH]; intros [|g] c s Lf Lg; try reflexivity.
  - cbn [close_ctl]. destruct (nth_error (v_ctls s) c) as [x|] eqn:E; [|reflexivity]. destruct (sc_closed x) eqn:C; [reflexivity|].
    pose proof (count_shut _ _ _ E C). lia.
  - cbn [close_ctl]. destruct (nth_error (v_ctls s) c) as [x|] eqn:E; [|reflexivity]. destruct (sc_closed x) eqn:C; [reflexivity|].
    pose proof (count_shut _ _ _ E C). lia.
  - cbn [close_ctl]. destruct (nth_error (v_ctls s) c) as [x|] eqn:E; [|reflexivity]. destruct (sc_closed x) eqn:C; [reflexivity|].
    pose proof (count_shut _ _ _ E C) as Cs. set (s1 := set_ctls (upd c sc_shut (v_ctls s)) s).
    assert (L1 : (open_count (v_ctls s1) <= Nat.min f g)%nat) by (cbn [s1 v_ctls set_ctls]; lia).
    rewrite (conns_ext (Nat.min f g) (close_ctl f) (close_ctl g)); [| |apply close_mono|exact L1].
    2:{ intros c' s' L'. apply IH; lia. }
    pose proof (conns_mono (close_ctl g) (sc_keys x) (close_mono g) s1) as M. destruct (close_connections (close_ctl g) (sc_keys x) s1) as [s2 l2]. cbn [fst] in M.
    apply mono_count in M. destruct (sc_port x) as [p|]; [|reflexivity]. destruct (dget (v_ports s2) p) as [c'|]; [|reflexivity].
    rewrite (IH g); [reflexivity| |]; cbn [v_ctls set_ports]; lia.
Qed.

(** ** what closing does *)
Record static (x x' : sctl) : Prop := { st_proto : sc_proto x' = sc_proto x; st_id : sc_id x' = sc_id x; st_listen : sc_listen x' = sc_listen x; st_port : sc_port x' = sc_port x }.
Definition gone_log (k : key) (cd : conn) : list vlog := LGone k :: match cn_writer cd with Some t => [LClose k t] | None => [] end.
Record closes (s : vnic) (l : list vlog) (s' : vnic) : Prop := {
  cl_same : v_addr s' = v_addr s /\ v_protos s' = v_protos s /\ v_pos s' = v_pos s /\ v_pending s' = v_pending s /\ v_revs s' = v_revs s /\ v_dumps s' = v_dumps s;
  cl_len : length (v_ctls s') = length (v_ctls s);
  cl_ctl : forall c x, nth_error (v_ctls s) c = Some x -> exists x', nth_error (v_ctls s') c = Some x' /\ static x x' /\
     (sc_closed x = true -> sc_closed x' = true) /\ incl (sc_keys x') (sc_keys x) /\
     (sc_closed x = false -> (sc_closed x' = true -> sc_keys x' = []) /\ forall k, In k (sc_keys x) -> ~ In k (sc_keys x') -> dget (v_conns s') k = None);
  cl_conn : forall k, (dget (v_conns s') k = dget (v_conns s) k /\ about k l = []) \/
     (exists cd, dget (v_conns s) k = Some cd /\ dget (v_conns s') k = None /\ about k l = gone_log k cd);
  cl_port : forall p, dget (v_ports s') p = dget (v_ports s) p \/
     (dget (v_ports s') p = None /\ exists c x', dget (v_ports s) p = Some c /\ nth_error (v_ctls s') c = Some x' /\ sc_closed x' = true);
  cl_nodup : (NoDup (dkeys (v_conns s)) -> NoDup (dkeys (v_conns s'))) /\ (NoDup (dkeys (v_ports s)) -> NoDup (dkeys (v_ports s')));
  cl_log : Forall (fun e => exists k, e = LGone k \/ exists t, e = LClose k t) l }.
Lemma closes_refl s : closes s [] s.
Proof.
  constructor; auto 10.
  - intros c x E. exists x. split; [exact E|]. split; [constructor; reflexivity|]. split; [auto|]. split; [apply incl_refl|]. intros O. split; [congruence|]. intros k A B. contradiction.
Qed.
Lemma closes_trans s l1 s1 l2 s2 : closes s l1 s1 -> closes s1 l2 s2 -> closes s (l1 ++ l2) s2.
Proof.
  intros A B. constructor.
  - destruct (cl_same _ _ _ A) as (a1 & a2 & a3 & a4 & a5 & a6). destruct (cl_same _ _ _ B) as (b1 & b2 & b3 & b4 & b5 & b6).
    rewrite b1, b2, b3, b4, b5, b6. auto 10.
  - rewrite (cl_len _ _ _ B). apply (cl_len _ _ _ A).
  - intros c x E. destruct (cl_ctl _ _ _ A c x E) as (x1 & E1 & S1 & C1 & I1 & D1). destruct (cl_ctl _ _ _ B c x1 E1) as (x2 & E2 & S2 & C2 & I2 & D2).
    exists x2. split; [exact E2|]. split; [|split; [auto|split]].
    + destruct S1, S2. constructor; congruence.
    + intros k Hk. apply I1, I2, Hk.
    + intros O. destruct (D1 O) as [K1 N1]. split.
      * intros Cx2. destruct (sc_closed x1) eqn:X; [|apply (D2 eq_refl); exact Cx2].
        specialize (K1 eq_refl). destruct (sc_keys x2) as [|k0 r]; [reflexivity|]. exfalso. rewrite K1 in I2. exact (I2 k0 (or_introl eq_refl)).
      * intros k Hk Nk. destruct (in_dec eq_dec k (sc_keys x1)) as [H1|H1].
        -- destruct (sc_closed x1) eqn:X; [rewrite K1 in H1 by reflexivity; contradiction|]. apply (D2 eq_refl); auto.
        -- pose proof (N1 k Hk H1) as N. destruct (cl_conn _ _ _ B k) as [[e _]|(cd & e & _)]; congruence.
  - intros k. rewrite about_app. destruct (cl_conn _ _ _ A k) as [[e1 a1]|(cd & e1 & e1' & a1)]; destruct (cl_conn _ _ _ B k) as [[e2 a2]|(cd2 & e2 & e2' & a2)].
    + left. rewrite a1, a2. split; [congruence|reflexivity].
    + right. exists cd2. rewrite a1, a2. split; [congruence|]. auto.
    + right. exists cd. rewrite a1, a2, app_nil_r. split; [exact e1|]. split; [congruence|reflexivity].
    + congruence.
  - intros p. destruct (cl_port _ _ _ B p) as [e|(e & c & x' & P & N & C)].
    + rewrite e. destruct (cl_port _ _ _ A p) as [e1|(e1 & c & x' & P & N & C)]; [left; exact e1|right]. split; [exact e1|].
      destruct (cl_ctl _ _ _ B c x' N) as (x2 & E2 & _ & C2 & _). exists c, x2. auto.
    + right. split; [exact e|]. exists c, x'. split; [|auto]. destruct (cl_port _ _ _ A p) as [e1|(e1 & _)]; congruence.
  - destruct (cl_nodup _ _ _ A) as [a1 a2], (cl_nodup _ _ _ B) as [b1 b2]. auto.
  - apply Forall_app. split; [apply (cl_log _ _ _ A)|apply (cl_log _ _ _ B)].
Qed.
Lemma closes_closed s l s' c x : closes s l s' -> nth_error (v_ctls s) c = Some x -> sc_closed x = true -> exists x', nth_error (v_ctls s') c = Some x' /\ sc_closed x' = true.
Proof. intros A E C. destruct (cl_ctl _ _ _ A c x E) as (x' & E' & _ & C' & _). eauto. Qed.

(** ports and controls agree (W1a: also for closed controls; W2) *)
Definition ports_ok (s : vnic) : Prop :=
  (forall p c, dget (v_ports s) p = Some c -> exists x, nth_error (v_ctls s) c = Some x /\ sc_port x = Some p) /\
  (forall c x p, is_open s c x -> sc_port x = Some p -> dget (v_ports s) p = Some c) /\
  NoDup (dkeys (v_ports s)) /\ NoDup (dkeys (v_conns s)).
(** the ports of controls closed between two states are free *)
Definition freed (s s' : vnic) : Prop := forall c x x' p, is_open s c x -> nth_error (v_ctls s') c = Some x' -> sc_closed x' = true ->
  sc_port x = Some p -> dget (v_ports s') p = None.
Lemma freed_trans s l1 s1 l2 s2 : closes s l1 s1 -> closes s1 l2 s2 -> freed s s1 -> freed s1 s2 -> freed s s2.
Proof.
  intros A B F1 F2 c x x' p [E O] E' C P. destruct (cl_ctl _ _ _ A c x E) as (x1 & E1 & S1 & C1 & _).
  destruct (sc_closed x1) eqn:X.
  - pose proof (F1 c x x1 p (conj E O) E1 X P) as N. destruct (cl_port _ _ _ B p) as [e|(e & _)]; congruence.
  - apply (F2 c x1 x'); auto; [split; auto|]. rewrite (st_port _ _ S1). exact P.
Qed.
Lemma freed_refl s : freed s s.
Proof. intros c x x' p [E O] E' C. congruence. Qed.

Definition closer_ok (n : nat) (rec : nat -> vnic -> vnic * list vlog) : Prop :=
  forall c s, (open_count (v_ctls s) <= n)%nat -> ports_ok s ->
  exists s' l, rec c s = (s', l) /\ closes s l s' /\ ports_ok s' /\ freed s s' /\
    (forall x', nth_error (v_ctls s') c = Some x' -> sc_closed x' = true).

Lemma close_connection_ok n rec k s : closer_ok n rec -> (open_count (v_ctls s) <= n)%nat -> ports_ok s ->
  exists s' l, close_connection rec k s = (s', l) /\ closes s l s' /\ ports_ok s' /\ freed s s' /\ dget (v_conns s') k = None.
Proof.
  intros R L P. unfold close_connection. destruct (dget (v_conns s) k) as [cd|] eqn:G.
  2:{ exists s, []. split; [reflexivity|]. split; [apply closes_refl|]. split; [exact P|]. split; [apply freed_refl|exact G]. }
  cbn [v_ctls set_ctls set_conns].
  set (s2 := set_ctls _ _).
  assert (P' := P). destruct P' as (P1 & P2 & P3 & P4).
  assert (A : closes s (gone_log k cd) s2).
  { constructor; unfold s2; cbn [v_addr v_protos v_pos v_pending v_revs v_dumps v_ctls v_conns v_ports set_ctls set_conns].
    - auto 10.
    - apply length_upd.
    - intros c x E. rewrite nth_upd. destruct (Nat.eqb_spec (cn_ctl cd) c) as [Ec|N].
      + rewrite Ec, E. cbn [option_map]. eexists. split; [reflexivity|]. split; [constructor; reflexivity|]. cbn [sc_closed sc_keys sc_drop_key]. split; [auto|]. split.
        * intros k' Hk. apply filter_In in Hk. apply Hk.
        * intros O. split; [congruence|]. intros k' Hk Nk. destruct (eq_dec k' k) as [->|Ne]; [rewrite dget_ddel by exact P4; destruct (eq_dec k k); congruence|].
          exfalso. apply Nk. apply filter_In. split; [exact Hk|]. unfold eqb. destruct (eq_dec k' k); [congruence|reflexivity].
      + exists x. split; [exact E|]. split; [constructor; reflexivity|]. split; [auto|]. split; [apply incl_refl|]. intros O. split; [congruence|]. intros k' H1 H2. contradiction.
    - intros k'. rewrite dget_ddel by exact P4. destruct (eq_dec k' k) as [->|N].
      + right. exists cd. split; [exact G|]. split; [reflexivity|]. unfold gone_log, about. destruct (cn_writer cd); cbn [filter key_of]; unfold eqb; destruct (eq_dec (Some k) (Some k)); congruence.
      + left. split; [reflexivity|]. unfold gone_log, about. destruct (cn_writer cd); cbn [filter key_of]; unfold eqb; destruct (eq_dec (Some k) (Some k')); congruence.
    - intros p. left. reflexivity.
    - split; [intros; apply nodup_ddel; auto|auto].
    - unfold gone_log. destruct (cn_writer cd); repeat constructor; eauto. }
  assert (Ps : ports_ok s2).
  { split; [|split; [|split]]; unfold s2; cbn [v_ports v_ctls v_conns set_ctls set_conns].
    - intros p c E. destruct (P1 p c E) as (x & Ex & Px). rewrite nth_upd. destruct (Nat.eqb_spec (cn_ctl cd) c) as [->|]; [rewrite Ex; cbn; eauto|eauto].
    - intros c x p [E O] Px. cbn [v_ctls set_ctls set_conns] in E. rewrite nth_upd in E. destruct (Nat.eqb_spec (cn_ctl cd) c) as [Ec|].
      + rewrite Ec in E. destruct (nth_error (v_ctls s) c) as [y|] eqn:Ey; [|discriminate]. cbn in E. injection E as <-. cbn in O, Px. apply (P2 c y p); [split; auto|exact Px].
      + apply (P2 c x p); [split; auto|exact Px].
    - exact P3.
    - apply nodup_ddel. exact P4. }
  assert (Fr : freed s s2).
  { intros c x x' p [E O] E' C' Px. destruct (cl_ctl _ _ _ A c x E) as (y & Ey & _). unfold s2 in E'. cbn [v_ctls set_ctls set_conns] in E'. rewrite nth_upd in E'.
    destruct (Nat.eqb_spec (cn_ctl cd) c) as [Ec|]; [rewrite Ec, E in E'; cbn in E'; injection E' as <-; cbn in C'; congruence|congruence]. }
  assert (G2 : dget (v_conns s2) k = None).
  { unfold s2. cbn [v_conns set_ctls set_conns]. rewrite dget_ddel by exact P4. destruct (eq_dec k k); congruence. }
  change (LGone k :: match cn_writer cd with Some t => [LClose k t] | None => [] end) with (gone_log k cd).
  destruct (nth_error (upd (cn_ctl cd) (sc_drop_key k) (v_ctls s)) (cn_ctl cd)) as [x|] eqn:Ex; [|exists s2, (gone_log k cd); auto].
  destruct (negb (sc_closed x) && negb (sc_listen x)); [|exists s2, (gone_log k cd); auto].
  assert (L2 : (open_count (v_ctls s2) <= n)%nat).
  { pose proof (mono_count _ _ (mono_upd (cn_ctl cd) (sc_drop_key k) (v_ctls s) (fun x H => H))). unfold s2. cbn [v_ctls set_ctls set_conns]. lia. }
  destruct (R (cn_ctl cd) s2 L2 Ps) as (s3 & l3 & E3 & A3 & P3' & F3 & _). rewrite E3. exists s3, (gone_log k cd ++ l3). split; [reflexivity|].
  split; [eapply closes_trans; eauto|]. split; [exact P3'|]. split; [eapply freed_trans; eauto|].
  destruct (cl_conn _ _ _ A3 k) as [[e _]|(? & e & _)]; congruence.
Qed.
Lemma close_connections_ok n rec ks : closer_ok n rec -> forall s, (open_count (v_ctls s) <= n)%nat -> ports_ok s ->
  exists s' l, close_connections rec ks s = (s', l) /\ closes s l s' /\ ports_ok s' /\ freed s s' /\ (forall k, In k ks -> dget (v_conns s') k = None).
Proof.
  intros R. induction ks as [|k ks IH]; intros s L P; cbn [close_connections].
  - exists s, []. split; [reflexivity|]. split; [apply closes_refl|]. split; [exact P|]. split; [apply freed_refl|intros k []].
  - destruct (close_connection_ok n rec k s R L P) as (s1 & l1 & E1 & A1 & P1 & F1 & G1). rewrite E1.
    assert (L1 : (open_count (v_ctls s1) <= n)%nat).
    { eapply Nat.le_trans; [|exact L]. apply mono_count. split; [symmetry; apply (cl_len _ _ _ A1)|]. intros c x E. destruct (cl_ctl _ _ _ A1 c x E) as (x' & E' & _ & C & _). eauto. }
    destruct (IH s1 L1 P1) as (s2 & l2 & E2 & A2 & P2 & F2 & G2). rewrite E2. exists s2, (l1 ++ l2). split; [reflexivity|].
    split; [eapply closes_trans; eauto|]. split; [exact P2|]. split; [eapply freed_trans; eauto|].
    intros k' [<-|Hk]; [|auto]. destruct (cl_conn _ _ _ A2 k) as [[e _]|(? & e & _)]; congruence.
Qed.
Lemma close_ctl_ok n : closer_ok n (close_ctl n) /\
  (forall c s x, (open_count (v_ctls s) <= n)%nat -> ports_ok s -> is_open s c x -> forall k, In k (sc_keys x) -> dget (v_conns (fst (close_ctl n c s))) k = None).
Proof.
  induction n as [|n [IH _]].
  - split.
    + intros c s L P. exists s, []. split; [reflexivity|]. split; [apply closes_refl|]. split; [exact P|]. split; [apply freed_refl|].
      intros x E. destruct (sc_closed x) eqn:C; [reflexivity|]. pose proof (count_shut _ _ _ E C). lia.
    + intros c s x L P [E C]. pose proof (count_shut _ _ _ E C). lia.
  - assert (Main : forall c s, (open_count (v_ctls s) <= S n)%nat -> ports_ok s ->
      exists s' l, close_ctl (S n) c s = (s', l) /\ closes s l s' /\ ports_ok s' /\ freed s s' /\
        (forall x', nth_error (v_ctls s') c = Some x' -> sc_closed x' = true) /\
        (forall x k, is_open s c x -> In k (sc_keys x) -> dget (v_conns s') k = None)).
    { intros c s L P. cbn [close_ctl].
      destruct (nth_error (v_ctls s) c) as [x|] eqn:E.
      2:{ exists s, []. split; [reflexivity|]. split; [apply closes_refl|]. split; [exact P|]. split; [apply freed_refl|]. split; [intros x E'; congruence|].
          intros x k [E' _]. congruence. }
      destruct (sc_closed x) eqn:C.
      { exists s, []. split; [reflexivity|]. split; [apply closes_refl|]. split; [exact P|]. split; [apply freed_refl|]. split; [intros x' E'; congruence|].
        intros x' k [E' O]. congruence. }
      set (s1 := set_ctls (upd c sc_shut (v_ctls s)) s).
      pose proof (count_shut _ _ _ E C) as Cs.
      assert (P' := P). destruct P' as (P1 & P2 & P3 & P4).
      assert (Ps1 : ports_ok s1).
      { split; [|split; [|split]]; unfold s1; cbn [v_ports v_ctls v_conns set_ctls].
        - intros p c0 E0. destruct (P1 p c0 E0) as (y & Ey & Py). rewrite nth_upd. destruct (Nat.eqb_spec c c0) as [<-|]; [rewrite E; rewrite E in Ey; injection Ey as <-; cbn; eauto|eauto].
        - intros c0 y p [Ey O] Py. cbn [v_ctls set_ctls] in Ey. rewrite nth_upd in Ey. destruct (Nat.eqb_spec c c0) as [<-|].
          + rewrite E in Ey. cbn in Ey. injection Ey as <-. discriminate.
          + apply (P2 c0 y p); [split; auto|exact Py].
        - exact P3.
        - exact P4. }
      assert (L1 : (open_count (v_ctls s1) <= n)%nat) by (unfold s1; cbn [v_ctls set_ctls]; lia).
      destruct (close_connections_ok n (close_ctl n) (sc_keys x) IH s1 L1 Ps1) as (s2 & l2 & E2 & A2 & Ps2 & F2 & G2). rewrite E2.
      assert (E1c : nth_error (v_ctls s1) c = Some (sc_shut x)) by (unfold s1; cbn [v_ctls set_ctls]; apply nth_upd_same; exact E).
      destruct (cl_ctl _ _ _ A2 c _ E1c) as (x2 & E2c & S2 & C2 & _). specialize (C2 eq_refl).
      assert (A02 : closes s l2 s2).
      { constructor.
        - apply (cl_same _ _ _ A2).
        - rewrite (cl_len _ _ _ A2). unfold s1. cbn [v_ctls set_ctls]. apply length_upd.
        - intros c0 y Ey. destruct (Nat.eq_dec c0 c) as [->|N].
          + rewrite E in Ey. injection Ey as <-. destruct (cl_ctl _ _ _ A2 c _ E1c) as (y2 & Ey2 & Sy & Cy & Iy & _). exists y2. split; [exact Ey2|].
            split; [destruct Sy; constructor; assumption|]. split; [congruence|]. split; [intros k Hk; destruct (Iy k Hk)|]. intros _. split.
            * intros _. destruct (sc_keys y2) as [|k0 r]; [reflexivity|]. destruct (Iy k0 (or_introl eq_refl)).
            * intros k Hk _. apply G2. exact Hk.
          + apply (cl_ctl _ _ _ A2 c0 y). unfold s1. cbn [v_ctls set_ctls]. rewrite nth_upd_other; auto.
        - apply (cl_conn _ _ _ A2).
        - apply (cl_port _ _ _ A2).
        - apply (cl_nodup _ _ _ A2).
        - apply (cl_log _ _ _ A2). }
      assert (Fr0 : forall c0 y y' p, is_open s c0 y -> nth_error (v_ctls s2) c0 = Some y' -> sc_closed y' = true -> sc_port y = Some p -> c0 <> c -> dget (v_ports s2) p = None).
      { intros c0 y y' p [Ey O] Ey' Cy Py N. apply (F2 c0 y y'); auto. split; [|exact O]. unfold s1. cbn [v_ctls set_ctls]. rewrite nth_upd_other; auto. }
      destruct (sc_port x) as [p|] eqn:Px.
      - assert (Gp : dget (v_ports s) p = Some c) by (apply (P2 c x p); [split; auto|exact Px]).
        assert (Gs2 : dget (v_ports s2) p = Some c \/ dget (v_ports s2) p = None) by (destruct (cl_port _ _ _ A02 p) as [e|[e _]]; [left; congruence|right; exact e]).
        destruct Gs2 as [Gs2|Gs2]; rewrite Gs2.
        + set (s3 := set_ports (ddel (v_ports s2) p) s2).
          assert (E3 : close_ctl n c s3 = (s3, [])).
          { destruct n; [reflexivity|]. cbn [close_ctl]. unfold s3. cbn [v_ctls set_ports]. rewrite E2c, C2. reflexivity. }
          rewrite E3. destruct Ps2 as (Q1 & Q2 & Q3 & Q4).
          assert (A3 : closes s2 [] s3).
          { constructor; unfold s3; cbn [v_addr v_protos v_pos v_pending v_revs v_dumps v_ctls v_conns v_ports set_ports].
            - auto 10.
            - reflexivity.
            - intros c0 y Ey. exists y. split; [exact Ey|]. split; [constructor; reflexivity|]. split; [auto|]. split; [apply incl_refl|]. intros O. split; [congruence|]. intros k H1 H2. contradiction.
            - intros k. left. auto.
            - intros p'. rewrite dget_ddel by exact Q3. destruct (eq_dec p' p) as [->|]; [right|left; reflexivity]. split; [reflexivity|]. exists c, x2. auto.
            - split; [auto|intros; apply nodup_ddel; auto].
            - constructor. }
          assert (Ps3 : ports_ok s3).
          { split; [|split; [|split]]; unfold s3; cbn [v_ports v_ctls v_conns set_ports].
            - intros p' c0 E0. rewrite dget_ddel in E0 by exact Q3. destruct (eq_dec p' p); [discriminate|]. apply Q1. exact E0.
            - intros c0 y p' [Ey O] Py. cbn [v_ctls set_ports] in Ey. rewrite dget_ddel by exact Q3. destruct (eq_dec p' p) as [->|].
              + pose proof (Q2 c0 y p (conj Ey O) Py). congruence.
              + apply (Q2 c0 y); [split; auto|exact Py].
            - apply nodup_ddel. exact Q3.
            - exact Q4. }
          exists s3, (l2 ++ []). split; [reflexivity|]. split; [eapply closes_trans; eauto|]. split; [exact Ps3|]. split; [|split].
          * intros c0 y y' p' Oy Ey' Cy Py. unfold s3. cbn [v_ports set_ports]. rewrite dget_ddel by exact Q3. destruct (eq_dec p' p); [reflexivity|].
            destruct (Nat.eq_dec c0 c) as [->|N]; [|apply (Fr0 c0 y y' p'); auto]. destruct Oy as [Ey _]. rewrite E in Ey. injection Ey as <-. congruence.
          * intros x' Ex'. unfold s3 in Ex'. cbn [v_ctls set_ports] in Ex'. congruence.
          * intros y k [Ey _] Hk. rewrite E in Ey. injection Ey as <-. unfold s3. cbn [v_conns set_ports]. auto.
        + exists s2, l2. split; [reflexivity|]. split; [exact A02|]. split; [exact Ps2|]. split; [|split].
          * intros c0 y y' p' Oy Ey' Cy Py. destruct (Nat.eq_dec c0 c) as [->|N]; [|apply (Fr0 c0 y y' p'); auto]. destruct Oy as [Ey _]. rewrite E in Ey. injection Ey as <-. congruence.
          * intros x' Ex'. congruence.
          * intros y k [Ey _] Hk. rewrite E in Ey. injection Ey as <-. auto.
      - exists s2, l2. split; [reflexivity|]. split; [exact A02|]. split; [exact Ps2|]. split; [|split].
        + intros c0 y y' p' Oy Ey' Cy Py. destruct (Nat.eq_dec c0 c) as [->|N]; [|apply (Fr0 c0 y y' p'); auto]. destruct Oy as [Ey _]. rewrite E in Ey. injection Ey as <-. congruence.
        + intros x' Ex'. congruence.
        + intros y k [Ey _] Hk. rewrite E in Ey. injection Ey as <-. auto. }
    split.
    + intros c s L P. destruct (Main c s L P) as (s' & l & E & A & B & D & F & _). eauto 10.
    + intros c s x L P O k Hk. destruct (Main c s L P) as (s' & l & E & _ & _ & _ & _ & F). rewrite E. cbn [fst]. eapply F; eauto.
Qed.
Lemma ctl_close_ok c s : ports_ok s -> exists s' l, ctl_close c s = (s', l) /\ closes s l s' /\ ports_ok s' /\ freed s s' /\
  (forall x', nth_error (v_ctls s') c = Some x' -> sc_closed x' = true) /\
  (forall x k, is_open s c x -> In k (sc_keys x) -> dget (v_conns s') k = None).
Proof.
  intros P. destruct (close_ctl_ok (length (v_ctls s))) as [A B]. destruct (A c s (count_le _) P) as (s' & l & E & C & D & F & G).
  exists s', l. split; [exact E|]. split; [exact C|]. split; [exact D|]. split; [exact F|]. split; [exact G|].
  intros x k O Hk. specialize (B c s x (count_le _) P O k Hk). unfold ctl_close in E. rewrite E in B. exact B.
Qed.
Lemma conn_close_ok k s : ports_ok s -> exists s' l, conn_close k s = (s', l) /\ closes s l s' /\ ports_ok s' /\ freed s s' /\ dget (v_conns s') k = None.
Proof.
  intros P. unfold conn_close. apply (close_connection_ok (length (v_ctls s))); [|apply count_le|exact P].
  intros c s0 L P0. unfold ctl_close. destruct (close_ctl_ok (length (v_ctls s0))) as [A _]. apply (A c s0 (count_le _) P0).
Qed.
Lemma close_all_ok cs : forall s, ports_ok s -> exists s' l, close_all cs s = (s', l) /\ closes s l s' /\ ports_ok s' /\ freed s s' /\
  (forall c x', In c cs -> nth_error (v_ctls s') c = Some x' -> sc_closed x' = true) /\
  (forall c x k, In c cs -> is_open s c x -> In k (sc_keys x) -> dget (v_conns s') k = None).
Proof.
  induction cs as [|c cs IH]; intros s P; cbn [close_all].
  - exists s, []. split; [reflexivity|]. split; [apply closes_refl|]. split; [exact P|]. split; [apply freed_refl|]. split; [intros c x' []|intros c x k []].
  - destruct (ctl_close_ok c s P) as (s1 & l1 & E1 & A1 & P1 & F1 & C1 & K1). rewrite E1.
    destruct (IH s1 P1) as (s2 & l2 & E2 & A2 & P2 & F2 & C2 & K2). rewrite E2. exists s2, (l1 ++ l2). split; [reflexivity|].
    split; [eapply closes_trans; eauto|]. split; [exact P2|]. split; [eapply freed_trans; eauto|]. split.
    + intros c' x' [<-|Hc] Ex; [|eauto].
      destruct (nth_error (v_ctls s1) c) as [y|] eqn:Ey.
      * destruct (cl_ctl _ _ _ A2 c y Ey) as (y' & Ey' & _ & Cy & _). rewrite Ex in Ey'. injection Ey' as <-. apply Cy. apply C1. reflexivity.
      * apply nth_error_None in Ey. rewrite <- (cl_len _ _ _ A2) in Ey. apply nth_error_None in Ey. congruence.
    + assert (Stay : forall k, dget (v_conns s1) k = None -> dget (v_conns s2) k = None) by (intros k N; destruct (cl_conn _ _ _ A2 k) as [[e _]|(? & e & _)]; congruence).
      intros c' x k Hc O Hk. destruct Hc as [<-|Hc]; [apply Stay; eapply K1; eauto|].
      destruct O as [Ex Ox]. destruct (cl_ctl _ _ _ A1 c' x Ex) as (x1 & Ex1 & _ & _ & I1 & D1).
      destruct (in_dec eq_dec k (sc_keys x1)) as [H1|H1]; [|apply Stay; apply (D1 Ox); auto].
      destruct (sc_closed x1) eqn:Cx1; [destruct (D1 Ox) as [D _]; rewrite D in H1 by reflexivity; contradiction|].
      eapply K2; eauto. split; auto.
Qed.
