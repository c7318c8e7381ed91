(** * Proofs about the texts of log records *)
From Coq Require Import String.
From Coq Require Import List ZArith Bool Lia.
From Verif Require Import PyBase FmtModel FmtSpec.
Import ListNotations.
Open Scope nat_scope.

Lemma pre_pre a b o : pre a (pre b o) = pre (a ++ b) o.
Proof. destruct o; cbn; try reflexivity. now rewrite app_assoc. Qed.
Lemma pre_nil o : pre [] o = o. Proof. destruct o; reflexivity. Qed.
Lemma pct_plain d src s r : no_percent s -> pct d src Text (s ++ r) = pre s (pct d src Text r).
Proof.
  induction s as [|c s IH]; intros H; [cbn [app]; now rewrite pre_nil|]. cbn [app pct].
  destruct (Z.eqb_spec c 37) as [->|N]; [exfalso; apply H; now left|]. rewrite IH by (intros Q; apply H; now right). now rewrite pre_pre.
Qed.
Lemma pct_twice d src r : pct d src Text (written Twice ++ r) = pre [37%Z] (pct d src Text r).
Proof. reflexivity. Qed.
Lemma pct_here d src r : pct d src Text (written Here ++ r) = match next src with Some (x, s) => pre x (pct d s Text r) | None => Err TypeError end.
Proof. reflexivity. Qed.
Lemma pct_key d src k r : forall acc, simple k -> pct d src (Key 0 acc) (k ++ r) = pct d src (Key 0 (acc ++ k)) r.
Proof.
  induction k as [|c k IH]; intros acc [A B]; [cbn [app]; now rewrite app_nil_r|]. cbn [app pct].
  destruct (Z.eqb_spec c 41) as [->|N]; [exfalso; apply B; now left|]. destruct (Z.eqb_spec c 40) as [->|M]; [exfalso; apply A; now left|].
  rewrite IH; [now rewrite <- app_assoc|]. split; intros Q; [apply A|apply B]; now right.
Qed.
Lemma pct_named f src k r : simple k ->
  pct (Some f) src Text (written (Named k) ++ r) = match f k with Raise e => Err e | Ok v => pre v (pct (Some f) SUsed Text r) end.
Proof.
  intros H. unfold written. rewrite <- !app_assoc. change (lit "%(") with [37%Z; 40%Z]. change (lit ")s") with [41%Z; 115%Z]. cbn [app pct Z.eqb].
  change (pct (Some f) src (Key 0 []) (k ++ 41%Z :: 115%Z :: r) = match f k with Raise e => Err e | Ok v => pre v (pct (Some f) SUsed Text r) end).
  rewrite pct_key by exact H. cbn. destruct (f k); reflexivity.
Qed.

(** positional arguments *)
Lemma pct_tuple ps : Forall piece_ok ps -> Forall unnamed ps -> forall l,
  pct None (STuple l) Text (writes ps) = match reads (fun _ => None) l ps with Some t => Done t | None => Err TypeError end.
Proof.
  induction ps as [|p ps IH]; intros O U l; [destruct l; reflexivity|]. inversion O as [|? ? O1 O2]; inversion U as [|? ? U1 U2]; subst.
  unfold writes. cbn [map concat]. destruct p as [s| |k|]; cbn [reads].
  - cbn [written]. rewrite pct_plain by exact O1. fold (writes ps). rewrite IH by assumption. destruct (reads _ l ps); reflexivity.
  - rewrite pct_twice. fold (writes ps). rewrite IH by assumption. destruct (reads _ l ps); reflexivity.
  - destruct U1.
  - rewrite pct_here. destruct l as [|v l]; [reflexivity|]. cbn [next]. fold (writes ps). rewrite IH by assumption. destruct (reads _ l ps); reflexivity.
Qed.
(** a mapping; places are never meant *)
Lemma pct_map f key ps : Forall piece_ok ps -> Forall unplaced ps -> forall src t,
  (forall k v, In (Named k) ps -> key k = Some v -> f k = Ok v) ->
  reads key [] ps = Some t -> pct (Some f) src Text (writes ps) = Done t.
Proof.
  induction ps as [|p ps IH]; intros O U src t F R; [cbn in *; destruct src as [[]| |]; congruence|]. inversion O as [|? ? O1 O2]; inversion U as [|? ? U1 U2]; subst.
  assert (F' : forall k v, In (Named k) ps -> key k = Some v -> f k = Ok v) by (intros k v H; apply F; now right).
  unfold writes. cbn [map concat]. destruct p as [s| |k|]; cbn [reads] in R.
  - destruct (reads key [] ps) as [u|] eqn:E; [|discriminate]. injection R as <-. cbn [written]. rewrite pct_plain by exact O1. fold (writes ps).
    now rewrite (IH O2 U2 src u F' eq_refl).
  - destruct (reads key [] ps) as [u|] eqn:E; [|discriminate]. injection R as <-. rewrite pct_twice. fold (writes ps). now rewrite (IH O2 U2 src u F' eq_refl).
  - destruct (key k) as [v|] eqn:Kv; [|discriminate]. destruct (reads key [] ps) as [u|] eqn:E; [|discriminate]. injection R as <-.
    rewrite pct_named by exact O1. rewrite (F k v (or_introl eq_refl) Kv). fold (writes ps). now rewrite (IH O2 U2 SUsed u F' eq_refl).
  - destruct U1.
Qed.
Lemma pct_missing f ps k : Forall piece_ok ps -> Forall unplaced ps -> In (Named k) ps -> (forall k, exists r, f k = r /\ (forall e, r = Raise e -> e = KeyError)) ->
  (exists e, f k = Raise e) -> forall src, pct (Some f) src Text (writes ps) = Err KeyError.
Proof.
  induction ps as [|p ps IH]; intros O U H FK FE src; [destruct H|]. inversion O as [|? ? O1 O2]; inversion U as [|? ? U1 U2]; subst.
  unfold writes. cbn [map concat]. destruct p as [s| |k'|].
  - destruct H as [[=]|H]. cbn [written]. rewrite pct_plain by exact O1. fold (writes ps). now rewrite (IH O2 U2 H FK FE src).
  - destruct H as [[=]|H]. rewrite pct_twice. fold (writes ps). now rewrite (IH O2 U2 H FK FE src).
  - rewrite pct_named by exact O1. destruct (FK k') as (r & Fr & Fe). destruct (f k') as [v|e] eqn:Fk.
    + destruct H as [[= ->]|H]; [destruct FE; congruence|]. fold (writes ps). now rewrite (IH O2 U2 H FK FE SUsed).
    + f_equal. apply Fe. congruence.
  - destruct U1.
Qed.

Section Special.
  Context {X : Type} (converters : pystr -> option (X -> res pystr)).
  Lemma convert_ok data f : converts converters data f -> exists d, convert_all converters data = Ok d /\ forall k, dget d k = f k.
  Proof.
    intros [A B]. 
    assert (G : exists d, convert_all converters data = Ok d /\ forall k, dget d k = if in_dec eq_dec k (map fst data) then f k else None).
    { clear B. induction data as [|[k x] l IH]; [exists []; split; [reflexivity|intros k; reflexivity]|].
      destruct IH as (d & Hd & G); [intros k' x' H; apply A; now right|].
      destruct (A k x (or_introl eq_refl)) as (g & v & C & Gv & Fv). exists ((k, v) :: d). split.
      - cbn [convert_all]. rewrite C, Gv. cbn [bind]. rewrite Hd. reflexivity.
      - intros k'. cbn [dget map fst]. unfold eqb. destruct (eq_dec k k') as [->|N].
        + destruct (eq_dec k' k') as [_|N]; [|congruence]. destruct (in_dec eq_dec k' (k' :: map fst l)) as [_|Q]; [now symmetry|exfalso; apply Q; now left].
        + destruct (eq_dec k' k) as [Q|_]; [congruence|]. rewrite G. destruct (in_dec eq_dec k' (map fst l)) as [H|H], (in_dec eq_dec k' (k :: map fst l)) as [H'|H']; try reflexivity.
          * exfalso. apply H'. now right.
          * exfalso. destruct H' as [H'|H']; [congruence|auto]. }
    destruct G as (d & Hd & G). exists d. split; [exact Hd|]. intros k. rewrite G. destruct (in_dec eq_dec k (map fst data)) as [_|N]; [reflexivity|].
    destruct (f k) eqn:Q; [|reflexivity]. exfalso. apply N, B. congruence.
  Qed.
  Lemma convert_missing data k x : In (k, x) data -> converters k = None -> (forall k x g, In (k, x) data -> converters k = Some g -> exists v, g x = Ok v) ->
    convert_all converters data = Raise KeyError.
  Proof.
    intros H N. induction data as [|[k' x'] l IH]; intros V; [destruct H|]. cbn [convert_all]. destruct (converters k') as [g|] eqn:C; [|reflexivity].
    destruct H as [[= -> ->]|H]; [congruence|]. destruct (V k' x' g (or_introl eq_refl) C) as (v & ->). cbn [bind]. rewrite IH; [reflexivity|exact H|].
    intros a b c Hab. apply V. now right.
  Qed.
End Special.

(** the pieces with the special data put in *)
Definition fill (f : pystr -> option pystr) (p : piece) : piece := match p with Named k => match f k with Some v => Plain v | None => Named k end | _ => p end.
Lemma reads_either f g ps : Forall keyed ps -> reads (either f g) [] ps = reads g [] (map (fill f) ps).
Proof.
  induction 1 as [|p ps K H IH]; [reflexivity|]. destruct p as [s| |k|]; try destruct K; cbn [map fill reads]; [now rewrite IH|].
  unfold either at 1. destruct (f k) as [v|]; cbn [reads]; now rewrite IH.
Qed.
Lemma reads_itself ps : Forall keyed ps -> reads itself [] ps = Some (writes ps).
Proof. induction 1 as [|p ps K H IH]; [reflexivity|]. destruct p as [s| |k|]; try destruct K; cbn [reads itself]; now rewrite IH. Qed.
Lemma fill_keyed f ps : Forall keyed ps -> Forall keyed (map (fill f) ps).
Proof. induction 1 as [|p ps K H IH]; constructor; [|exact IH]. destruct p; try destruct K; cbn; [exact I|]. destruct (f k); exact I. Qed.
Lemma fill_ok f ps : (forall k v, f k = Some v -> no_percent v) -> Forall piece_ok ps -> Forall piece_ok (map (fill f) ps).
Proof. intros N. induction 1 as [|p ps K H IH]; constructor; [|exact IH]. destruct p; cbn; try exact K. destruct (f k) eqn:Q; [exact (N k _ Q)|exact K]. Qed.
Lemma fill_none f ps : Forall keyed ps -> (forall k, In (Named k) ps -> f k = None) -> reads (either f itself) [] ps = Some (writes ps).
Proof.
  intros K N. induction K as [|p ps K H IH]; [reflexivity|]. assert (N' : forall k, In (Named k) ps -> f k = None) by (intros k Q; apply N; now right).
  destruct p as [s| |k|]; try destruct K; cbn [reads]; [now rewrite (IH N')|]. unfold either at 1. rewrite (N k (or_introl eq_refl)). cbn [itself]. now rewrite (IH N').
Qed.
Lemma filled_none f ps k : Forall keyed ps -> In (Named k) (map (fill f) ps) -> f k = None.
Proof.
  intros K H. apply in_map_iff in H as (p & E & Hp). destruct p as [s| |k'|]; cbn in E; try discriminate. destruct (f k') eqn:Q; [discriminate|]. injection E as <-. exact Q.
Qed.
Lemma keyed_unplaced ps : Forall keyed ps -> Forall unplaced ps.
Proof. intros H. eapply Forall_impl; [|exact H]. intros []; cbn; tauto. Qed.
Lemma partial_either d f : (forall k, dget d k = f k) -> forall k v, either f itself k = Some v -> partial d k = Ok v.
Proof. intros G k v H. unfold either, itself, partial in *. rewrite G. destruct (f k); injection H as <-; reflexivity. Qed.
