From Coq Require Import List ZArith Bool Lia.
From Verif Require Import PyBase PyLemmas AddrModel AddrSpec AddrProofs SwitchModel SwitchProofs WanModel WanSpec WanProofs WanNetModel WanNetSpec WanNetProofs WanNetProofs2 WanNetProofs3.
Import ListNotations.
Open Scope nat_scope.

(** ** What a packet is written on *)
Lemma outbound_sound_at (w : switch lnk) m dest ls l : swinv w m -> sw_outbound dest w = Ok ls -> In l ls ->
  exists a b, from_string ClsBlock dest = Ok a /\ AddrSpec.covers b a /\ m l = Some (addr_str b).
Proof.
  intros (NL & NA & NS & ML & MA & V) Eo I. unfold sw_outbound in Eo.
  destruct (is_valid_string ClsBlock dest); cbn [negb] in Eo; [|inversion Eo; subst; contradiction].
  destruct (from_string ClsBlock dest) as [a|e] eqn:F; [|discriminate].
  assert (O : block_ok a) by (apply from_string_ok in F; exact F).
  destruct (loop_spec 5 (sw_addr w) [] a O) as (ls' & E2 & N & I2); [pose proof (lead_le a); lia|].
  assert (ls' = ls) by congruence. subst ls'. apply I2 in I as [[]|(n & c & Hn & En & X)]. apply MA in X.
  exists a, c. split; [reflexivity|]. split; [|exact X]. destruct (nth_parent_lead n a O Hn) as (c' & En' & _ & _ & Cc). congruence.
Qed.

Lemma outbound_total (w : switch lnk) m dest a : swinv w m -> from_string ClsBlock dest = Ok a -> exists ls, sw_outbound dest w = Ok ls /\ NoDup ls.
Proof.
  intros H F. unfold sw_outbound. rewrite (from_string_valid _ _ _ F), F. cbn [negb]. assert (O : block_ok a) by (apply from_string_ok in F; exact F).
  destruct (loop_spec 5 (sw_addr w) [] a O) as (ls & E2 & N & I); [pose proof (lead_le a); lia|]. exists ls. split; [exact E2|apply N; constructor].
Qed.
Definition num_of (l : lnk) : nat := match l with Dev m => m | End _ _ => 0 end.
Definition is_end (l : lnk) : bool := match l with End _ _ => true | Dev _ => false end.
Definition target (g : wnet) (dest : pystr) (l : lnk) : list lnk :=
  match end_at g (other_end l) with
  | Some p => match dget (n_sw g) p with Some s => match sw_outbound dest s with Ok ls' => ls' | Raise _ => [] end | None => [] end
  | None => [] end.
Lemma writes_nil lost f g dest k : writes lost (S f) g dest k [] = Some (k, []).
Proof. reflexivity. Qed.
Lemma writes_cons lost f g dest k l r : writes lost (S f) g dest k (l :: r) =
  if smem (n_closed g) l then Some (k, [])
  else match l with
       | Dev m => match writes lost (S f) g dest k r with Some (k', ds) => Some (k', m :: ds) | None => None end
       | End _ _ => if lost k then writes lost (S f) g dest (S k) r
                    else match writes lost f g dest (S k) (target g dest l) with
                         | Some (k1, d1) => match writes lost (S f) g dest k1 r with Some (k2, d2) => Some (k2, d1 ++ d2) | None => None end
                         | None => None end
       end.
Proof. reflexivity. Qed.
Lemma writes_devs lost f g dest ls : (forall l, In l ls -> is_end l = false /\ ~ In l (n_closed g)) -> forall k, writes lost (S f) g dest k ls = Some (k, map num_of ls).
Proof.
  induction ls as [|l ls IH]; intros H k; [reflexivity|]. rewrite writes_cons. destruct (H l) as [X Y]; [now left|].
  assert (S : smem (n_closed g) l = false) by (apply not_true_iff_false; rewrite smem_true; exact Y). rewrite S.
  destruct l as [m|]; [|discriminate]. rewrite IH; [reflexivity|]. intros z Z. apply H. now right.
Qed.
Lemma times_devs m ls : NoDup ls -> (forall l, In l ls -> is_end l = false) -> times m (map num_of ls) = b2n (smem ls (Dev m)).
Proof.
  unfold times. induction ls as [|l ls IH]; intros N H; [reflexivity|]. inversion N as [|? ? Nl Nls]; subst. cbn [map count_occ].
  destruct l as [j|]; [|discriminate (H (End k second) (or_introl eq_refl))]. cbn [num_of]. rewrite IH by (auto; intros; apply H; now right).
  destruct (smem (Dev j :: ls) (Dev m)) eqn:S.
  - apply smem_true in S as [[= ->]|S].
    + destruct (Nat.eq_dec m m); [|congruence]. destruct (smem ls (Dev m)) eqn:T; [apply smem_true in T; contradiction|reflexivity].
    + destruct (Nat.eq_dec j m); [subst; contradiction|]. apply smem_true in S. now rewrite S.
  - apply not_true_iff_false in S. rewrite smem_true in S. destruct (Nat.eq_dec j m) as [->|]; [exfalso; apply S; now left|].
    destruct (smem ls (Dev m)) eqn:T; [apply smem_true in T; exfalso; apply S; now right|reflexivity].
Qed.
Lemma times_app m a b : times m (a ++ b) = times m a + times m b.
Proof. apply count_occ_app. Qed.
Definition ends_of (ls : list lnk) : list lnk := filter is_end ls.
Lemma writes_mix lost f g dest T ls : NoDup ls -> NoDup T -> (forall l, In l ls -> ~ In l (n_closed g)) ->
  (forall l, In l ls -> is_end l = true -> target g dest l = T) -> (forall l, In l T -> is_end l = false /\ ~ In l (n_closed g)) ->
  forall k, exists k' ds c, writes lost (S (S f)) g dest k ls = Some (k', ds) /\ c <= length (ends_of ls) /\
    ((forall i, lost i = false) -> c = length (ends_of ls)) /\ forall m, times m ds = b2n (smem ls (Dev m)) + c * b2n (smem T (Dev m)).
Proof.
  intros N NT C H HT. induction ls as [|l ls IH]; intros k.
  - exists k, [], 0. rewrite writes_nil. repeat split; cbn; auto.
  - inversion N as [|? ? Nl Nls]; subst. rewrite writes_cons.
    assert (S : smem (n_closed g) l = false) by (apply not_true_iff_false; rewrite smem_true; apply C; now left). rewrite S.
    assert (IH' := IH Nls (fun l L => C l (or_intror L)) (fun l L => H l (or_intror L))). clear IH.
    assert (Mem : forall m, smem (l :: ls) (Dev m) = (if eq_dec l (Dev m) then true else smem ls (Dev m))).
    { intros m. destruct (eq_dec l (Dev m)) as [->|X]; [apply smem_true; now left|]. destruct (smem ls (Dev m)) eqn:Y; [apply smem_true in Y; apply smem_true; now right|].
      apply not_true_iff_false in Y. rewrite smem_true in Y. apply not_true_iff_false. rewrite smem_true. intros [Z|Z]; auto. }
    destruct l as [j|j b].
    + destruct (IH' k) as (k' & ds & c & E & L & Ls & Ct). rewrite E. exists k', (j :: ds), c. split; [reflexivity|]. split; [exact L|]. split; [exact Ls|].
      intros m. rewrite Mem. unfold times in *. cbn [count_occ]. rewrite Ct. destruct (eq_dec (Dev j) (Dev m)) as [[= ->]|X].
      * destruct (Nat.eq_dec m m); [|congruence]. destruct (smem ls (Dev m)) eqn:Y; [apply smem_true in Y; contradiction|reflexivity].
      * destruct (Nat.eq_dec j m); [congruence|reflexivity].
    + assert (Mem' : forall m, smem (End j b :: ls) (Dev m) = smem ls (Dev m)) by (intros m; rewrite Mem; destruct (eq_dec (End j b) (Dev m)); [discriminate|reflexivity]).
      destruct (lost k) eqn:Lo.
      * destruct (IH' (Datatypes.S k)) as (k' & ds & c & E & L & Ls & Ct). rewrite E. exists k', ds, c. split; [reflexivity|]. split; [unfold ends_of in *; cbn [filter is_end length]; lia|]. split; [intros X; rewrite X in Lo; discriminate|].
        intros m. now rewrite Mem', Ct.
      * rewrite (H (End j b) (or_introl eq_refl) eq_refl). rewrite writes_devs by exact HT.
        destruct (IH' (Datatypes.S k)) as (k' & ds & c & E & L & Ls & Ct). rewrite E. exists k', (map num_of T ++ ds), (Datatypes.S c). split; [reflexivity|]. split; [unfold ends_of in *; cbn [filter is_end length]; lia|]. split; [intros X; unfold ends_of in *; cbn [filter is_end length]; now rewrite (Ls X)|].
        intros m. rewrite Mem', times_app, Ct, times_devs by (auto; intros; now apply HT). lia.
Qed.

(** ** The links at a switch *)
Section At.
  Context (lost : nat -> bool) (g : wnet) (pl : plan).
  Hypothesis H : NI lost g pl.
  Lemma closed_dev n : ~ In (Dev n) (n_closed g).
  Proof. intros I. apply (ni_closed _ _ _ H) in I as (k & b & [=] & _). Qed.
  Lemma sw_at p w dest ls l : dget (n_sw g) p = Some w -> sw_outbound dest w = Ok ls -> In l ls ->
    ~ In l (n_closed g) /\ (is_end l = true -> exists q, from_string ClsBlock dest = Ok (gate q) /\ target g dest l = (match dget (n_sw g) q with Some s => match sw_outbound dest s with Ok ls' => ls' | Raise _ => [] end | None => [] end) /\ p <> q).
  Proof.
    intros W E I. destruct (outbound_sound_at w _ dest ls l (ni_swok _ _ _ H p w W) E I) as (a & b & F & Cv & L).
    destruct l as [n|k c]; [split; [apply closed_dev|discriminate]|].
    assert (Sl : slinks (n_sw g) p (End k c) = Some (addr_str b)) by (unfold slinks; rewrite W; exact L).
    apply (ni_end _ _ _ H) in Sl as (q & Pr & Eq & Nc). split; [exact Nc|]. intros _. exists q. apply addr_str_inj in Eq. subst b. fold (gate q) in Cv. apply gate_covers in Cv. subst a.
    split; [exact F|]. split; [|apply (ni_ends _ _ _ H _ _ _ Pr)]. unfold target. cbn [other_end]. rewrite (end_at_pair g k (negb c) q p) by now apply pair_other. reflexivity.
  Qed.
  Lemma devs_only p w dest ls : dget (n_sw g) p = Some w -> sw_outbound dest w = Ok ls ->
    (forall q, from_string ClsBlock dest = Ok (gate q) -> q = p) -> forall l, In l ls -> is_end l = false /\ ~ In l (n_closed g).
  Proof.
    intros W E G l I. destruct (sw_at p w dest ls l W E I) as [X Y]. split; [|exact X]. destruct (is_end l); [|reflexivity].
    destruct (Y eq_refl) as (q & F & _ & N). rewrite (G q F) in N. congruence.
  Qed.
  (** a device in an outbound list *)
  Lemma dev_in p w dest a ls m : dget (n_sw g) p = Some w -> from_string ClsBlock dest = Ok a -> prefix_shaped a -> sw_outbound dest w = Ok ls ->
    (In (Dev m) ls <-> at_lan pl m p a).
  Proof.
    intros W F P E. destruct (outbound_at w _ dest a (ni_swok _ _ _ H p w W) F P) as (ls' & E' & _ & I). assert (ls' = ls) by congruence. subst ls'. rewrite I. clear I E E'.
    assert (D : dhas (n_sw g) p = true) by (apply dhas_true; eauto). pose proof (ni_dev _ _ _ H p m D) as L. unfold slinks in L. rewrite W in L. cbn beta. rewrite L. unfold at_lan, listens.
    split.
    - intros (b & B1 & B2 & B3 & X). unfold seat_addr in X. destruct (pl_seat pl m) as [t|]; [|discriminate]. exists t. split; [reflexivity|]. destruct (t_at t) as [q|]; [|discriminate]. destruct (eq_dec q p); [|discriminate]. subst q. split; [reflexivity|]. exists b. auto.
    - intros (t & T1 & T2 & b & B1 & B2 & B3 & X). exists b. repeat split; auto; try apply B1; try apply B2; try apply B3. unfold seat_addr. rewrite T1, T2. destruct (eq_dec p p); congruence.
  Qed.
  (** the ends in the outbound list for a gateway *)
  Lemma ends_in p w h ls : (0 <= h)%Z -> dget (n_sw g) p = Some w -> sw_outbound (gateway h) w = Ok ls ->
    (forall k b, In (End k b) ls -> pair_of (n_ends g) (k, b) = Some (p, h) /\ ~ In (End k b) (n_closed g)) /\
    ((forall i, lost i = false) -> forall k b, pair_of (n_ends g) (k, b) = Some (p, h) -> ~ In (End k b) (n_closed g) -> In (End k b) ls).
  Proof.
    intros Hp W E. destruct (gate_ok h Hp) as (B & P & F & _). destruct (outbound_at w _ (gateway h) (gate h) (ni_swok _ _ _ H p w W) F P) as (ls' & E' & _ & I). assert (ls' = ls) by congruence. subst ls'.
    split.
    - intros k b X. apply I in X as (c & C1 & C2 & C3 & X). assert (Sl : slinks (n_sw g) p (End k b) = Some (addr_str c)) by (unfold slinks; rewrite W; exact X).
      apply (ni_end _ _ _ H) in Sl as (q & Pr & Eq & Nc). apply addr_str_inj in Eq. subst c. fold (gate q) in C3. apply gate_covers in C3. injection C3 as ->. auto.
    - intros Ll k b Pr Nc. apply I. exists (gate h). repeat split; try apply B; try apply P; try (now right).
      pose proof (ni_less _ _ _ H Ll k b p h Pr Nc) as X. unfold slinks in X. rewrite W in X. exact X.
  Qed.
  Definition e_of (l : lnk) : nat * bool := match l with End k b => (k, b) | Dev _ => (0, false) end.
  Lemma nodup_e ls : NoDup ls -> (forall l, In l ls -> is_end l = true) -> NoDup (map e_of ls).
  Proof.
    induction 1 as [|l ls N Nd IH]; intros E; cbn; constructor.
    - rewrite in_map_iff. intros (x & X & I). assert (x = l); [|subst; contradiction]. assert (E1 := E x (or_intror I)). assert (E2 := E l (or_introl eq_refl)). destruct x, l; cbn in *; try discriminate. congruence.
    - apply IH. intros x X. apply E. now right.
  Qed.
  Lemma ends_count p h ls : NoDup ls -> (forall k b, In (End k b) ls -> pair_of (n_ends g) (k, b) = Some (p, h) /\ ~ In (End k b) (n_closed g)) ->
    length (ends_of ls) <= pl_copies pl p h /\
    ((forall k b, pair_of (n_ends g) (k, b) = Some (p, h) -> ~ In (End k b) (n_closed g) -> In (End k b) ls) -> length (ends_of ls) = pl_copies pl p h).
  Proof.
    intros N I. rewrite (ni_copies _ _ _ H). unfold open_count. set (es := filter _ _).
    assert (Nd : NoDup (map e_of (ends_of ls))) by (apply nodup_e; [apply NoDup_filter, N|intros l L; now apply filter_In in L]).
    assert (Inc : incl (map e_of (ends_of ls)) es).
    { intros e X. apply in_map_iff in X as (l & <- & X). apply filter_In in X as [X1 X2]. destruct l as [|k b]; [discriminate|]. destruct (I k b X1) as [P1 P2]. apply filter_In. cbn [e_of]. split; [apply in_all; now apply pair_some in P1|].
      apply andb_true_iff. split; [now apply is_pair_true|]. unfold open_end. cbn. apply negb_true_iff, not_true_iff_false. now rewrite smem_true. }
    rewrite <- (map_length e_of). split; [now apply NoDup_incl_length|]. intros A. apply Nat.le_antisymm; [now apply NoDup_incl_length|]. apply NoDup_incl_length; [apply NoDup_filter, all_nodup|].
    intros [k b] X. apply filter_In in X as [X1 X2]. apply andb_true_iff in X2 as [X2 X3]. apply is_pair_true in X2. unfold open_end in X3. cbn in X3. apply negb_true_iff, not_true_iff_false in X3. rewrite smem_true in X3.
    apply in_map_iff. exists (End k b). split; [reflexivity|]. apply filter_In. split; [now apply A|reflexivity].
  Qed.
  Lemma hop_ok p a x : hop pl p a = Some x -> (0 <= x)%Z /\ x <> p /\ dhas (n_routes g) x = true /\ x <> 0%Z.
  Proof.
    unfold hop. destruct (a_zone a) as [|q]; [discriminate|]. destruct (q =? p)%Z eqn:Q; [discriminate|]. apply Z.eqb_neq in Q. destruct (wan_next_hop (pl_routes pl) p q) as [y|] eqn:W; [|discriminate].
    destruct (y =? 0)%Z eqn:Y; [discriminate|]. apply Z.eqb_neq in Y. intros [= <-].
    destruct (ni_graph _ _ _ H) as (G & I & Ne). rewrite (ni_routes _ _ _ H) in I. unfold wan_next_hop in W. destruct (get2 (pl_routes pl) p q) as [[|z r]|] eqn:X; try discriminate. injection W as ->.
    pose proof (snd_walk _ _ (i_sound _ _ I) _ _ _ X) as Wk. assert (E : In (p, y) (g_edges G)) by (inversion Wk; subst; assumption).
    destruct (i_wf _ _ I) as [_ Wf]. destruct (Wf _ _ E) as [_ Ny]. assert (D : dhas (pl_routes pl) y = true) by (rewrite (dhas_node G) by apply I; now apply smem_true).
    rewrite <- (ni_routes _ _ _ H) in D. repeat split; auto; [now apply (ni_pos _ _ _ H)|]. intros ->. now apply (Ne p p E).
  Qed.
End At.
