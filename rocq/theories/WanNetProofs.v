From Coq Require Import List ZArith Bool Lia Permutation.
From Verif Require Import PyBase PyLemmas AddrModel AddrSpec AddrProofs SwitchModel SwitchProofs WanModel WanSpec WanProofs WanNetModel WanNetSpec.
Import ListNotations.
Open Scope nat_scope.

(** ** Switches *)
Lemma outbound_at (s : switch lnk) m dest a : swinv s m -> from_string ClsBlock dest = Ok a -> prefix_shaped a ->
  exists ls, sw_outbound dest s = Ok ls /\ NoDup ls /\
    forall l, In l ls <-> exists b, block_ok b /\ prefix_shaped b /\ AddrSpec.covers b a /\ m l = Some (addr_str b).
Proof.
  intros (NL & NA & NS & ML & MA & V) F P. unfold sw_outbound. rewrite (from_string_valid _ _ _ F), F. cbn [negb].
  assert (O : block_ok a) by (apply from_string_ok in F; exact F).
  destruct (loop_spec 5 (sw_addr s) [] a O) as (ls & E2 & N & I); [pose proof (lead_le a); lia|].
  exists ls. split; [exact E2|]. split; [apply N; constructor|]. intros l. rewrite I. split.
  - intros [[]|(n & c & Hn & En & X)]. apply MA in X. destruct (prefix_parent a O P n c En) as (Oc & Pc & Cc). eauto 6.
  - intros (b & Ob & Pb & Cb & R). right. destruct (prefix_covering a b O P Pb Cb) as (n & Hn & En).
    exists n, b. split; auto. split; auto. now apply MA.
Qed.
Lemma swinv_ext (s : switch lnk) m m' : swinv s m -> (forall l, m l = m' l) -> swinv s m'.
Proof.
  intros (NL & NA & NS & ML & MA & V) E. repeat split; auto; intros.
  - now rewrite <- E. - rewrite <- E. now apply MA. - apply MA. now rewrite E. - apply (V l). now rewrite E.
Qed.
Lemma gate_ok p : (0 <= p)%Z -> block_ok (gate p) /\ prefix_shaped (gate p) /\ from_string ClsBlock (gateway p) = Ok (gate p) /\ is_valid_string ClsBlock (gateway p) = true.
Proof.
  intros H. assert (B : block_ok (gate p)) by (repeat split; cbn; lia). assert (F : from_string ClsBlock (gateway p) = Ok (gate p)) by (apply from_string_str; exact B).
  split; [exact B|]. split; [repeat split; cbn; discriminate|]. split; [exact F|eapply from_string_valid; eauto].
Qed.
Lemma gate_covers p a : AddrSpec.covers (gate p) a -> a = gate p.
Proof. intros (A & B & C & D). destruct a as [z n d i]. unfold gate, covers_part in *. cbn in *. intuition congruence. Qed.

(** ** The ends of links *)
Definition pair_of (ends : list (Z * Z)) (e : nat * bool) : option (Z * Z) :=
  match nth_error ends (fst e) with Some (x, y) => Some (if snd e then (y, x) else (x, y)) | None => None end.
Definition all_ends (n : nat) : list (nat * bool) := flat_map (fun k => [(k, false); (k, true)]) (seq 0 n).
Lemma in_all n e : In e (all_ends n) <-> fst e < n.
Proof.
  unfold all_ends. rewrite in_flat_map. split.
  - intros (k & K & I). apply in_seq in K. destruct I as [<-|[<-|[]]]; cbn; lia.
  - intros L. exists (fst e). split; [apply in_seq; lia|]. destruct e as [k []]; cbn; auto.
Qed.
Lemma all_S n : all_ends (S n) = all_ends n ++ [(n, false); (n, true)].
Proof. unfold all_ends. rewrite seq_S, flat_map_app. reflexivity. Qed.
Lemma all_nodup n : NoDup (all_ends n).
Proof.
  induction n; [constructor|]. rewrite all_S. change [(n, false); (n, true)] with ([(n, false)] ++ [(n, true)]). rewrite app_assoc.
  apply NoDup_snoc; [apply NoDup_snoc; [exact IHn|]|]; rewrite ?in_app_iff, in_all; cbn; [lia|]. intros [X|[X|[]]]; [lia|congruence].
Qed.
Definition is_pair (x y : Z) (o : option (Z * Z)) : bool := match o with Some (u, v) => (u =? x)%Z && (v =? y)%Z | None => false end.
Lemma is_pair_true x y o : is_pair x y o = true <-> o = Some (x, y).
Proof. destruct o as [[u v]|]; cbn; [rewrite andb_true_iff, !Z.eqb_eq; split; [intros [-> ->]; auto|intros [= -> ->]; auto]|split; discriminate]. Qed.
Definition open_end (closed : list lnk) (e : nat * bool) : bool := negb (smem closed (End (fst e) (snd e))).
Definition open_count (ends : list (Z * Z)) (closed : list lnk) (x y : Z) : nat :=
  length (filter (fun e => is_pair x y (pair_of ends e) && open_end closed e) (all_ends (length ends))).
Lemma filter_len_ext {A} (f g : A -> bool) l : (forall x, In x l -> f x = g x) -> length (filter f l) = length (filter g l).
Proof. intros H. f_equal. now apply filter_ext_in. Qed.
Lemma filter_drop {A} (f g : A -> bool) l x : NoDup l -> In x l -> f x = true -> g x = false -> (forall y, y <> x -> f y = g y) -> length (filter f l) = S (length (filter g l)).
Proof.
  intros N I Fx Gx H. induction l as [|a l IH]; [destruct I|]. inversion N as [|? ? Na Nl]; subst. cbn [filter]. destruct I as [->|I].
  - rewrite Fx, Gx. cbn. f_equal. apply filter_len_ext. intros y Y. apply H. intros ->. contradiction.
  - assert (Ne : a <> x) by (intros ->; contradiction). rewrite (H a Ne). destruct (g a); cbn; rewrite IH; auto.
Qed.
Lemma pair_snoc ends x e : fst e < length ends -> pair_of (ends ++ [x]) e = pair_of ends e.
Proof. intros L. unfold pair_of. now rewrite nth_error_app1. Qed.
Lemma pair_some ends e x : pair_of ends e = Some x -> fst e < length ends.
Proof. unfold pair_of. intros H. apply nth_error_Some. destruct (nth_error ends (fst e)); congruence. Qed.
Lemma open_count_create ends closed p q x y : p <> q -> (forall b, ~ In (End (length ends) b) closed) ->
  open_count (ends ++ [(p, q)]) closed x y = open_count ends closed x y + b2n ((p =? x)%Z && (q =? y)%Z || (q =? x)%Z && (p =? y)%Z).
Proof.
  intros N C. unfold open_count. rewrite app_length. cbn [length]. rewrite Nat.add_1_r, all_S, filter_app, app_length. f_equal.
  - apply filter_len_ext. intros e I. apply in_all in I. now rewrite pair_snoc.
  - assert (O : forall b, open_end closed (length ends, b) = true).
    { intros b. unfold open_end. cbn. destruct (smem closed (End (length ends) b)) eqn:X; [|reflexivity]. apply smem_true in X. destruct (C b X). }
    assert (Pr : forall b, pair_of (ends ++ [(p, q)]) (length ends, b) = Some (if b then (q, p) else (p, q))).
    { intros b. unfold pair_of. cbn [fst snd]. rewrite nth_error_app2, Nat.sub_diag by lia. reflexivity. }
    cbn [filter]. rewrite !Pr, !O. cbn [is_pair]. rewrite !andb_true_r.
    destruct (Z.eqb_spec p x), (Z.eqb_spec q y), (Z.eqb_spec q x), (Z.eqb_spec p y); cbn; try reflexivity; exfalso; congruence.
Qed.
Lemma open_count_close ends closed k b p q x y : pair_of ends (k, b) = Some (p, q) -> ~ In (End k b) closed ->
  open_count ends (sadd closed (End k b)) x y = open_count ends closed x y - b2n ((p =? x)%Z && (q =? y)%Z).
Proof.
  intros Pr C. assert (O : forall e, open_end (sadd closed (End k b)) e = open_end closed e && negb (if eq_dec e (k, b) then true else false)).
  { intros [j c]. unfold open_end. cbn [fst snd]. destruct (smem (sadd closed (End k b)) (End j c)) eqn:X.
    - apply smem_true in X. apply in_sadd in X as [[= -> ->]|X]; [destruct (eq_dec (k, b) (k, b)); [now rewrite andb_false_r|congruence]|]. apply smem_true in X. rewrite X. reflexivity.
    - apply not_true_iff_false in X. rewrite smem_true, in_sadd in X. destruct (smem closed (End j c)) eqn:Y; [apply smem_true in Y; tauto|]. destruct (eq_dec (j, c) (k, b)) as [[= -> ->]|]; [tauto|reflexivity]. }
  assert (Ok : open_end closed (k, b) = true). { unfold open_end. cbn. destruct (smem closed (End k b)) eqn:X; [apply smem_true in X; contradiction|reflexivity]. }
  unfold open_count. destruct ((p =? x)%Z && (q =? y)%Z) eqn:M; cbn [b2n].
  - apply andb_true_iff in M as [M1 M2]. apply Z.eqb_eq in M1, M2. subst x y.
    rewrite (filter_drop (fun e => is_pair p q (pair_of ends e) && open_end closed e) (fun e => is_pair p q (pair_of ends e) && open_end (sadd closed (End k b)) e) (all_ends (length ends)) (k, b)); [lia|apply all_nodup| | | |].
    + apply in_all. now apply pair_some in Pr.
    + rewrite Pr, Ok. cbn. now rewrite !Z.eqb_refl.
    + rewrite O. destruct (eq_dec (k, b) (k, b)); [|congruence]. now rewrite andb_false_r, andb_false_r.
    + intros e E. rewrite O. destruct (eq_dec e (k, b)); [congruence|]. now rewrite andb_true_r.
  - rewrite Nat.sub_0_r. apply filter_len_ext. intros e _. rewrite O. destruct (eq_dec e (k, b)) as [->|]; [|now rewrite andb_true_r]. rewrite Pr. cbn. now rewrite M.
Qed.
