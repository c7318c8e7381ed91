(** * Lemmas about stacks *)
From Coq Require Import List ZArith Bool Lia.
From Verif Require Import PyBase PyLemmas StackModel StackSpec.
Import ListNotations.
Open Scope nat_scope.

Lemma set_higher_len h i x : length (set_higher h i x) = length h.
Proof. revert i. induction h as [|[k y] r IH]; intros [|i]; cbn; auto. Qed.
Lemma set_higher_nth h i x j : nth_error (set_higher h i x) j =
  if Nat.eq_dec i j then match nth_error h j with Some (k, _) => Some (k, x) | None => None end else nth_error h j.
Proof.
  revert i j. induction h as [|[k y] r IH]; intros i j.
  - cbn. destruct j; cbn; destruct (Nat.eq_dec _ _); destruct i; reflexivity.
  - destruct i as [|i], j as [|j]; cbn [set_higher nth_error].
    + destruct (Nat.eq_dec 0 0); congruence.
    + destruct (Nat.eq_dec 0 (S j)); [discriminate|reflexivity].
    + destruct (Nat.eq_dec (S i) 0); [discriminate|reflexivity].
    + rewrite IH. destruct (Nat.eq_dec i j), (Nat.eq_dec (S i) (S j)); try congruence; try lia.
Qed.
Lemma higher_set_same h i x : i < length h -> higher (set_higher h i x) i = x.
Proof.
  intros L. unfold higher. rewrite set_higher_nth. destruct (Nat.eq_dec i i); [|congruence].
  apply nth_error_Some in L. destruct (nth_error h i) as [[k y]|]; [reflexivity|congruence].
Qed.
Lemma higher_set_other h i j x : i <> j -> higher (set_higher h i x) j = higher h j.
Proof. intros N. unfold higher. rewrite set_higher_nth. destruct (Nat.eq_dec i j); congruence. Qed.
Lemma kind_set h i x j : kind_of (set_higher h i x) j = kind_of h j.
Proof.
  unfold kind_of. rewrite set_higher_nth. destruct (Nat.eq_dec i j); [|reflexivity].
  destruct (nth_error h j) as [[k y]|]; reflexivity.
Qed.

Lemma chain_frame h h' : forall x l, chain h x l -> (forall i, In i l -> i < length h' /\ higher h' i = higher h i) -> chain h' x l.
Proof.
  intros x l C. induction C as [|i l L C IH]; intros F; [constructor|].
  destruct (F i (or_introl eq_refl)) as [L' E]. constructor; auto. rewrite E. apply IH. intros j Hj. apply F. right. exact Hj.
Qed.
Lemma chain_bound h x l : chain h x l -> Forall (fun i => i < length h) l.
Proof. induction 1; constructor; auto. Qed.
Lemma chain_fun h x l : chain h x l -> forall l', chain h x l' -> l = l'.
Proof. induction 1 as [|i l L C IH]; intros l' C'; inversion C'; subst; auto. f_equal. auto. Qed.

Lemma stack_loop_ok rev_fs : forall top h h' t ids,
  Forall makes_new rev_fs -> stack_loop rev_fs top h = Ok (h', t) ->
  chain h top ids -> NoDup ids ->
  exists new, chain h' t (rev new ++ ids) /\ Forall2 made_by rev_fs new /\ NoDup (rev new ++ ids) /\
              Forall (fun i => length h <= i) new /\ length h <= length h' /\ (forall i, i < length h -> nth_error h' i = nth_error h i).
Proof.
  induction rev_fs as [|f r IH]; intros top h h' t ids F R C ND.
  - injection R as <- <-. exists []. cbn. split; [exact C|split; [constructor|split; [exact ND|split; [constructor|split; auto]]]].
  - inversion F as [|? ? N F']; subst. cbn [stack_loop] in R. destruct (f h) as [[h1 p]|e] eqn:Ef; [|discriminate]. cbn [bind fst snd] in R.
    destruct (N _ _ _ Ef) as [B O].
    assert (NI : ~ In p ids). { intros I. pose proof (chain_bound _ _ _ C) as Q. rewrite Forall_forall in Q. specialize (Q _ I). cbn in Q. lia. }
    assert (C1 : chain (set_higher h1 p top) (Some p) (p :: ids)).
    { constructor; [rewrite set_higher_len; lia|]. rewrite higher_set_same by lia.
      apply chain_frame with (h := h); auto. intros i I. pose proof (chain_bound _ _ _ C) as Q. rewrite Forall_forall in Q. specialize (Q _ I). cbn in Q.
      rewrite set_higher_len. split; [lia|]. rewrite higher_set_other by lia. unfold higher. now rewrite O by lia. }
    specialize (IH (Some p) _ h' t (p :: ids) F' R C1 ltac:(constructor; auto)).
    destruct IH as (new & C2 & M & ND2 & G & Len & Old). rewrite set_higher_len in *.
    exists (p :: new). cbn [rev]. rewrite <- app_assoc. cbn [app].
    split; [exact C2|]. split; [constructor; auto; exists h, h1; exact Ef|]. split; [exact ND2|].
    split; [constructor; [lia|]; eapply Forall_impl; [|exact G]; cbn; intros; lia|]. split; [lia|].
    intros i L. rewrite Old by lia. rewrite set_higher_nth. destruct (Nat.eq_dec p i); [lia|]. apply O; lia.
Qed.
Lemma Forall2_rev {A B} (R : A -> B -> Prop) l r : Forall2 R l r -> Forall2 R (rev l) (rev r).
Proof. induction 1; cbn; [constructor|]. apply Forall2_app; auto. Qed.

Lemma stack_loop_total rev_fs : forall top h, Forall (fun f : factory => forall h, exists x, f h = Ok x) rev_fs ->
  rev_fs <> [] \/ top <> None -> exists h' p, stack_loop rev_fs top h = Ok (h', Some p).
Proof.
  induction rev_fs as [|f r IH]; intros top h F N.
  - destruct N as [N|N]; [congruence|]. destruct top as [p|]; [|congruence]. exists h, p. reflexivity.
  - inversion F as [|? ? E F']; subst. destruct (E h) as [[h1 p] Ep]. cbn [stack_loop]. rewrite Ep. cbn [bind fst snd].
    apply IH; auto. right. discriminate.
Qed.

Lemma stack_call_ok fs h h' b : Forall makes_new fs -> stack_call fs h = Ok (h', b) ->
  exists ids, chain h' (Some b) ids /\ Forall2 made_by fs ids /\ NoDup ids /\ Forall (fun i => length h <= i) ids /\
              length h <= length h' /\ (forall i, i < length h -> nth_error h' i = nth_error h i).
Proof.
  intros F R. unfold stack_call in R. destruct (stack_loop (rev fs) None h) as [[h1 t]|e] eqn:E; [|discriminate]. cbn [bind fst snd] in R.
  destruct t as [p|]; [|discriminate]. injection R as <- <-.
  assert (F' : Forall makes_new (rev fs)). { rewrite Forall_forall in *. intros f I. apply F. now apply in_rev. }
  destruct (stack_loop_ok _ _ _ _ _ [] F' E (chain_end _) (NoDup_nil _)) as (new & C & M & ND & G & Len & O).
  rewrite app_nil_r in *. exists (rev new). split; [exact C|]. split; [rewrite <- (rev_involutive fs); now apply Forall2_rev|].
  split; [exact ND|]. split; [|auto]. rewrite Forall_forall in *. intros i I. apply G. now apply in_rev.
Qed.
(** a stack factory is again a factory of this kind *)
Lemma stack_call_makes_new fs : Forall makes_new fs -> makes_new (stack_call fs).
Proof.
  intros F h h' b R. destruct (stack_call_ok fs h h' b F R) as (ids & C & _ & _ & G & Len & O). split; [|exact O].
  inversion C as [|i l L C']; subst. inversion G; subst. lia.
Qed.
Lemma new_makes_new k : makes_new (new_protocol k).
Proof.
  intros h h' p E. injection E as <- <-. rewrite app_length. cbn. split; [lia|]. intros i L. now apply nth_error_app1.
Qed.

(** kinds *)
Lemma kind_frame h h' : (forall i, i < length h -> nth_error h' i = nth_error h i) -> forall i, i < length h -> kind_of h' i = kind_of h i.
Proof. intros F i L. unfold kind_of. now rewrite F. Qed.
Lemma stack_loop_kinds ks : forall top h ids kids,
  chain h top ids -> map (kind_of h) ids = map Some kids ->
  exists h' t new, stack_loop (map new_protocol ks) top h = Ok (h', t) /\ chain h' t (rev new ++ ids) /\
    map (kind_of h') (rev new ++ ids) = map Some (rev ks ++ kids) /\ (ks <> [] -> t <> None).
Proof.
  induction ks as [|k ks IH]; intros top h ids kids C K.
  - exists h, top, []. cbn. split; [reflexivity|]. split; [exact C|]. split; [exact K|congruence].
  - cbn [map stack_loop new_protocol bind fst snd]. set (h1 := set_higher (h ++ [(k, None)]) (length h) top).
    assert (LB : Forall (fun i => i < length h) ids) by exact (chain_bound _ _ _ C). rewrite Forall_forall in LB.
    assert (Q : forall i, i < length h -> nth_error h1 i = nth_error h i).
    { intros i Li. unfold h1. rewrite set_higher_nth. destruct (Nat.eq_dec (length h) i); [lia|]. now apply nth_error_app1. }
    assert (L1 : length h1 = S (length h)). { unfold h1. rewrite set_higher_len, app_length. cbn. lia. }
    assert (C1 : chain h1 (Some (length h)) (length h :: ids)).
    { constructor; [lia|]. unfold h1 at 2. rewrite higher_set_same by (rewrite app_length; cbn; lia).
      apply chain_frame with (h := h); auto. intros i I. specialize (LB _ I). split; [lia|]. unfold higher. rewrite Q by lia. reflexivity. }
    assert (K1 : map (kind_of h1) (length h :: ids) = map Some (k :: kids)).
    { cbn [map]. f_equal.
      - unfold h1. rewrite kind_set. unfold kind_of. rewrite nth_error_app2 by lia. now rewrite Nat.sub_diag.
      - rewrite <- K. apply map_ext_in. intros i I. apply kind_frame with (h := h); auto. }
    destruct (IH _ _ _ _ C1 K1) as (h' & t & new & R & C2 & K2 & T).
    exists h', t, (length h :: new). unfold new_protocol in R. fold h1. split; [exact R|].
    cbn [rev]. rewrite <- !app_assoc. cbn [app]. split; [exact C2|]. split; [exact K2|].
    intros _. destruct ks; [|now apply T]. injection R as <- <-. discriminate.
Qed.

(** going up *)
Lemma chain_cons_inv h i l : chain h (Some i) l -> exists r, l = i :: r /\ i < length h /\ chain h (higher h i) r.
Proof. intros C. inversion C; subst. eauto. Qed.
Lemma top_of_chain h : forall l i fuel, chain h (Some i) l -> length l <= fuel -> exists p l', l = l' ++ [p] /\ top_of fuel h i = Some p /\ higher h p = None.
Proof.
  induction l as [|j l IH]; intros i fuel C L; [inversion C|]. apply chain_cons_inv in C. destruct C as (r & E & Lt & C). injection E as <- <-.
  destruct fuel as [|fuel]; [cbn in L; lia|]. cbn [top_of]. destruct (higher h j) as [q|] eqn:Hq.
  - destruct (IH q fuel C ltac:(cbn in L; lia)) as (p & l' & -> & T & Hp). exists p, (j :: l'). split; [reflexivity|auto].
  - inversion C; subst. exists j, []. split; [reflexivity|auto].
Qed.
Lemma chain_extend h a : a < length h -> forall l i p, chain h (Some i) (l ++ [p]) -> NoDup (l ++ [p]) -> ~ In a (l ++ [p]) -> higher h a = None ->
  chain (set_higher h p (Some a)) (Some i) (l ++ [p; a]).
Proof.
  intros La. induction l as [|j l IH]; intros i p C ND NI Ha.
  - cbn in *. apply chain_cons_inv in C. destruct C as (r & E & Lt & C). injection E as <- <-.
    constructor; [now rewrite set_higher_len|]. rewrite higher_set_same by auto. constructor; [now rewrite set_higher_len|].
    rewrite higher_set_other by (intros ->; apply NI; now left). rewrite Ha. constructor.
  - cbn [app] in *. apply chain_cons_inv in C. destruct C as (r & E & Lt & C). injection E as <- <-.
    inversion ND as [|? ? N1 ND']; subst. constructor; [now rewrite set_higher_len|].
    rewrite higher_set_other by (intros ->; apply N1; apply in_or_app; right; now left).
    destruct (higher h j) as [q|] eqn:Hq; [|inversion C; destruct l; discriminate].
    apply IH; auto. intros I. apply NI. now right.
Qed.
Lemma NoDup_le (n : nat) l : NoDup l -> Forall (fun i => i < n) l -> length l <= n.
Proof.
  intros ND F. rewrite <- (seq_length n 0). apply NoDup_incl_length; auto. intros i I. rewrite Forall_forall in F. specialize (F _ I). apply in_seq. lia.
Qed.
(** the callback protocol, the stack, the application *)
Lemma set_info_ok h self app x ids : self < length h -> app < length h ->
  chain h x ids -> NoDup ids -> ~ In self ids -> ~ In app (self :: ids) -> higher h app = None ->
  exists h', set_info self x app h = Some h' /\ chain h' (Some self) (self :: ids ++ [app]) /\
    length h' = length h /\ (forall i, kind_of h' i = kind_of h i) /\
    (forall i, ~ In i (self :: ids) -> nth_error h' i = nth_error h i).
Proof.
  intros Ls La C ND NS NA HA. unfold set_info. set (h1 := set_higher h self x).
  assert (C1 : chain h1 (Some self) (self :: ids)).
  { constructor; [unfold h1; now rewrite set_higher_len|]. unfold h1 at 2. rewrite higher_set_same by auto.
    apply chain_frame with (h := h); auto. intros i I. pose proof (chain_bound _ _ _ C) as B. rewrite Forall_forall in B. specialize (B _ I).
    unfold h1. rewrite set_higher_len. split; auto. apply higher_set_other. intros ->. contradiction. }
  assert (L1 : length h1 = length h) by apply set_higher_len.
  assert (ND1 : NoDup (self :: ids)) by (constructor; auto).
  destruct (top_of_chain h1 _ _ (S (length h1)) C1) as (p & l' & E & T & Hp).
  { apply Nat.le_le_succ_r. apply NoDup_le; auto. exact (chain_bound _ _ _ C1). }
  rewrite T. exists (set_higher h1 p (Some app)). split; [reflexivity|].
  assert (NE : app <> self) by (intros ->; apply NA; now left).
  assert (C2 : chain (set_higher h1 p (Some app)) (Some self) (l' ++ [p; app])).
  { apply chain_extend; rewrite <- ?E; auto; [lia|]. unfold h1. rewrite higher_set_other; auto. }
  split. { change [p; app] with ([p] ++ [app]) in C2. rewrite app_assoc, <- E in C2. exact C2. }
  split; [now rewrite set_higher_len|]. split; [intros i; unfold h1; now rewrite !kind_set|].
  intros i N. unfold h1. rewrite !set_higher_nth.
  destruct (Nat.eq_dec p i) as [->|_]. { exfalso. apply N. rewrite E. apply in_or_app. right. now left. }
  destruct (Nat.eq_dec self i) as [->|_]; [|reflexivity]. exfalso. apply N. now left.
Qed.

(** ** transports *)
Lemma tcalls_base t c : tcalls t c = [c].
Proof. induction t; cbn; auto. Qed.
Lemma dget_inherit lower n e m : dget (inherit lower n e) m =
  match dget e m with Some v => Some v | None => if eq_dec m n then get_extra lower n else None end.
Proof.
  unfold inherit. destruct (dget e n) as [v|] eqn:E.
  - destruct (eq_dec m n) as [->|]; [now rewrite E|]. destruct (dget e m); reflexivity.
  - destruct (get_extra lower n) as [v|] eqn:G.
    + rewrite dget_dset. destruct (eq_dec m n) as [->|]; [now rewrite E|]. destruct (dget e m); reflexivity.
    + destruct (eq_dec m n) as [->|]; [now rewrite E|]. destruct (dget e m); reflexivity.
Qed.
Lemma get_stack lower e m : get_extra (stack_transport lower e) m =
  match dget e m with Some v => Some v | None => match m with Other _ => None | _ => get_extra lower m end end.
Proof.
  unfold stack_transport. cbn [get_extra]. rewrite !dget_inherit. destruct (dget e m) as [v|]; [reflexivity|].
  destruct m; repeat (destruct (eq_dec _ _)); try congruence; try reflexivity;
    match goal with |- context [get_extra lower ?x] => destruct (get_extra lower x); reflexivity end.
Qed.
