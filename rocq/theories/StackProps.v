(** * C38, C47: stacked protocols and transports *)
From Coq Require Import List ZArith Bool Lia.
From Verif Require Import PyBase PyLemmas StackModel StackSpec StackProofs.
Import ListNotations.
Open Scope nat_scope.

(** Calling a stack of factories returns the protocol of the first one; going
    up from it by higherProtocol() one meets the protocol of each factory, in
    the order given, and nothing else.  They are all different and new, and no
    protocol that existed is touched. *)
Theorem C38_chain_in_order : forall fs h h' bottom,
  Forall makes_new fs -> stack_call fs h = Ok (h', bottom) ->
  exists ids, chain h' (Some bottom) ids /\ Forall2 made_by fs ids /\ NoDup ids /\
    Forall (fun i => length h <= i) ids /\ (forall i, i < length h -> nth_error h' i = nth_error h i).
Proof.
  intros fs h h' b F R. destruct (stack_call_ok fs h h' b F R) as (ids & C & M & ND & G & _ & O). eauto 10.
Qed.
(** A call fails only if one of the factories does, or there is none. *)
Theorem C38_call_succeeds : forall fs h, Forall (fun f : factory => forall h, exists x, f h = Ok x) fs ->
  match fs with [] => stack_call fs h = Raise UnboundLocalError | _ => exists x, stack_call fs h = Ok x end.
Proof.
  intros fs h F. destruct fs as [|f fs]; [reflexivity|]. unfold stack_call.
  destruct (stack_loop_total (rev (f :: fs)) None h) as (h' & p & E).
  - rewrite Forall_forall in *. intros g I. apply F. now apply in_rev.
  - left. cbn. intros E. apply app_eq_nil in E. destruct E. discriminate.
  - rewrite E. cbn [bind fst snd]. eauto.
Qed.
(** With protocol classes for factories: the classes met going up are those
    given, in order. *)
Theorem C38_classes_in_order : forall ks h, ks <> [] -> exists h' bottom ids,
  stack_call (map new_protocol ks) h = Ok (h', bottom) /\ chain h' (Some bottom) ids /\ map (kind_of h') ids = map Some ks.
Proof.
  intros ks h N. destruct (stack_loop_kinds (rev ks) None h [] [] (chain_end _) eq_refl) as (h' & t & new & R & C & K & T).
  rewrite !app_nil_r in *. rewrite rev_involutive in K. destruct t as [p|].
  - exists h', p, (rev new). split; [|auto]. unfold stack_call. rewrite <- map_rev, R. reflexivity.
  - exfalso. apply T; auto. intros E. apply N. rewrite <- (rev_involutive ks), E. reflexivity.
Qed.
(** A data connection being completed, with a stack or without: above the
    callback protocol come the protocols of the stack's factories in order and
    then the application, which is the last; no other protocol changes. *)
Theorem C38_application_on_top : forall fs h self app r,
  self < length h -> app < length h -> self <> app -> higher h app = None ->
  match fs with Some l => Forall makes_new l | None => True end ->
  build fs self app h = Ok r ->
  exists h' ids, r = Some h' /\ chain h' (Some self) (self :: ids ++ [app]) /\
    Forall2 made_by (match fs with Some l => l | None => [] end) ids /\ Forall (fun i => length h <= i) ids /\
    (forall i, i < length h -> i <> self -> nth_error h' i = nth_error h i).
Proof.
  intros [l|] h self app r Ls La N HA F B; cbn [build] in B.
  - destruct (stack_call l h) as [[h1 b]|e] eqn:E; [|discriminate]. cbn [bind fst snd] in B. injection B as <-.
    destruct (stack_call_ok l h h1 b F E) as (ids & C & M & ND & G & Len & O). rewrite Forall_forall in G.
    destruct (set_info_ok h1 self app (Some b) ids) as (h' & R & C' & _ & _ & O'); try lia; auto.
    { intros I. specialize (G _ I). cbn in G. lia. }
    { cbn. intros [<-|I]; [congruence|]. specialize (G _ I). cbn in G. lia. }
    { unfold higher. rewrite O by lia. exact HA. }
    exists h', ids. split; [exact R|]. split; [exact C'|]. split; [exact M|]. split; [apply Forall_forall; exact G|].
    intros i Li Ni. rewrite O'; [now apply O|]. cbn. intros [<-|I]; [congruence|]. specialize (G _ I). cbn in G. lia.
  - injection B as <-.
    destruct (set_info_ok h self app None []) as (h' & R & C' & _ & _ & O'); auto; try constructor.
    { cbn. intros [|[]]. congruence. }
    exists h', []. split; [exact R|]. split; [exact C'|]. split; [constructor|]. split; [constructor|].
    intros i Li Ni. apply O'. cbn. intros [->|[]]. congruence.
Qed.
(** ** What does not hold *)
(** A stack given as a factory inside another stack contributes only its lowest
    protocol: the higher ones are unlinked. *)
Theorem C38_refuted_nested : exists h' bottom ids,
  stack_call [stack_call [new_protocol 1; new_protocol 2]; new_protocol 3] [] = Ok (h', bottom) /\
  chain h' (Some bottom) ids /\ map (kind_of h') ids = [Some 1; Some 3].
Proof.
  eexists _, _, _. split; [vm_compute; reflexivity|]. split.
  - constructor; [vm_compute; lia|]. vm_compute. constructor; [vm_compute; lia|]. vm_compute. constructor.
  - reflexivity.
Qed.
(** ** A concrete connection: callback protocol 0, application 1, stack of three *)
Example C38_ex : exists h',
  build (Some (map new_protocol [7; 8; 9])) 0 1 [(100, None); (200, None)] = Ok (Some h') /\
  Forall makes_new (map new_protocol [7; 8; 9]) /\
  h' = [(100, Some 4); (200, None); (9, Some 1); (8, Some 2); (7, Some 3)].
Proof.
  eexists. split; [vm_compute; reflexivity|]. split; [|reflexivity].
  repeat constructor; apply (new_makes_new _ _ _ _ H).
Qed.
Example C38_ex_nested_allowed : makes_new (stack_call (map new_protocol [7; 8; 9])).
Proof. apply stack_call_makes_new. repeat constructor; apply (new_makes_new _ _ _ _ H). Qed.

(** ** C47 *)
(** Whatever the number of stacked transports, a write, close or abort on the
    top one is exactly one such call on the lowest; writelines is one write for
    each piece, in order. *)
Theorem C47_calls_reach_the_bottom : forall base extras,
  (forall c, tcalls (stacked base extras) c = [c]) /\
  (forall ls, writelines (stacked base extras) ls = map TWrite ls).
Proof.
  intros base extras. split; [intros c; apply tcalls_base|]. intros ls. unfold writelines.
  induction ls as [|b r IH]; [reflexivity|]. cbn [map concat]. rewrite tcalls_base, IH. reflexivity.
Qed.
(** sockname, peername and spawnport are those of the highest layer that was
    given one; any other information is only that of the top layer itself. *)
Theorem C47_extra_info : forall base extras n,
  get_extra (stacked base extras) n =
  match n with
  | Other _ => match rev extras with [] => dget base n | top :: _ => dget top n end
  | _ => first_entry (rev extras ++ [base]) n
  end.
Proof.
  intros base extras. induction extras as [|e es IH] using rev_ind; intros n.
  - cbn. destruct n; try reflexivity; match goal with |- ?x = match ?y with _ => _ end => change x with y; destruct y; reflexivity end.
  - unfold stacked. rewrite fold_left_app. cbn [fold_left]. fold (stacked base es). rewrite get_stack, rev_app_distr. cbn [rev app].
    destruct n; cbn [first_entry]; rewrite ?IH; destruct (dget e _); reflexivity.
Qed.
Example C47_ex : get_extra (stacked [(Peername, 1%Z); (Sockname, 2%Z); (Other 5, 3%Z)] [[(Sockname, 7%Z)]; []]) Sockname = Some 7%Z /\
  get_extra (stacked [(Peername, 1%Z); (Sockname, 2%Z); (Other 5, 3%Z)] [[(Sockname, 7%Z)]; []]) Peername = Some 1%Z /\
  get_extra (stacked [(Peername, 1%Z); (Sockname, 2%Z); (Other 5, 3%Z)] [[(Sockname, 7%Z)]; []]) (Other 5) = None.
Proof. repeat split. Qed.
Print Assumptions C38_chain_in_order.
Print Assumptions C38_call_succeeds.
Print Assumptions C38_classes_in_order.
Print Assumptions C38_application_on_top.
Print Assumptions C38_refuted_nested.
Print Assumptions C47_calls_reach_the_bottom.
Print Assumptions C47_extra_info.
