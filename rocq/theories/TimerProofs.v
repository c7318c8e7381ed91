(** * Proofs about the test loop and the timer *)
From Coq Require Import List ZArith Bool Lia Permutation.
From Verif Require Import PyBase TimerModel TimerSpec.
Import ListNotations.
Open Scope Z_scope.

(** ** stable sorting *)
Fixpoint ins_after (x : Z * task) (l : list (Z * task)) : list (Z * task) :=
  match l with
  | [] => [x]
  | y :: r => if fst x <? fst y then x :: l else y :: ins_after x r
  end.
Lemma ins_ins_after x y l : ins x (ins_after y l) = ins_after y (ins x l).
Proof.
  induction l as [|z l IH]; cbn [ins ins_after].
  - destruct (Z.leb_spec (fst x) (fst y)); destruct (Z.ltb_spec (fst y) (fst x)); try lia; reflexivity.
  - destruct (Z.ltb_spec (fst y) (fst z)); destruct (Z.leb_spec (fst x) (fst z)); cbn [ins ins_after];
    repeat (match goal with
            | |- context [?a <=? ?b] => destruct (Z.leb_spec a b)
            | |- context [?a <? ?b] => destruct (Z.ltb_spec a b)
            end; try lia; cbn [ins ins_after]); try reflexivity.
    rewrite IH. reflexivity.
Qed.
Lemma pysort_snoc l x : pysort (l ++ [x]) = ins_after x (pysort l).
Proof.
  induction l as [|y l IH]; [reflexivity|]. cbn [app pysort]. rewrite IH. apply ins_ins_after.
Qed.
Inductive ordered : list (Z * task) -> Prop :=
| ord_nil : ordered []
| ord_cons x l : (forall y, In y l -> fst x <= fst y) -> ordered l -> ordered (x :: l).
Lemma ins_in x l y : In y (ins x l) <-> y = x \/ In y l.
Proof.
  induction l as [|z l IH]; cbn [ins In]; [intuition|]. destruct (fst x <=? fst z); cbn [In]; [intuition|]. rewrite IH. intuition.
Qed.
Lemma ins_ordered x l : ordered l -> ordered (ins x l).
Proof.
  induction 1 as [|z l Hz Ho IH]; cbn [ins].
  - constructor; [intros y []|constructor].
  - destruct (Z.leb_spec (fst x) (fst z)).
    + constructor; [|constructor; auto]. intros y [<-|Hy]; [lia|]. specialize (Hz y Hy). lia.
    + constructor; [|exact IH]. intros y Hy. apply ins_in in Hy. destruct Hy as [->|Hy]; [lia|auto].
Qed.
Lemma pysort_ordered l : ordered (pysort l).
Proof. induction l; cbn [pysort]; [constructor|apply ins_ordered; assumption]. Qed.
Lemma pysort_id l : ordered l -> pysort l = l.
Proof.
  induction 1 as [|x l Hx Ho IH]; [reflexivity|]. cbn [pysort]. rewrite IH. destruct l as [|y l]; [reflexivity|].
  cbn [ins]. destruct (Z.leb_spec (fst x) (fst y)); [reflexivity|]. specialize (Hx y (or_introl eq_refl)). lia.
Qed.
Lemma pysort_in l y : In y (pysort l) <-> In y l.
Proof. induction l as [|x l IH]; cbn [pysort In]; [tauto|]. rewrite ins_in, IH. intuition. Qed.
Lemma pysort_again l x : pysort (pysort l ++ [x]) = pysort (l ++ [x]).
Proof. rewrite !pysort_snoc, (pysort_id _ (pysort_ordered l)). reflexivity. Qed.

Fixpoint first_min (l : list (Z * task)) : option ((Z * task) * list (Z * task)) :=
  match l with
  | [] => None
  | x :: r => match first_min r with
              | None => Some (x, [])
              | Some (m, rest) => if fst x <=? fst m then Some (x, r) else Some (m, x :: rest)
              end
  end.
Lemma first_min_sort l : match first_min l with
                         | None => l = []
                         | Some (m, rest) => pysort l = m :: pysort rest
                         end.
Proof.
  induction l as [|x l IH]; cbn [first_min pysort]; [reflexivity|].
  destruct (first_min l) as [[m rest]|].
  - destruct (Z.leb_spec (fst x) (fst m)); rewrite IH; cbn [ins pysort].
    + destruct (Z.leb_spec (fst x) (fst m)); [rewrite <- IH; reflexivity|lia].
    + destruct (Z.leb_spec (fst x) (fst m)); [lia|reflexivity].
  - subst l. reflexivity.
Qed.
Lemma first_min_earliest l m rest : first_min l = Some (m, rest) -> earliest l m rest.
Proof.
  revert m rest. induction l as [|x l IH]; intros m rest H; cbn [first_min] in H; [discriminate|].
  destruct (first_min l) as [[m' rest']|] eqn:E.
  - destruct (IH _ _ eq_refl) as (pre & post & El & Er & Hp & Hq).
    destruct (Z.leb_spec (fst x) (fst m')) as [L|L]; injection H as <- <-.
    + exists [], l. repeat split; auto; [intros y []|]. intros y Hy. rewrite El in Hy. apply in_app_or in Hy.
      destruct Hy as [Hy|[<-|Hy]]; [specialize (Hp y Hy); lia|exact L|specialize (Hq y Hy); lia].
    + exists (x :: pre), post. subst l rest'. repeat split; auto. intros y [<-|Hy]; [lia|auto].
  - injection H as <- <-. pose proof (first_min_sort l) as F. rewrite E in F. subst l.
    exists [], []. repeat split; auto; intros y [].
Qed.
Lemma pysort_cons l x r : pysort l = x :: r -> exists rest, earliest l x rest /\ r = pysort rest.
Proof.
  intros H. pose proof (first_min_sort l) as F. destruct (first_min l) as [[m rest]|] eqn:E.
  - rewrite H in F. injection F as -> ->. exists rest. split; [apply first_min_earliest; exact E|reflexivity].
  - subst l. discriminate.
Qed.

(** ** running *)
Lemma spawn_sched sp : forall now l,
  fold_left (fun l dt => call_later (fst dt) (snd dt) l) sp (Loop now (pysort l)) = Loop now (pysort (l ++ scheduled now sp)).
Proof.
  induction sp as [|[d t] sp IH]; intros now l; cbn [fold_left scheduled map].
  - rewrite app_nil_r. reflexivity.
  - unfold call_later at 2. cbn [l_clock l_sched fst snd]. rewrite pysort_again, IH, <- app_assoc. reflexivity.
Qed.
Lemma sched_size_app a b : sched_size (a ++ b) = (sched_size a + sched_size b)%nat.
Proof. induction a as [|x a IH]; cbn [app sched_size fold_right]; [reflexivity|]. fold (sched_size (a ++ b)) (sched_size a). lia. Qed.
Lemma sched_size_scheduled now sp : sched_size (scheduled now sp) = (fix go (sp : list (Z * task)) : nat := match sp with [] => O | (_, t) :: r => task_size t + go r end)%nat sp.
Proof. unfold sched_size, scheduled. induction sp as [|[d t] sp IH]; cbn [map fold_right fst snd]; [reflexivity|]. rewrite IH. reflexivity. Qed.
Lemma sched_size_ins x l : sched_size (ins x l) = (task_size (snd x) + sched_size l)%nat.
Proof.
  induction l as [|y l IH]; cbn [ins]; [reflexivity|]. destruct (fst x <=? fst y); [reflexivity|].
  cbn [sched_size fold_right]. fold (sched_size (ins x l)) (sched_size l). lia.
Qed.
Lemma sched_size_sort l : sched_size (pysort l) = sched_size l.
Proof. induction l as [|x l IH]; cbn [pysort]; [reflexivity|]. rewrite sched_size_ins, IH. reflexivity. Qed.
Lemma sched_size_earliest l x rest : earliest l x rest -> sched_size l = (task_size (snd x) + sched_size rest)%nat.
Proof.
  intros (pre & post & -> & -> & _). rewrite !sched_size_app. cbn [sched_size fold_right]. fold (sched_size post). lia.
Qed.

Lemma run_once_spec fuel : forall now l, (sched_size l <= fuel)%nat ->
  exists log l', due_run now l log l' /\ run_once fuel (Loop now (pysort l)) = (Loop now (pysort l'), log).
Proof.
  induction fuel as [|fuel IH]; intros now l F.
  - assert (l = []) as ->. { destruct l as [|[d [i sp]] l]; [reflexivity|]. cbn in F. lia. }
    exists [], []. split; [apply due_done; intros x []|reflexivity].
  - cbn [run_once l_sched l_clock]. destruct (pysort l) as [|[due [id sp]] r] eqn:E.
    + exists [], l. split; [|rewrite E; reflexivity]. apply due_done. intros x Hx. apply pysort_in in Hx. rewrite E in Hx. destruct Hx.
    + destruct (pysort_cons _ _ _ E) as (rest & Ear & ->).
      destruct (Z.leb_spec due now) as [L|L].
      * unfold run_task. rewrite spawn_sched.
        destruct (IH now (rest ++ scheduled now sp)) as (log & l' & R & Er).
        { rewrite sched_size_app, sched_size_scheduled. rewrite (sched_size_earliest _ _ _ Ear) in F. cbn [snd task_size] in F. lia. }
        rewrite Er. exists ((due, id) :: log), l'. split; [|reflexivity]. econstructor; eauto.
      * exists [], l. split; [|rewrite E; reflexivity]. apply due_done. intros x Hx. apply pysort_in in Hx. rewrite E in Hx.
        destruct Hx as [<-|Hx]; [exact L|]. pose proof (pysort_ordered l) as O. rewrite E in O. inversion O as [|? ? Ho _]; subst.
        specialize (Ho x Hx). cbn [fst] in Ho. lia.
Qed.
Lemma lrun_spec os : forall now l, exists logs now' l', spec_run now l os logs now' l' /\
  lrun os (Loop now (pysort l)) = (Loop now' (pysort l'), logs).
Proof.
  induction os as [|o os IH]; intros now l; cbn [lrun].
  - exists [], now, l. split; [constructor|reflexivity].
  - destruct o as [d t|t|s]; cbn [lstep].
    + unfold call_later. cbn [l_clock l_sched]. rewrite pysort_again.
      destruct (IH now (l ++ [(now + d, t)])) as (logs & now' & l' & S & E). rewrite E.
      exists ([] :: logs), now', l'. split; [constructor; exact S|reflexivity].
    + unfold set_clock. cbn [l_sched]. destruct (IH t l) as (logs & now' & l' & S & E). rewrite E.
      exists ([] :: logs), now', l'. split; [constructor; exact S|reflexivity].
    + unfold advance. cbn [l_clock l_sched].
      destruct (run_once_spec (sched_size (pysort l)) (now + s) l) as (log & l1 & R & E1); [rewrite sched_size_sort; lia|].
      rewrite E1. destruct (IH (now + s) l1) as (logs & now' & l' & S & E). rewrite E.
      exists (log :: logs), now', l'. split; [econstructor; eauto|reflexivity].
Qed.

(** ** consequences of the loop's specification *)
Lemma due_run_none now l log l' : due_run now l log l' -> forall x, In x l' -> now < fst x.
Proof. induction 1; auto. Qed.
Lemma due_run_due now l log l' : due_run now l log l' -> Forall (fun e => fst e <= now) log.
Proof. induction 1; constructor; auto. Qed.
Lemma earliest_in l x rest : earliest l x rest -> In x l /\ (forall y, In y rest -> In y l) /\ (forall y, In y rest -> fst x <= fst y).
Proof.
  intros (pre & post & -> & -> & Hp & Hq). repeat split.
  - apply in_or_app. right. left. reflexivity.
  - intros y Hy. apply in_app_or in Hy. apply in_or_app. destruct Hy; [left; assumption|right; right; assumption].
  - intros y Hy. apply in_app_or in Hy. destruct Hy as [Hy|Hy]; [specialize (Hp y Hy); lia|auto].
Qed.
Lemma due_run_order now l log l' : due_run now l log l' -> (forall x, In x l -> nonneg_task (snd x)) ->
  nondecreasing (map fst log) /\ (forall m, m <= now -> (forall x, In x l -> m <= fst x) -> forall y, In y (map fst log) -> m <= y).
Proof.
  induction 1 as [l N|l due id sp rest log l' E L R IH]; intros NN.
  - split; [constructor|]. intros m _ _ y [].
  - destruct (earliest_in _ _ _ E) as (I1 & I2 & I3).
    pose proof (NN _ I1) as Nt. cbn [snd] in Nt. inversion Nt as [? ? Hsp]; subst.
    destruct IH as [IH1 IH2].
    { intros x Hx. apply in_app_or in Hx. destruct Hx as [Hx|Hx]; [auto|].
      unfold scheduled in Hx. apply in_map_iff in Hx. destruct Hx as ([d t] & <- & Hx). cbn [snd]. apply (Hsp d t Hx). }
    assert (G : forall m, m <= now -> (forall x, In x rest -> m <= fst x) -> forall y, In y (map fst log) -> m <= y).
    { intros m Hm Hr. apply IH2; [exact Hm|]. intros x Hx. apply in_app_or in Hx. destruct Hx as [Hx|Hx]; [auto|].
      unfold scheduled in Hx. apply in_map_iff in Hx. destruct Hx as ([d t] & <- & Hx). cbn [fst]. destruct (Hsp d t Hx). lia. }
    cbn [map fst]. split.
    + constructor; [|exact IH1]. apply G; auto.
    + intros m Hm Hl y [<-|Hy]; [exact (Hl _ I1)|]. apply (G m); auto.
Qed.
Lemma due_run_flat now l log l' : due_run now l log l' -> (forall x, In x l -> exists i, snd x = Task i []) ->
  l' = filter (fun x => now <? fst x) l /\
  Permutation log (map (fun x => (fst x, match snd x with Task i _ => i end)) (filter (fun x => fst x <=? now) l)).
Proof.
  induction 1 as [l N|l due id sp rest log l' E L R IH]; intros NN.
  - split.
    + clear NN. induction l as [|x l IHl]; cbn [filter]; [reflexivity|].
      destruct (Z.ltb_spec now (fst x)) as [G|G]; [|specialize (N x (or_introl eq_refl)); lia]. f_equal. apply IHl. intros y Hy. apply N. right. exact Hy.
    + replace (filter (fun x => fst x <=? now) l) with (@nil (Z * task)); [constructor|].
      clear NN. induction l as [|x l IHl]; cbn [filter]; [reflexivity|].
      destruct (Z.leb_spec (fst x) now) as [G|G]; [specialize (N x (or_introl eq_refl)); lia|]. apply IHl. intros y Hy. apply N. right. exact Hy.
  - destruct (earliest_in _ _ _ E) as (I1 & I2 & I3).
    destruct (NN _ I1) as [i Hi]. cbn [snd] in Hi. injection Hi as -> ->. cbn [scheduled map] in *. rewrite app_nil_r in *.
    destruct IH as [IH1 IH2]; [intros x Hx; auto|]. destruct E as (pre & post & -> & -> & _). rewrite !filter_app in *.
    cbn [filter fst]. split.
    + rewrite IH1. destruct (Z.ltb_spec now due); [lia|reflexivity].
    + destruct (Z.leb_spec due now); [|lia]. rewrite map_app in *. cbn [map fst snd].
      apply Permutation_cons_app. exact IH2.
Qed.

(** ** Timer *)
Definition ids (hs : list (nat * Z * bool)) : list nat := map (fun h => fst (fst h)) hs.
Definition tinv (s : timer) : Prop := NoDup (ids (t_handles s)) /\ (forall h, In h (t_handles s) -> (fst (fst h) < t_next s)%nat).
Lemma cancel_ids i hs : ids (cancel_handle i hs) = ids hs.
Proof. unfold ids, cancel_handle. rewrite map_map. apply map_ext. intros [[j w] c]. cbn [fst]. destruct (Nat.eqb j i); reflexivity. Qed.
Lemma ids_filter f hs : NoDup (ids hs) -> NoDup (ids (filter f hs)).
Proof.
  unfold ids. induction hs as [|h hs IH]; cbn [filter map]; intros N; [constructor|]. apply NoDup_cons_iff in N. destruct N as [Nh N].
  destruct (f h); cbn [map]; auto. constructor; auto. intros H. apply Nh. apply in_map_iff in H. destruct H as (h' & E & H). apply filter_In in H.
  apply in_map_iff. exists h'. tauto.
Qed.
Lemma tinv_start s : tinv s -> tinv (t_start s).
Proof.
  intros [N B]. split; cbn [t_start t_handles t_next].
  - unfold ids. rewrite map_app. cbn [map fst]. apply (Permutation_NoDup (Permutation_cons_append _ _)). constructor; [|exact N].
    intros H. apply in_map_iff in H. destruct H as (h & E & H). specialize (B h H). lia.
  - intros h Hh. apply in_app_or in Hh. destruct Hh as [Hh|[<-|[]]]; [specialize (B h Hh); lia|cbn [fst]; lia].
Qed.
Lemma tinv_step o s s' : tinv s -> tstep o s = Some s' -> tinv s'.
Proof.
  intros I H. pose proof I as [N B]. destruct o as [d|i| |d| |]; cbn [tstep] in H.
  - destruct (0 <=? d); [|discriminate]. injection H as <-. exact I.
  - destruct (find _ _) as [[[j w] [|]]|]; try discriminate. destruct (w <=? t_now s); [|discriminate]. injection H as <-.
    assert (J : tinv (Timer_ (t_now s) (t_delay s) (t_task s) (filter (fun h => negb (Nat.eqb (fst (fst h)) i)) (t_handles s)) (t_next s) (t_fired s))).
    { split; cbn [t_handles t_next]; [apply ids_filter; exact N|]. intros h Hh. apply filter_In in Hh. apply B. tauto. }
    unfold t_fire. cbn [t_delay]. destruct (t_delay s =? 0); [exact J|apply tinv_start; exact J].
  - injection H as <-. apply tinv_start; exact I.
  - injection H as <-. exact I.
  - unfold t_cancel in H. destruct (t_task s) as [i|]; injection H as <-; [|exact I]. split; cbn [t_handles t_next].
    + rewrite cancel_ids. exact N.
    + intros h Hh. unfold cancel_handle in Hh. apply in_map_iff in Hh. destruct Hh as (h' & <- & Hh). specialize (B h' Hh).
      destruct (Nat.eqb _ i); exact B.
  - unfold t_expire, t_cancel in H. destruct (t_task s) as [i|]; injection H as <-; [|exact I]. split; cbn [t_callback t_handles t_next].
    + rewrite cancel_ids. exact N.
    + intros h Hh. unfold cancel_handle in Hh. apply in_map_iff in Hh. destruct Hh as (h' & <- & Hh). specialize (B h' Hh).
      destruct (Nat.eqb _ i); exact B.
Qed.
Definition livel (hs : list (nat * Z * bool)) := filter (fun h => negb (snd h)) hs.
Lemma find_split hs i j w c : NoDup (ids hs) -> find (fun h => Nat.eqb (fst (fst h)) i) hs = Some (j, w, c) ->
  j = i /\ exists pre post, hs = pre ++ (i, w, c) :: post /\ filter (fun h => negb (Nat.eqb (fst (fst h)) i)) hs = pre ++ post.
Proof.
  induction hs as [|[[k v] e] hs IH]; intros N H; cbn [find] in H; [discriminate|]. cbn [fst] in H.
  apply NoDup_cons_iff in N. destruct N as [Nk N]. cbn [filter fst] in *. destruct (Nat.eqb_spec k i) as [->|Nei].
  - injection H as <- <- <-. split; [reflexivity|]. exists [], hs. split; [reflexivity|]. cbn [app negb]. clear IH.
    induction hs as [|[[k v'] e'] hs IHh]; cbn [filter fst]; [reflexivity|]. cbn [ids map fst] in Nk.
    destruct (Nat.eqb_spec k i); [subst; exfalso; apply Nk; left; reflexivity|]. cbn [negb]. f_equal. apply IHh.
    + intros Hh. apply Nk. right. exact Hh.
    + apply NoDup_cons_iff in N. tauto.
  - destruct (IH N H) as (-> & pre & post & E & F). split; [reflexivity|]. exists ((k, v, e) :: pre), post. cbn [negb]. rewrite F. subst hs. auto.
Qed.
Lemma livel_app a b : livel (a ++ b) = livel a ++ livel b.
Proof. apply filter_app. Qed.
Lemma livel_cancel i hs : exists dead, Permutation (livel hs) (livel (cancel_handle i hs) ++ dead) /\
  (forall h, In h (livel (cancel_handle i hs)) <-> In h (livel hs) /\ fst (fst h) <> i).
Proof.
  unfold livel, cancel_handle. induction hs as [|[[k v] e] hs (dead & P & Q)]; cbn [map filter fst].
  - exists []. split; [constructor|]. cbn. tauto.
  - destruct (Nat.eqb_spec k i) as [->|Nk]; destruct e; cbn [snd negb].
    + exists dead. split; [exact P|exact Q].
    + exists ((i, v, false) :: dead). split; [apply Permutation_cons_app; exact P|]. intros h. rewrite Q. cbn [In]. split; [tauto|].
      intros [[<-|H] N]; [cbn [fst] in N; congruence|tauto].
    + exists dead. split; [exact P|exact Q].
    + exists dead. split; [apply perm_skip; exact P|]. intros h. cbn [In]. rewrite Q. split; [|tauto]. intros [<-|H]; [cbn [fst]; auto|tauto].
Qed.

(** what a step does to the pending live handles and the firings *)
Lemma live_alt s : live s = livel (t_handles s).
Proof. reflexivity. Qed.
Lemma step_run i s s' : tinv s -> tstep (ORun i) s = Some s' ->
  exists w pre post, live s = pre ++ (i, w, false) :: post /\ w <= t_now s /\ t_now s' = t_now s /\ t_delay s' = 0 /\
    ((t_delay s = 0 /\ live s' = pre ++ post /\ t_fired s' = t_fired s ++ [t_now s]) \/
     (t_delay s <> 0 /\ live s' = pre ++ post ++ [(t_next s, t_now s + t_delay s, false)] /\ t_fired s' = t_fired s)).
Proof.
  intros [N B] H. cbn [tstep] in H. destruct (find _ _) as [[[j w] [|]]|] eqn:F; try discriminate.
  destruct (Z.leb_spec w (t_now s)) as [L|L]; [|discriminate]. apply (f_equal (fun x => match x with Some a => a | None => s end)) in H. subst s'.
  destruct (find_split _ _ _ _ _ N F) as (-> & pre & post & E & Ff). rewrite Ff.
  exists w, (livel pre), (livel post).
  split. { rewrite live_alt, E, livel_app. reflexivity. }
  split; [exact L|]. unfold t_fire. cbn [t_delay]. destruct (Z.eqb_spec (t_delay s) 0) as [D|D]; cbn [t_callback t_start t_now t_delay t_fired].
  - split; [reflexivity|]. split; [exact D|]. left. split; [exact D|]. split; [rewrite live_alt; cbn [t_handles]; apply livel_app|reflexivity].
  - split; [reflexivity|]. split; [reflexivity|]. right. split; [exact D|]. split; [|reflexivity].
    rewrite live_alt; cbn [t_start t_handles t_next t_now t_delay]. rewrite !livel_app, <- app_assoc. reflexivity.
Qed.
Lemma step_other o s s' : tinv s -> tstep o s = Some s' ->
  match o with
  | OTick d => 0 <= d /\ t_now s' = t_now s + d /\ t_delay s' = t_delay s /\ live s' = live s /\ t_fired s' = t_fired s
  | ORun _ => True
  | OStart => t_now s' = t_now s /\ t_delay s' = 0 /\ live s' = live s ++ [(t_next s, t_now s + t_delay s, false)] /\ t_fired s' = t_fired s
  | OExtend d => t_now s' = t_now s /\ t_delay s' = d /\ live s' = live s /\ t_fired s' = t_fired s
  | OCancel => t_now s' = t_now s /\ t_delay s' = t_delay s /\ t_fired s' = t_fired s /\
      (length (live s') <= length (live s))%nat /\
      (forall h, In h (live s') -> In h (live s) /\ (forall i, t_task s = Some i -> fst (fst h) <> i))
  | OExpire => t_now s' = t_now s /\ t_delay s' = t_delay s /\
      ((s' = s /\ t_task s = None) \/ t_fired s' = t_fired s ++ [t_now s]) /\
      (length (live s') <= length (live s))%nat /\
      (forall h, In h (live s') -> In h (live s) /\ (forall i, t_task s = Some i -> fst (fst h) <> i))
  end.
Proof.
  intros I H. destruct o as [d|i| |d| |]; cbn [tstep] in H; auto.
  - destruct (Z.leb_spec 0 d); [|discriminate]. injection H as <-. auto.
  - injection H as <-. repeat split; auto. rewrite !live_alt. cbn [t_start t_handles]. apply livel_app.
  - injection H as <-. repeat split; auto.
  - unfold t_cancel in H. destruct (t_task s) as [i|]; injection H as <-; [|repeat split; auto; congruence].
    destruct (livel_cancel i (t_handles s)) as (dead & P & Q). rewrite !live_alt. cbn [t_handles t_now t_delay t_fired].
    apply Permutation_length in P. rewrite app_length in P. repeat split; auto; [lia| |].
    + apply Q in H. tauto.
    + intros j Ej. injection Ej as <-. apply Q in H. tauto.
  - unfold t_expire, t_cancel in H. destruct (t_task s) as [i|] eqn:ET; injection H as <-; [|repeat split; auto; congruence].
    destruct (livel_cancel i (t_handles s)) as (dead & P & Q). rewrite !live_alt. cbn [t_callback t_handles t_now t_delay t_fired].
    apply Permutation_length in P. rewrite app_length in P. repeat split; auto; [lia| |].
    + apply Q in H. tauto.
    + intros j Ej. injection Ej as <-. apply Q in H. tauto.
Qed.
Lemma tinv_exec os : forall s s', tinv s -> texec os s = Some s' -> tinv s'.
Proof.
  induction os as [|o os IH]; intros s s' I H; cbn [texec] in H; [injection H as <-; exact I|].
  destruct (tstep o s) as [s1|] eqn:E; [|discriminate]. eapply IH; [|exact H]. eapply tinv_step; eauto.
Qed.
Lemma texec_app a b s : texec (a ++ b) s = match texec a s with Some s1 => texec b s1 | None => None end.
Proof. revert s. induction a as [|o a IH]; intros s; cbn [app texec]; [reflexivity|]. destruct (tstep o s); auto. Qed.

Lemma timer_count os : forall s s', tinv s -> texec os s = Some s' ->
  (length (t_fired s') + length (live s') <= length (t_fired s) + length (live s) + count is_start os + count is_expire os)%nat /\
  (count is_cancel os = 0%nat -> count is_expire os = 0%nat ->
   length (t_fired s') + length (live s') = length (t_fired s) + length (live s) + count is_start os)%nat.
Proof.
  unfold count. induction os as [|o os IH]; intros s s' I H; cbn [texec] in H.
  - injection H as <-. cbn. lia.
  - destruct (tstep o s) as [s1|] eqn:E; [|discriminate].
    destruct (IH s1 s' (tinv_step _ _ _ I E) H) as [A Bq].
    destruct o as [d|i| |d| |]; cbn [filter is_start is_expire is_cancel length] in *.
    + destruct (step_other _ _ _ I E) as (_ & _ & _ & -> & ->) in A, Bq. split; [lia|intros; lia].
    + destruct (step_run _ _ _ I E) as (w & pre & post & L & _ & _ & _ & C).
      assert (length (t_fired s1) + length (live s1) = length (t_fired s) + length (live s))%nat.
      { destruct C as [(_ & Ls & F)|(_ & Ls & F)]; rewrite F, Ls, L, ?app_length; cbn [length]; rewrite ?app_length; cbn [length]; lia. }
      split; [lia|intros; lia].
    + destruct (step_other _ _ _ I E) as (_ & _ & L & F). rewrite L, F in A, Bq. rewrite app_length in A, Bq. cbn [length] in A, Bq. split; [lia|intros; lia].
    + destruct (step_other _ _ _ I E) as (_ & _ & L & F). rewrite L, F in A, Bq. split; [lia|intros; lia].
    + destruct (step_other _ _ _ I E) as (_ & _ & F & L & _). rewrite F in A. split; [lia|intros; lia].
    + destruct (step_other _ _ _ I E) as (_ & _ & F & L & _). split; [|intros; lia].
      destruct F as [[-> _]|F]; [lia|]. rewrite F, app_length in A. cbn [length] in A. lia.
Qed.

Definition armed_by (s : timer) : Prop := (length (live s) <= 1)%nat /\ forall h, In h (live s) -> t_task s = Some (fst (fst h)).
Lemma armed_step o s s' : tinv s -> (o = OStart -> live s = []) -> armed_by s -> tstep o s = Some s' -> armed_by s'.
Proof.
  intros I G [A1 A2] H. destruct o as [d|i| |d| |].
  - destruct (step_other _ _ _ I H) as (_ & _ & _ & L & _). cbn [tstep] in H. destruct (0 <=? d); [|discriminate]. injection H as <-.
    split; [exact A1|exact A2].
  - destruct (step_run _ _ _ I H) as (w & pre & post & L & _ & _ & _ & C).
    rewrite L in A1. rewrite app_length in A1. cbn [length] in A1. destruct pre; [|cbn in A1; lia]. destruct post; [|cbn in A1; lia].
    cbn [app] in *. cbn [tstep] in H. destruct (find _ _) as [[[j w'] [|]]|]; try discriminate. destruct (w' <=? t_now s); [|discriminate]. injection H as <-.
    unfold t_fire in *. cbn [t_delay] in *. destruct (Z.eqb_spec (t_delay s) 0) as [D|D].
    + destruct C as [(_ & Ls & _)|(N & _)]; [|contradiction]. unfold armed_by. rewrite Ls. split; [cbn; lia|intros h []].
    + destruct C as [(N & _)|(_ & Ls & _)]; [contradiction|]. unfold armed_by. rewrite Ls. split; [cbn; lia|]. intros h [<-|[]]. reflexivity.
  - destruct (step_other _ _ _ I H) as (_ & _ & L & _). rewrite (G eq_refl) in L. cbn [tstep] in H. injection H as <-. unfold armed_by. rewrite L.
    split; [cbn; lia|]. intros h [<-|[]]. reflexivity.
  - cbn [tstep] in H. injection H as <-. split; [exact A1|exact A2].
  - destruct (step_other _ _ _ I H) as (_ & _ & _ & L & Q). split; [lia|]. intros h Hh. destruct (Q h Hh) as [Hl Hn].
    exfalso. apply (Hn (fst (fst h))); [apply A2; exact Hl|reflexivity].
  - destruct (step_other _ _ _ I H) as (_ & _ & _ & L & Q). split; [lia|]. intros h Hh. destruct (Q h Hh) as [Hl Hn].
    exfalso. apply (Hn (fst (fst h))); [apply A2; exact Hl|reflexivity].
Qed.
Lemma armed_exec os : forall s s', tinv s -> starts_unarmed os s -> armed_by s -> texec os s = Some s' -> armed_by s'.
Proof.
  induction os as [|o os IH]; intros s s' I G A H; cbn [texec] in H; [injection H as <-; exact A|].
  cbn [starts_unarmed] in G. destruct G as [G1 G2]. destruct (tstep o s) as [s1|] eqn:E; [|discriminate].
  apply (IH s1 s'); auto; [eapply tinv_step; eauto|eapply armed_step; eauto].
Qed.
Lemma cancelled_none s s' : tinv s -> armed_by s -> tstep OCancel s = Some s' -> live s' = [].
Proof.
  intros I [A1 A2] H. destruct (step_other _ _ _ I H) as (_ & _ & _ & L & Q).
  destruct (live s') as [|h r] eqn:E; [reflexivity|]. destruct (Q h (or_introl eq_refl)) as [Hl Hn].
  exfalso. apply (Hn (fst (fst h))); [apply A2; exact Hl|reflexivity].
Qed.
Definition quiet (o : top) : Prop := is_start o = false /\ is_expire o = false.
Lemma unarmed_silent os : forall s s', tinv s -> Forall quiet os -> live s = [] -> texec os s = Some s' -> t_fired s' = t_fired s /\ live s' = [].
Proof.
  induction os as [|o os IH]; intros s s' I Q L H; cbn [texec] in H; [injection H as <-; auto|].
  inversion Q as [|? ? Qo Q']; subst. destruct (tstep o s) as [s1|] eqn:E; [|discriminate].
  assert (X : t_fired s1 = t_fired s /\ live s1 = []).
  { destruct Qo as [Q1 Q2]. destruct o as [d|i| |d| |]; try discriminate.
    - destruct (step_other _ _ _ I E) as (_ & _ & _ & -> & ->). auto.
    - destruct (step_run _ _ _ I E) as (w & pre & post & L' & _). rewrite L in L'. destruct pre; discriminate.
    - destruct (step_other _ _ _ I E) as (_ & _ & -> & ->). auto.
    - destruct (step_other _ _ _ I E) as (_ & _ & F & Ll & _). rewrite L in Ll. split; [exact F|]. destruct (live s1); [reflexivity|cbn in Ll; lia]. }
  destruct X as [X1 X2]. destruct (IH s1 s' (tinv_step _ _ _ I E) Q' X2 H) as [F L']. rewrite F, X1. auto.
Qed.
(** not before [T] *)
Definition not_before (T : Z) (s : timer) : Prop := forall h, In h (live s) -> T <= snd (fst h).
Lemma started_not_early T os : forall s s', tinv s -> Forall quiet os -> Forall (fun o => match o with OExtend d => 0 <= d | _ => True end) os ->
  0 <= t_delay s -> not_before T s -> texec os s = Some s' ->
  exists more, t_fired s' = t_fired s ++ more /\ Forall (fun t => T <= t) more.
Proof.
  induction os as [|o os IH]; intros s s' I Q X D NB H; cbn [texec] in H.
  { injection H as <-. exists []. rewrite app_nil_r. auto. }
  inversion Q as [|? ? Qo Q']; subst. inversion X as [|? ? Xo X']; subst. destruct (tstep o s) as [s1|] eqn:E; [|discriminate].
  pose proof (tinv_step _ _ _ I E) as I1. destruct Qo as [Q1 Q2]. destruct o as [d|i| |d| |]; try discriminate.
  - destruct (step_other _ _ _ I E) as (_ & _ & Ed & L & F). rewrite <- F. apply (IH s1 s'); auto; [lia|]. unfold not_before. rewrite L. exact NB.
  - destruct (step_run _ _ _ I E) as (w & pre & post & L & Hw & _ & D1 & C).
    assert (T <= w) by (apply (NB (i, w, false)); rewrite L; apply in_or_app; right; left; reflexivity).
    destruct C as [(_ & Ls & F)|(_ & Ls & F)].
    + destruct (IH s1 s' I1 Q' X') as (more & Em & Fm); [lia| |exact H|].
      * unfold not_before. rewrite Ls. intros h Hh. apply NB. rewrite L. apply in_app_or in Hh. apply in_or_app. destruct Hh; [left|right; right]; assumption.
      * exists (t_now s :: more). rewrite Em, F, <- app_assoc. split; [reflexivity|]. constructor; [lia|exact Fm].
    + rewrite <- F. apply (IH s1 s'); auto; [lia|]. unfold not_before. rewrite Ls. intros h Hh.
      apply in_app_or in Hh. destruct Hh as [Hh|Hh]; [apply NB; rewrite L; apply in_or_app; left; exact Hh|].
      apply in_app_or in Hh. destruct Hh as [Hh|[<-|[]]]; [apply NB; rewrite L; apply in_or_app; right; right; exact Hh|cbn [fst snd]; lia].
  - destruct (step_other _ _ _ I E) as (_ & Ed & L & F). rewrite <- F. apply (IH s1 s'); auto; [lia|]. unfold not_before. rewrite L. exact NB.
  - destruct (step_other _ _ _ I E) as (_ & Ed & F & _ & Qh). rewrite <- F. apply (IH s1 s'); auto; [lia|].
    intros h Hh. apply NB. apply Qh. exact Hh.
Qed.
Lemma extended_not_early e os : forall s s', tinv s -> e <> 0 -> Forall quiet os -> count is_extend os = 0%nat ->
  t_delay s = e -> (length (live s) <= 1)%nat -> texec os s = Some s' ->
  exists more, t_fired s' = t_fired s ++ more /\ Forall (fun t => t_now s + e <= t) more.
Proof.
  intros s s' I He Q. revert s s' I.
  induction os as [|o os IH]; intros s s' I X D NB H; cbn [texec] in H.
  { injection H as <-. exists []. rewrite app_nil_r. auto. }
  inversion Q as [|? ? Qo Q']; subst. destruct (tstep o s) as [s1|] eqn:E; [|discriminate].
  pose proof (tinv_step _ _ _ I E) as I1. destruct Qo as [Q1 Q2]. unfold count in *. destruct o as [d|i| |d| |]; try discriminate; cbn [filter is_extend] in X.
  - destruct (step_other _ _ _ I E) as (Hd & En & Ed & L & F). rewrite <- F.
    destruct (IH Q' s1 s') as (more & Em & Fm); auto; [rewrite L; exact NB|]. exists more. split; [exact Em|].
    eapply Forall_impl; [|exact Fm]. cbv beta. lia.
  - destruct (step_run _ _ _ I E) as (w & pre & post & L & Hw & En & D1 & C).
    rewrite L, app_length in NB. cbn [length] in NB. destruct pre; [|cbn in NB; lia]. destruct post; [|cbn in NB; lia].
    destruct C as [(N & _)|(_ & Ls & F)]; [contradiction|]. cbn [app] in Ls. rewrite <- F.
    apply (started_not_early (t_now s + t_delay s) os s1 s'); auto.
    + clear -X. induction os as [|o os IHo]; [constructor|]. cbn [filter] in X. destruct o; cbn [is_extend length] in X; try lia; constructor; auto.
    + lia.
    + unfold not_before. rewrite Ls. intros h [<-|[]]. cbn [fst snd]. lia.
  - destruct (step_other _ _ _ I E) as (En & Ed & F & L & _). rewrite <- F, <- En.
    destruct (IH Q' s1 s') as (more & Em & Fm); auto; [lia|]. exists more. split; [exact Em|]. exact Fm.
Qed.
