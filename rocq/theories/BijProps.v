(** * C01-C03: Bijection.py *)
From Coq Require Import List ZArith Bool.
From Verif Require Import PyBase BijModel BijSpec BijProofs.
Import ListNotations.
Open Scope Z_scope.

(** C01. For every history of assignments and deletions through any view, the
    two directions are exact inverses, have the same length, and no key and no
    value is stored twice. *)
Theorem C01_bijection_inverse :
  forall (U : Type) (E : EqDec U) (os : list (bop U)),
  let h := bij_run os bij_empty in
  (forall k v, bij_get VSelf k h = Ok v <-> bij_get VInv v h = Ok k) /\
  bij_len VSelf h = bij_len VInv h /\
  (exists pairs : list (U * U),
     NoDup (map fst pairs) /\ NoDup (map snd pairs) /\
     (forall k v, In (k, v) pairs <-> bij_get VSelf k h = Ok v) /\
     length pairs = bij_len VSelf h).
Proof. exact @bij_inverse_always. Qed.
Print Assumptions C01_bijection_inverse.

(** C02. Reading the bijection after any history gives exactly the relation
    obtained by applying the abstract two-way-map operations of BijSpec: an
    assignment adds the pair and drops exactly the pairs sharing its key or its
    value, a deletion drops exactly one key; nothing else changes. *)
Theorem C02_bijection_refines_relation :
  forall (U : Type) (E : EqDec U) (os : list (bop U)) (k v : U),
  bij_get VSelf k (bij_run os bij_empty) = Ok v <-> r_run os r_empty k v.
Proof. intros. exact (models_unflip _ _ VSelf k v (reach_models os)). Qed.
Print Assumptions C02_bijection_refines_relation.

(** C02. Outcomes: assignment on a writable view never raises; deletion raises
    KeyError exactly on an absent key, and then changes nothing. *)
Theorem C02_bijection_outcomes :
  forall (U : Type) (E : EqDec U) (os : list (bop U)) (k x : U),
  let h := bij_run os bij_empty in
  snd (bij_set VSelf k x h) = Done /\
  ((exists y, bij_get VSelf k h = Ok y) -> snd (bij_del VSelf k h) = Done) /\
  (~ (exists y, bij_get VSelf k h = Ok y) -> bij_del VSelf k h = (h, Threw KeyError)).
Proof.
  intros U E os k x h. split; [exact (set_outcome os VSelf k x)|].
  destruct (del_outcome os VSelf k) as (_ & A & B). split; [exact (A eq_refl)|exact (B eq_refl)].
Qed.
Print Assumptions C02_bijection_outcomes.

(** C03. What each of the four views reads after any history. *)
Theorem C03_bijection_views_read :
  forall (U : Type) (E : EqDec U) (os : list (bop U)) (v : vid) (k x : U),
  bij_get v k (bij_run os bij_empty) = Ok x <->
  (if flipped v then r_run os r_empty x k else r_run os r_empty k x).
Proof. intros. exact (models_unflip _ _ v k x (reach_models os)). Qed.
Print Assumptions C03_bijection_views_read.

(** C03. inverse() always reads the pairs reversed, so inverse().inverse()
    reads the original pairs; inverseMutable() exists exactly on writable views. *)
Theorem C03_bijection_inverse_view :
  forall (U : Type) (E : EqDec U) (os : list (bop U)) (v : vid) (k x : U),
  let h := bij_run os bij_empty in
  (bij_get (bij_inverse v) x h = Ok k <-> bij_get v k h = Ok x) /\
  bij_get (bij_inverse (bij_inverse v)) k h = bij_get v k h /\
  writable (bij_inverse v) = false /\
  match bij_inverseMutable v with
  | Ok w => writable v = true /\ writable w = true /\
            (bij_get w x h = Ok k <-> bij_get v k h = Ok x) /\ bij_inverseMutable w = Ok v
  | Raise e => writable v = false /\ e = TypeError
  end.
Proof.
  intros U E os v k x h. pose proof (fun v k x => models_unflip _ _ v k x (reach_models os)) as M.
  fold h in M. destruct v; cbn [bij_inverse bij_inverseMutable views vw_inverse vw_invmut vw_imm writable];
    rewrite ?M; cbn [flipped]; repeat split; auto; try tauto.
Qed.
Print Assumptions C03_bijection_inverse_view.

(** C03. Immutable views refuse every write and leave everything unchanged. *)
Theorem C03_bijection_immutable_views :
  forall (U : Type) (E : EqDec U) (h : heap U) (v : vid) (k x : U),
  writable v = false ->
  bij_set v k x h = (h, Threw TypeError) /\ bij_del v k h = (h, Threw TypeError).
Proof. intros U E h [] k x W; try discriminate; split; reflexivity. Qed.
Print Assumptions C03_bijection_immutable_views.

(** Non-vacuity: the docstring's example. *)
Example bij_example :
  let h := bij_run [BSet VSelf 1 10; BSet VSelf 2 20; BSet VSelf 3 20; BSet VInvMut 10 4; BDel VSelf 9] bij_empty in
  bij_get VSelf 3 h = Ok 20 /\ bij_get VInv 20 h = Ok 3 /\ bij_get VSelf 2 h = Raise KeyError /\
  bij_get VSelf 4 h = Ok 10 /\ bij_get VSelf 1 h = Raise KeyError /\ bij_len VSelf h = 2%nat.
Proof. vm_compute. repeat split. Qed.
