(** * C04-C05: HierarchicalDictionary.py *)
From Coq Require Import String.
From Coq Require Import List ZArith Bool.
From Verif Require Import PyBase HDModel HDSpec HDProofs.
Import ListNotations.
Open Scope Z_scope.

(** C04. With the default (dotted) key handler, after any history, lookup of any
    key gives exactly the flat mapping's value, else KeyError. *)
Theorem C04_hierdict_is_flat_map :
  forall (V : Type) (os : list (hop pystr V)) (k : pystr),
  hd_get dot_split k (hd_run dot_split os hd_empty) =
  match flat_run os flat_empty k with Some v => Ok v | None => Raise KeyError end.
Proof. intros. exact (get_flat dot_split dot_join dot_JS dot_SN os k). Qed.
Print Assumptions C04_hierdict_is_flat_map.

(** C04. Assignment always succeeds; deletion succeeds exactly on present keys
    and raises KeyError otherwise (the dictionary is then unchanged: the model
    returns no new state, see hd_delete). *)
Theorem C04_hierdict_outcomes :
  forall (V : Type) (os : list (hop pystr V)) (k : pystr) (v : V),
  let d := hd_run dot_split os hd_empty in
  (exists d', hd_set dot_split k v d = Ok d') /\
  (flat_run os flat_empty k <> None -> exists d', hd_del dot_split k d = Ok d') /\
  (flat_run os flat_empty k = None -> hd_del dot_split k d = Raise KeyError).
Proof. intros. exact (outcomes dot_split dot_join dot_JS dot_SN os k v). Qed.
Print Assumptions C04_hierdict_outcomes.

(** C05. Iteration yields exactly the keys present, each once, in the original
    spelling, and len is their number. *)
Theorem C05_hierdict_iteration :
  forall (V : Type) (os : list (hop pystr V)),
  let d := hd_run dot_split os hd_empty in
  NoDup (hd_keys dot_join d) /\
  (forall k, In k (hd_keys dot_join d) <-> exists v, hd_get dot_split k d = Ok v) /\
  hd_len d = length (hd_keys dot_join d).
Proof. intros. exact (keys_spec dot_split dot_join dot_JS dot_SN dot_J1 os). Qed.
Print Assumptions C05_hierdict_iteration.

(** C04, C05 for any other key handler that honours the documented contract
    join(split(key)) = key, never splits into nothing, and joins a single part
    to itself. *)
Theorem C04_C05_hierdict_any_handler :
  forall (K V : Type) (E : EqDec K) (split : K -> list K) (join : list K -> K),
  (forall k, join (split k) = k) -> (forall k, split k <> []) -> (forall p, join [p] = p) ->
  forall os : list (hop K V),
  let d := hd_run split os hd_empty in
  (forall k, hd_get split k d = match flat_run os flat_empty k with Some v => Ok v | None => Raise KeyError end) /\
  NoDup (hd_keys join d) /\
  (forall k, In k (hd_keys join d) <-> exists v, hd_get split k d = Ok v) /\
  hd_len d = length (hd_keys join d).
Proof.
  intros K V E split join JS SN J1 os d. split.
  - intros k. exact (get_flat split join JS SN os k).
  - exact (keys_spec split join JS SN J1 os).
Qed.
Print Assumptions C04_C05_hierdict_any_handler.

(** The third contract clause is needed: with a handler that marks its parts,
    join(split(key)) = key alone does not make iteration yield the stored keys. *)
Theorem C05_hierdict_contract_alone_refuted :
  exists (split : pystr -> list pystr) (join : list pystr -> pystr),
  (forall k, join (split k) = k) /\ (forall k, split k <> []) /\
  exists k : pystr, ~ In k (hd_keys join (hd_run split [HSet k 1] hd_empty)).
Proof.
  exists (fun k => [0 :: k]), (fun ps => match ps with (_ :: k) :: _ => k | _ => [] end).
  split; [reflexivity|]. split; [discriminate|]. exists [7]. vm_compute. intros [C|C]; [discriminate|contradiction].
Qed.
Print Assumptions C05_hierdict_contract_alone_refuted.

Example hd_example :
  let s := lit in
  let d := hd_run dot_split [HSet (s "a") 1; HSet (s "a.x") 2; HSet (s "a.x.k") 3; HSet (s "b..c") 4;
                             HDel (s "a.x"); HDel (s "zz"); HSet (s "a") 5]%string hd_empty in
  hd_get dot_split (s "a"%string) d = Ok 5 /\ hd_get dot_split (s "a.x"%string) d = Raise KeyError /\
  hd_get dot_split (s "a.x.k"%string) d = Ok 3 /\ hd_len d = 3%nat /\
  hd_keys dot_join d = [s "a"; s "a.x.k"; s "b..c"]%string.
Proof. vm_compute. repeat split. Qed.
