(** * Model of common/datastructures/HierarchicalDictionary.py *)
From Coq Require Import List ZArith Bool.
From Verif Require Import PyBase.
Import ListNotations.

Section HD.
  (** [K] is the type of keys and of key parts (str in the default handler). *)
  Context {K V : Type} `{EqDec K}.
  (** HierarchicalDictionary.py:3-16: a key handler *)
  Variable split : K -> list K.
  Variable join : list K -> K.

  (** HierarchicalDictionary.py:35-40: [_terminals] and [_subDicts] *)
  Inductive hd : Type := HD (terminals : dict K V) (subDicts : list (K * hd)).
  Definition hd_terms (d : hd) : dict K V := let (t, _) := d in t.
  Definition hd_subs (d : hd) : dict K hd := let (_, s) := d in s.
  Definition hd_empty : hd := HD [] [].

  (** lookupByKeyParts, lines 42-50 *)
  Fixpoint hd_lookup (ks : list K) (d : hd) : res V :=
    match ks with
    | [] => Raise KeyError
    | k :: r =>
        match r with
        | [] => dget_e (hd_terms d) k
        | _ :: _ => match dget (hd_subs d) k with
                    | None => Raise KeyError
                    | Some s => hd_lookup r s
                    end
        end
    end.

  (** storeByKeyParts, lines 52-60 *)
  Fixpoint hd_store (ks : list K) (v : V) (d : hd) : res hd :=
    match ks with
    | [] => Raise KeyError
    | k :: r =>
        match r with
        | [] => Ok (HD (dset (hd_terms d) k v) (hd_subs d))
        | _ :: _ =>
            let sub := match dget (hd_subs d) k with Some s => s | None => hd_empty end in
            match hd_store r v sub with
            | Ok s' => Ok (HD (hd_terms d) (dset (hd_subs d) k s'))
            | Raise e => Raise e
            end
        end
    end.

  (** __len__, lines 98-102 *)
  Fixpoint hd_len (d : hd) : nat :=
    match d with
    | HD t s => (length t + (fix go (s : list (K * hd)) : nat :=
                               match s with [] => 0 | (_, c) :: r => hd_len c + go r end) s)%nat
    end.

  (** deleteByKeyParts, lines 62-70.  Nothing is modified before an exception
      can be raised, so on [Raise] the dictionary is unchanged. *)
  Fixpoint hd_delete (ks : list K) (d : hd) : res hd :=
    match ks with
    | [] => Raise KeyError
    | k :: r =>
        match r with
        | [] => match ddel_e (hd_terms d) k with
                | Ok t => Ok (HD t (hd_subs d))
                | Raise e => Raise e
                end
        | _ :: _ =>
            match dget (hd_subs d) k with
            | None => Raise KeyError
            | Some s =>
                match hd_delete r s with
                | Raise e => Raise e
                | Ok s' =>
                    if Nat.eqb (hd_len s') 0
                    then Ok (HD (hd_terms d) (ddel (hd_subs d) k))
                    else Ok (HD (hd_terms d) (dset (hd_subs d) k s'))
                end
            end
        end
    end.

  (** iterKeys, lines 72-84.  [parentKeys] None and [] are both falsy. *)
  Fixpoint hd_iter (parent : list K) (d : hd) : list K :=
    match d with
    | HD t s =>
        map (fun key => match parent with [] => key | _ => join (parent ++ [key]) end) (dkeys t)
        ++ (fix go (s : list (K * hd)) : list K :=
              match s with [] => [] | (k, c) :: r => hd_iter (parent ++ [k]) c ++ go r end) s
    end.

  (** __getitem__/__setitem__/__delitem__/__iter__, lines 86-105 *)
  Definition hd_get (k : K) (d : hd) : res V := hd_lookup (split k) d.
  Definition hd_set (k : K) (v : V) (d : hd) : res hd := hd_store (split k) v d.
  Definition hd_del (k : K) (d : hd) : res hd := hd_delete (split k) d.
  Definition hd_keys (d : hd) : list K := hd_iter [] d.

  (** A client history; a client that catches the exception goes on with the
      unchanged dictionary. *)
  Inductive hop := HSet (k : K) (v : V) | HDel (k : K).
  Definition hd_step (o : hop) (d : hd) : hd :=
    match (match o with HSet k v => hd_set k v d | HDel k => hd_del k d end) with
    | Ok d' => d' | Raise _ => d
    end.
  Fixpoint hd_run (os : list hop) (d : hd) : hd :=
    match os with [] => d | o :: r => hd_run r (hd_step o d) end.
End HD.
Arguments hd : clear implicits.
Arguments hop : clear implicits.

(** DEFAULT_KEY_HANDLER, lines 29-33 *)
Definition dot_split (k : pystr) : list pystr := split_on ch_dot k.
Definition dot_join (ps : list pystr) : pystr := join_on ch_dot ps.
