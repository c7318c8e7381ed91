(** * Specification of the connector service: which connector is current, told
    from the history of calls alone. *)
From Coq Require Import List ZArith Bool String.
From Verif Require Import PyBase ConnSvcModel.
Import ListNotations.
Open Scope nat_scope.

(** A module that only sets connectors, and possibly fails on the way *)
Definition plain_action (a : action) : Prop := match a with ASet _ _ | ARaise => True | _ => False end.
Definition plain (d : listing) : Prop := forall m l a, In (m, Some l) d -> In a l -> plain_action a.

(** The connector a plain body sets under n: the last before it ends or fails *)
Fixpoint set_by (n : pystr) (l : script) : option conn :=
  match l with
  | ASet m c :: r => match set_by n r with Some c' => Some c' | None => if eq_dec m n then Some c else None end
  | _ => None
  end.
(** ... and the directory: the last module in listing order that sets it *)
Fixpoint provided (n : pystr) (d : listing) : option conn :=
  match d with
  | [] => None
  | (_, o) :: r =>
      match provided n r with
      | Some c => Some c
      | None => match o with Some l => set_by n l | None => None end
      end
  end.

(** The modules of a directory, in its order *)
Definition packages (d : listing) : list modname :=
  flat_map (fun e => match snd e with Some _ => [fst e] | None => [] end) d.

(** What has happened, the latest first: a connector was set by a user; the
    modules of a directory were loaded; a load failed for want of a directory *)
Inductive event := EvSet (n : pystr) (c : conn) | EvLoad (d : listing) | EvNoDir.

(** The connector the user has set under n; the built-in default is there first *)
Fixpoint chosen (n : pystr) (h : list event) : option conn :=
  match h with
  | [] => if eq_dec n (lit "default") then Some 0 else None
  | EvSet m c :: r => if eq_dec m n then Some c else chosen n r
  | _ :: r => chosen n r
  end.
(** The connector in force under n: set since the last load, or by the last
    load, or by the user before it *)
Fixpoint in_force (n : pystr) (h : list event) : option conn :=
  match h with
  | [] => chosen n []
  | EvSet m c :: r => if eq_dec m n then Some c else in_force n r
  | EvLoad d :: r => match provided n d with Some c => Some c | None => chosen n r end
  | EvNoDir :: r => chosen n r
  end.
Definition was_loaded (h : list event) : bool := existsb (fun e => match e with EvLoad _ => true | _ => false end) h.

(** The bodies run, in order: those of each directory loaded, once *)
Fixpoint bodies (h : list event) : list modname :=
  match h with
  | [] => []
  | EvLoad d :: r => bodies r ++ packages d
  | _ :: r => bodies r
  end.

(** What a call should do, the history before it given: its answer and the history after *)
Definition load_if (b : bool) (dir : option listing) (h : list event) : bool * list event :=
  if b then match dir with Some d => (true, EvLoad d :: h) | None => (false, EvNoDir :: h) end
  else (true, h).
Definition expected (dir : option listing) (k : call) (h : list event) : answer * list event :=
  match k with
  | CSet n c => (RDone, EvSet n c :: h)
  | CGet n => let (ok, h1) := load_if (negb (was_loaded h)) dir h in
              (if ok then match in_force n h1 with Some c => RFound c | None => RNoSuch end else RNoDir, h1)
  | CReload f => let (ok, h1) := load_if (f || negb (was_loaded h)) dir h in
                 (if ok then RDone else RNoDir, h1)
  end.
Fixpoint expected_all (ks : list (option listing * call)) (h : list event) : list answer * list event :=
  match ks with
  | [] => ([], h)
  | (d, k) :: r => let (a, h1) := expected d k h in let (l, h2) := expected_all r h1 in (a :: l, h2)
  end.

Definition plain_dir (d : option listing) : Prop := match d with Some l => plain l | None => True end.

(** For modules that do anything but end the program *)
Definition no_exit (d : option listing) : Prop :=
  forall l m b, d = Some l -> In (m, Some b) l -> ~ In AExit b.
Definition sets (d : option listing) (n : pystr) : Prop :=
  exists l m b c, d = Some l /\ In (m, Some b) l /\ In (ASet n c) b.

(** host splits at a "://" into f and h *)
Definition splits (s f h : pystr) : Prop := s = f ++ lit "://" ++ h.
