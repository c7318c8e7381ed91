(** * Specification of the command shell *)
From Coq Require Import List ZArith Bool String.
From Verif Require Import PyBase CliModel.
Import ListNotations.
Open Scope nat_scope.

(** ** Typing words: as shlex.quote writes them *)
Definition typed_char (c : Z) : pystr := if Z.eqb c 39 then [39; 34; 39; 34; 39]%Z else [c].
Definition typed (w : pystr) : pystr := 39%Z :: flat_map typed_char w ++ [39%Z].
(** A word that needs no quotes *)
Definition bare (w : pystr) : Prop := w <> [] /\ forall c, In c w -> (33 <= c <= 126)%Z /\ ~ In c [39; 34; 92]%Z.
Definition written (w t : pystr) : Prop := t = typed w \/ bare w /\ t = w.
Fixpoint spaced (ts : list pystr) : pystr :=
  match ts with [] => [] | [t] => t | t :: r => t ++ 32%Z :: spaced r end.

(** ** Which callback a command line is for *)
(** a without the first of the prefixes it starts with *)
Definition stripped (keys : list pystr) (a b : pystr) : Prop :=
  (exists k1 k k2, keys = k1 ++ k :: k2 /\ a = k ++ b /\ forall k' r, In k' k1 -> a <> k' ++ r) \/
  (b = a /\ forall k r, In k keys -> a <> k ++ r).

(** [invokes c args b h a u]: command c with these words runs callback b with
    the words a, after the handler h; and u is the line by which help shows it *)
Inductive invokes : cmd -> list pystr -> cbk -> option nat -> list pystr -> pystr -> Prop :=
| InvSingleton txt help b dh std subs keys args a :
    Forall2 (stripped keys) args a ->
    invokes (Cmd txt help Singleton (Some b) dh std subs keys) args b dh a (txt ++ lit "/*")
| InvDefault txt help m b dh std subs keys :
    m <> Singleton -> invokes (Cmd txt help m (Some b) dh std subs keys) [] b dh [] (txt ++ lit "/0")
| InvStandard txt help dcb dh std subs keys args p a :
    args <> [] -> In (Z.of_nat (List.length args), p) std -> Forall2 (stripped keys) args a ->
    invokes (Cmd txt help Standard dcb dh std subs keys) args (p_cb p) (p_handler p) a
      (match p_usage p with Some (c :: u) => txt ++ lit " " ++ c :: u | _ => txt ++ lit "/" ++ print_int (Z.of_nat (List.length args)) end)
| InvSub txt help dcb dh std subs keys w sub args b h a u :
    In (w, sub) subs -> invokes sub args b h a u ->
    invokes (Cmd txt help Subcmd dcb dh std subs keys) (w :: args) b h a (txt ++ lit " " ++ u).

(** Commands as the constructor and the configure methods make them *)
Inductive built : cmd -> Prop :=
| BuiltNew txt help dcb dh m c : cmd_new txt help dcb dh m = Ok c -> built c
| BuiltSub c sub c' : built c -> built sub -> configure_sub c sub = Ok c' -> built c'
| BuiltArgs c n p c' : built c -> configure c n p = Ok c' -> built c'.

(** The callbacks of users that were called *)
Definition calls (g : log) : list (nat * list pystr) :=
  flat_map (fun e => match e with ECall n a => [(n, a)] | _ => [] end) g.
Definition handler_calls (g : log) : list (nat * list pystr) :=
  flat_map (fun e => match e with EArgs n a => [(n, a)] | _ => [] end) g.

(** Messages *)
Definition told (e : ev) : Prop := match e with EWrite _ | ETrace => True | _ => False end.

(** ** Completion: the i-th of the names that begin with s *)
Definition extends (s k : pystr) : Prop := exists r, k = s ++ r.
(** l is the sublist of ks of those with P, in their order *)
Inductive selection {A} (P : A -> Prop) : list A -> list A -> Prop :=
| SelNil : selection P [] []
| SelYes x ks l : P x -> selection P ks l -> selection P (x :: ks) (x :: l)
| SelNo x ks l : ~ P x -> selection P ks l -> selection P (x :: ks) l.

(** ** Batches *)
(** A line whose command succeeds and returns something to wait for, that succeeds *)
Definition line_good env_args env_cb env_file env_await fmt sh (l : pystr) : Prop :=
  forall g, exists g1 d i, line_received env_args env_cb env_file fmt sh l g = (g1, (true, d)) /\ (d = RFut i \/ d = RCoro i) /\ env_await g1 i = FDone.

(** ** The input thread *)
(** lines typed, lines processed *)
Definition typed_lines (es : list io) : list pystr := flat_map (fun e => match e with IoLine l => [l] | _ => [] end) es.
Definition run_lines (g : list iolog) : list pystr := flat_map (fun x => match x with GLine l => [l] | _ => [] end) g.
(** An answer that is true but is no future *)
Definition hangs (d : ret) : bool := match d with RCoro _ | ROther true => true | _ => false end.
(** how often connection_lost is called *)
Fixpoint lost_count (g : list iolog) : nat := match g with [] => 0 | GLost :: r => S (lost_count r) | _ :: r => lost_count r end.
(** what the loop and the thread do by themselves *)
Definition loop_event (e : io) : Prop := match e with IoRun _ _ | IoFut _ | IoWake => True | _ => False end.
