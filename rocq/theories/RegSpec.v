(** * Specification of packet definition registration *)
From Coq Require Import List ZArith Bool.
From Verif Require Import PyBase AddrModel RegModel.
Import ListNotations.
Open Scope Z_scope.

(** A history of registrations *)
Inductive rop := RReg (i : pystr) (v : version) (c : cls) | RUnreg (i : pystr).

(** What is registered after a history: for each identifier and version the
    class registered last, all versions of an identifier removed by
    unregistering it. *)
Definition rtable := pystr -> version -> option cls.
Definition rt_step (m : rtable) (o : rop) : rtable :=
  match o with
  | RReg i v c => fun j w => if eq_dec j i then (if eq_dec w v then Some c else m j w) else m j w
  | RUnreg i => fun j w => if eq_dec j i then None else m j w
  end.
Definition registered (os : list rop) : rtable := fold_left rt_step os (fun _ _ => None).

(** [w] is at least as recent as [v] *)
Definition version_le (v w : version) : Prop :=
  v_major v < v_major w \/ (v_major v = v_major w /\ v_minor v <= v_minor w).

(** The registry after a history *)
Fixpoint reg_run (os : list rop) (r : registry) : res registry :=
  match os with
  | [] => Ok r
  | o :: os => bind (match o with
                     | RReg i v c => register_definition r i v c
                     | RUnreg i => unregister_definition r i
                     end) (reg_run os)
  end.

(** ** Programs with silo blocks *)
(** [SDefine]: a class statement; [SRaise]: any other statement that raises;
    [SWith name reuse body]: [with PacketDefinitionSilo(name, reuse): body]. *)
Inductive stmt :=
| SDefine (ident vers : option pystr) (silo : bool) (inherited : option pystr) (c : cls)
| SRaise (e : exn)
| SWith (name : option pystr) (reuse : bool) (body : list stmt)
| STry (body : list stmt).

(** Execution; None is an exception.  [with] calls __exit__ in either case and
    lets the exception go on; STry catches it. *)
Fixpoint exec (s : silos) (p : stmt) {struct p} : silos * res unit :=
  let fix exec_list (s : silos) (ps : list stmt) {struct ps} : silos * res unit :=
    match ps with
    | [] => (s, Ok tt)
    | p :: r => match exec s p with
                | (s', Ok _) => exec_list s' r
                | (s', Raise e) => (s', Raise e)
                end
    end in
  match p with
  | SDefine i v b inh c => match define_class s i v b inh c with
                           | (s', Ok _) => (s', Ok tt)
                           | (s', Raise e) => (s', Raise e)
                           end
  | SRaise e => (s, Raise e)
  | SWith name reuse body =>
      match new_silo s name reuse with
      | (s', Raise e) => (s', Raise e)
      | (s', Ok n) =>
          match exec_list (silo_enter s' n) body with
          | (s2, r) => match silo_exit s2 with
                       | Ok s3 => (s3, r)
                       | Raise e => (s2, Raise e)
                       end
          end
      end
  | STry body => (fst (exec_list s body), Ok tt)
  end.
Fixpoint exec_list (s : silos) (ps : list stmt) {struct ps} : silos * res unit :=
  match ps with
  | [] => (s, Ok tt)
  | p :: r => match exec s p with
              | (s', Ok _) => exec_list s' r
              | (s', Raise e) => (s', Raise e)
              end
  end.

(** [untouched m p]: nothing in [p] names the silo [m] explicitly, and class
    statements take the current silo *)
Fixpoint untouched (m : pystr) (p : stmt) : Prop :=
  match p with
  | SDefine _ _ _ inh _ => inh = None \/ inh = Some current_name
  | SRaise _ => True
  | SWith name _ body => name <> Some m /\
      (fix go (ps : list stmt) : Prop := match ps with [] => True | p :: r => untouched m p /\ go r end) body
  | STry body => (fix go (ps : list stmt) : Prop := match ps with [] => True | p :: r => untouched m p /\ go r end) body
  end.
(** names the library invents *)
Definition auto_name (m : pystr) : Prop := exists k, m = unnamed_prefix ++ print_int k.

(** States a program can be in, between statements, inside any nesting of
    silo blocks *)
Inductive silo_reach : silos -> Prop :=
| sr_init : silo_reach silos_init
| sr_stmt s p : silo_reach s -> silo_reach (fst (exec s p))
| sr_enter s name reuse s' n : silo_reach s -> new_silo s name reuse = (s', Ok n) -> silo_reach (silo_enter s' n).
