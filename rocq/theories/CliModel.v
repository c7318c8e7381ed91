(** * Model of the command shell, common/io/ui/CLIShell.py (SH): completion
    (SH 157-169, 329-343), CLICommand (SH 180-327), CLIShell (SH 487-608) and the
    input thread (SH 61-129), with shlex.split as CPython has it.
    LineReceiver (SH 346-485) is LineModel.

    What a user's callbacks, argument handlers and futures do is a parameter,
    a function of everything that has happened before; so are the files. They
    do not call the shell themselves or change commands once registered.
    Not modelled: readline, the terminal, textwrap (a parameter). *)
From Coq Require Import List ZArith Bool String.
From Verif Require Import PyBase.
Import ListNotations.
Open Scope nat_scope.

(** ** str *)
Fixpoint has_prefix (p s : pystr) : bool :=
  match p, s with
  | [], _ => true
  | x :: p', y :: s' => Z.eqb x y && has_prefix p' s'
  | _, [] => false
  end.
(** str.isspace, all of Unicode *)
Definition uspace (c : Z) : bool :=
  is_space c || Z.eqb c 5760 || (Z.leb 8192 c && Z.leb c 8202) || Z.eqb c 8232 || Z.eqb c 8233 || Z.eqb c 8239 || Z.eqb c 8287 || Z.eqb c 12288.
Fixpoint ulstrip (s : pystr) : pystr := match s with [] => [] | c :: r => if uspace c then ulstrip r else s end.
Definition ustrip (s : pystr) : pystr := rev (ulstrip (rev (ulstrip s))).
Fixpoint join (sep : pystr) (l : list pystr) : pystr :=
  match l with [] => [] | [x] => x | x :: r => x ++ sep ++ join sep r end.

(** ** shlex.split(s): POSIX mode, split at whitespace, no comments.
    States of shlex.read_token; [tok] is the token so far, reversed. *)
Definition q1 : Z := 39.   (* single quote *)
Definition q2 : Z := 34.   (* double quote *)
Definition bs : Z := 92.   (* backslash *)
Definition lex_space (c : Z) : bool := Z.eqb c 32 || Z.eqb c 9 || Z.eqb c 13 || Z.eqb c 10.
Definition lex_quote (c : Z) : bool := Z.eqb c q1 || Z.eqb c q2.
Inductive lex := LSpace | LWord | LQuote (q : Z) | LEsc (back : option Z).

Definition rcons (x : pystr) (r : res (list pystr)) : res (list pystr) := match r with Ok l => Ok (x :: l) | Raise e => Raise e end.

Fixpoint shlex (s : pystr) (st : lex) (tok : pystr) (quoted : bool) : res (list pystr) :=
  match s with
  | [] => match st with
          | LSpace => Ok []
          | LWord => Ok (match tok with [] => if quoted then [[]] else [] | _ => [rev tok] end)
          | LQuote _ | LEsc _ => Raise ValueError              (* no closing quotation, no escaped character *)
          end
  | x :: r =>
      match st with
      | LSpace => if lex_space x then shlex r LSpace [] false
                  else if Z.eqb x bs then shlex r (LEsc None) [] false
                  else if lex_quote x then shlex r (LQuote x) [] false
                  else shlex r LWord [x] false
      | LWord => if lex_space x then
                   match tok with
                   | [] => if quoted then rcons [] (shlex r LSpace [] false) else shlex r LSpace [] false
                   | _ => rcons (rev tok) (shlex r LSpace [] false)
                   end
                 else if lex_quote x then shlex r (LQuote x) tok quoted
                 else if Z.eqb x bs then shlex r (LEsc None) tok quoted
                 else shlex r LWord (x :: tok) quoted
      | LQuote q => if Z.eqb x q then shlex r LWord tok true
                    else if Z.eqb x bs && Z.eqb q q2 then shlex r (LEsc (Some q)) tok true
                    else shlex r (LQuote q) (x :: tok) true
      | LEsc None => shlex r LWord (x :: tok) quoted
      | LEsc (Some q) => shlex r (LQuote q) (if Z.eqb x bs || Z.eqb x q then x :: tok else x :: bs :: tok) quoted
      end
  end.
Definition shlex_split (s : pystr) : res (list pystr) := shlex s LSpace [] false.

(** ** Commands *)
Inductive mode := Singleton | Standard | Subcmd.
(** A user's callback, or one of the shell's own: help, help for a command, batch, quit *)
Inductive cbk := CbUser (n : nat) | CbHelpAll | CbHelp (k : pystr) | CbBatch | CbQuit.
(** SH 180-185; no handler is the identity *)
Record pod := Pod { p_cb : cbk; p_handler : option nat; p_help : pystr; p_usage : option pystr }.
Inductive cmd := Cmd (txt help : pystr) (m : mode) (dcb : option cbk) (dh : option nat) (std : list (Z * pod)) (subs : list (pystr * cmd)) (keys : list pystr).

Definition c_txt (c : cmd) := let (t, _, _, _, _, _, _, _) := c in t.
Definition c_subs (c : cmd) := let (_, _, _, _, _, _, s, _) := c in s.

(** SH 192-205 *)
Definition cmd_new (txt help : pystr) (dcb : option cbk) (dh : option nat) (m : mode) : res cmd :=
  match m, dcb with
  | Singleton, None => Raise GenericException
  | _, _ => Ok (Cmd txt help m dcb dh [] [] [lit "f://"])
  end.
(** SH 250-255 *)
Definition configure_sub (c sub : cmd) : res cmd :=
  let (txt, help, m, dcb, dh, std, subs, keys) := c in
  match m with
  | Subcmd => if dhas subs (c_txt sub) then Raise GenericException
              else Ok (Cmd txt help m dcb dh std (dset subs (c_txt sub) sub) keys)
  | _ => Raise GenericException
  end.
(** SH 257-271 *)
Definition configure (c : cmd) (n : Z) (p : pod) : res cmd :=
  let (txt, help, m, dcb, dh, std, subs, keys) := c in
  match m with
  | Standard => if dhas std n then Raise GenericException
                else if Z.ltb n 1 then Raise GenericException
                else Ok (Cmd txt help m dcb dh (dset std n p) subs keys)
  | _ => Raise GenericException
  end.

(** [if argPod.usage] *)
Definition truthy (o : option pystr) : option pystr := match o with Some (x :: r) => Some (x :: r) | _ => None end.
Definition default_mark (m : mode) : pystr := match m with Singleton => lit "/*" | _ => lit "/0" end.
Definition pod_line (txt : pystr) (np : Z * pod) : pystr :=
  match truthy (p_usage (snd np)) with
  | Some u => txt ++ lit " " ++ u
  | None => txt ++ lit "/" ++ print_int (fst np)
  end.
(** usageHelp, SH 207-223 *)
Fixpoint usage_help (c : cmd) : list pystr :=
  match c with
  | Cmd txt _ m dcb _ std subs _ =>
      (match dcb with Some _ => [txt ++ default_mark m] | None => [] end) ++
      (match m with
       | Singleton => []
       | Standard => map (pod_line txt) std
       | Subcmd => flat_map (fun p => map (fun u => txt ++ lit " " ++ u) (usage_help (snd p))) subs
       end)
  end.
Definition nl : pystr := [10%Z].
(** help, SH 225-242 *)
Fixpoint help_lines (fmt : pystr -> pystr) (c : cmd) : list pystr :=
  match c with
  | Cmd txt help m dcb _ std subs _ =>
      (match dcb with Some _ => [txt ++ default_mark m ++ nl ++ lit "  " ++ help] | None => [] end) ++
      (match m with
       | Singleton => []
       | Standard => map (fun np => pod_line txt np ++ nl ++ lit "  " ++ fmt (p_help (snd np))) std
       | Subcmd => flat_map (fun p => map (fun u => txt ++ lit " " ++ u) (help_lines fmt (snd p))) subs
       end)
  end.

(** stripCompleterKeys, SH 244-248 *)
Fixpoint strip_keys (keys : list pystr) (a : pystr) : pystr :=
  match keys with
  | [] => a
  | k :: r => if has_prefix k a then skipn (List.length k) a else strip_keys r a
  end.

(** ** What happens *)
Inductive ev :=
| EWrite (s : pystr)                      (* written to the transport *)
| ETrace                                  (* a traceback printed on stdout *)
| EArgs (n : nat) (args : list pystr)     (* a user's argument handler is called *)
| ECall (n : nat) (args : list pystr)     (* a user's callback is called *)
| EQuit.                                  (* transport.lose_connection() *)
Definition log := list ev.

(** What a command returns: None, a future, a coroutine object, the task of a
    batch, any other object and whether it is true *)
Inductive ret := RNone | RFut (i : nat) | RCoro (i : nat) | RBatch (lines : list pystr) | ROther (true_ : bool).
Inductive hres := HRaise | HNone | HArgs (a : list pystr).
Inductive cres := CRaise | CRet (d : ret).
Inductive fres := FMissing | FError | FLines (l : list pystr).
Inductive fdone := FDone | FFailed (msg : pystr) | FNever.

Record shell := Shell {
  s_cmds : dict pystr (option cmd);   (* __commands; None is __helpCmdHandler itself *)
  s_help : dict pystr cmd             (* the sub commands of __helpCmdHandler *)
}.

Section Env.
  Variable env_args : log -> nat -> list pystr -> hres.
  Variable env_cb : log -> nat -> list pystr -> cres.
  Variable env_file : log -> pystr -> fres.       (* os.path.exists, open and readlines of the batch file *)
  Variable env_await : log -> nat -> fdone.       (* how a future or coroutine ends *)
  Variable fmt : pystr -> pystr.                  (* formatText, SH 172-173 *)
  Variable sh : shell.

  (** SH 495-496 *)
  Definition help_cmd : cmd :=
    Cmd (lit "help") (lit "Get information on commands") Subcmd (Some CbHelpAll) None [] (s_help sh) [lit "f://"].
  Definition entry (e : option cmd) : cmd := match e with Some c => c | None => help_cmd end.
  Definition find (w : pystr) : option cmd := match dget (s_cmds sh) w with Some e => Some (entry e) | None => None end.

  (** help with no command, SH 524-529 *)
  Definition help_all : log :=
    flat_map (fun ke => match snd ke with
                        | None => [EWrite (lit "  help [cmd]" ++ nl)]
                        | Some c => map (fun u => EWrite (lit "  " ++ u ++ nl)) (usage_help c)
                        end) (s_cmds sh).
  (** help with a command, SH 517-523 *)
  Definition help_one (k : pystr) : log :=
    match find k with
    | None => [EWrite (lit "No such command " ++ k ++ nl)]
    | Some c => [EWrite (join (nl ++ nl) (help_lines fmt c)); EWrite nl]
    end.

  Definition run_handler (h : option nat) (args : list pystr) (g : log) : log * hres :=
    match h with None => (g, HArgs args) | Some n => (g ++ [EArgs n args], env_args g n args) end.

  (** The callback; __batch is SH 547-554, quit SH 556-557 *)
  Definition run_cb (b : cbk) (args : list pystr) (g : log) : log * cres :=
    match b with
    | CbUser n => (g ++ [ECall n args], env_cb g n args)
    | CbHelpAll => (g ++ help_all, CRet RNone)
    | CbHelp k => (g ++ help_one k, CRet RNone)
    | CbQuit => (g ++ [EQuit], CRet RNone)
    | CbBatch =>
        match args with
        | [f] => match env_file g f with
                 | FMissing => (g ++ [EWrite (lit "No such file " ++ f ++ nl)], CRet RNone)
                 | FError => (g, CRaise)
                 | FLines l => (g, CRet (RBatch l))
                 end
        | _ => (g, CRaise)
        end
    end.

  Definition answer := (bool * ret)%type.
  (** SH 276-284, 289-296, 314-324 with the except of 325-327 *)
  Definition perform (b : cbk) (h : option nat) (args : list pystr) (failed : pystr) (g : log) : log * answer :=
    match run_handler h args g with
    | (g1, HRaise) => (g1 ++ [ETrace], (false, RNone))
    | (g1, HNone) => (g1 ++ [EWrite (failed ++ nl)], (false, RNone))
    | (g1, HArgs a) => match run_cb b a g1 with
                       | (g2, CRaise) => (g2 ++ [ETrace], (false, RNone))
                       | (g2, CRet d) => (g2, (true, d))
                       end
    end.
  Definition say (s : string) : ev := EWrite (lit s ++ nl).

  (** process, SH 273-327 *)
  Fixpoint process (args : list pystr) (c : cmd) (g : log) : log * answer :=
    match c with
    | Cmd txt help m dcb dh std subs keys =>
        match m with
        | Singleton =>
            match dcb with
            | Some b => perform b dh (map (strip_keys keys) args) (lit "Command failed.") g
            | None => (g ++ [ETrace], (false, RNone))   (* not constructible; the call of None, after the handler *)
            end
        | _ =>
            match args, dcb with
            | [], Some b => perform b dh [] (lit "Command failed.") g
            | [], None =>
                let g1 := g ++ [say "Command requires arguments"] in
                match m with
                | Subcmd => (g1 ++ [ETrace], (false, RNone))        (* args[0] *)
                | _ => match dget std 0%Z with
                       | None => (g1 ++ [say "Wrong number of arguments"], (false, RNone))
                       | Some p => perform (p_cb p) (p_handler p) [] (lit "Command failed") g1
                       end
                end
            | w :: rest, _ =>
                match m with
                | Subcmd => match dget subs w with
                            | None => (g ++ [EWrite (lit "No such command " ++ w ++ nl)], (false, RNone))
                            | Some sub => process rest sub g
                            end
                | _ => match dget std (zlen args) with
                       | None => (g ++ [say "Wrong number of arguments"], (false, RNone))
                       | Some p => perform (p_cb p) (p_handler p) (map (strip_keys keys) args) (lit "Command failed") g
                       end
                end
            end
        end
    end.

  Definition nonempty (w : pystr) : bool := match w with [] => false | _ => true end.
  (** line_received and lineReceivedImpl, SH 581-602. An exception's traceback
      is written to the transport; its text is not modelled. *)
  Definition traceback : ev := EWrite (lit "Traceback").
  Definition line_received (line : pystr) (g : log) : log * answer :=
    match ustrip line with
    | [] => (g, (false, RNone))
    | l =>
        match shlex_split l with
        | Raise _ => (g ++ [traceback], (false, RNone))
        | Ok ws =>
            match filter nonempty ws with
            | [] => (g ++ [traceback], (false, RNone))               (* args[0] *)
            | w :: args =>
                match find w with
                | None => (g ++ [EWrite (lit "Unknown command " ++ w ++ nl)], (false, RNone))
                | Some c => process args c g
                end
            end
        end
    end.

  (** __run_batch_lines, SH 531-545: the log when it ends, or when it waits for
      ever (false); None is out of fuel *)
  Definition batch_failed (l : pystr) : ev := EWrite (lit "  Batch failed on line: " ++ l ++ nl).
  Definition not_awaitable : pystr := lit "object can't be used in 'await' expression".
  Fixpoint run_batch (fuel : nat) (lines : list pystr) (g : log) : option (log * bool) :=
    match fuel with
    | 0 => None
    | S f =>
        match lines with
        | [] => Some (g, true)
        | l :: r =>
            match line_received l g with
            | (g1, (false, _)) => Some (g1 ++ [batch_failed l], true)
            | (g1, (true, d)) =>
                match d with
                | RNone | ROther _ => Some (g1 ++ [batch_failed l; EWrite (lit "  " ++ not_awaitable)], true)
                | RFut i | RCoro i =>
                    match env_await g1 i with
                    | FDone => run_batch f r g1
                    | FFailed msg => Some (g1 ++ [batch_failed l; EWrite (lit "  " ++ msg)], true)
                    | FNever => Some (g1, false)
                    end
                | RBatch ls =>
                    match run_batch f ls g1 with
                    | Some (g2, true) => run_batch f r g2
                    | x => x
                    end
                end
            end
        end
    end.
End Env.

(** ** Registration *)
(** __registerCommand, SH 564-570; [None] is the help command *)
Definition reg (k : pystr) (e : option cmd) (s : shell) : res shell :=
  if dhas (s_cmds s) k then Raise GenericException
  else
    let h := Cmd k (lit "Get information about " ++ k) Singleton (Some (CbHelp k)) None [] [] [lit "f://"] in
    if dhas (s_help s) k then Raise GenericException          (* configureSubcommand *)
    else Ok (Shell (dset (s_cmds s) k e) (dset (s_help s) k h)).
(** registerCommand, SH 559-562 *)
Definition register (c : cmd) (s : shell) : res shell :=
  if has_prefix (lit "_") (c_txt c) then Raise GenericException else reg (c_txt c) (Some c) s.

(** SH 497-506 *)
Definition batch_cmd : cmd :=
  Cmd (lit "batch") (lit "Execute a file with a batch of instructions") Standard None None
    [(1%Z, Pod CbBatch None (lit "Launch [batch_file]") (Some (lit "[batch_file]")))] [] [lit "f://"].
Definition quit_cmd : cmd := Cmd (lit "quit") (lit "Terminate the shell") Standard (Some CbQuit) None [] [] [lit "f://"].
Definition shell_new : res shell :=
  bind (reg (lit "help") None (Shell [] [])) (fun s =>
  bind (reg (lit "batch") (Some batch_cmd) s) (fun s => reg (lit "quit") (Some quit_cmd) s)).
Fixpoint register_all (l : list cmd) (s : shell) : res shell :=
  match l with [] => Ok s | c :: r => bind (register c s) (register_all r) end.

(** ** Completion *)
Section Complete.
  Variable files : pystr -> nat -> option pystr.   (* FileArgCompleter, SH 131-149 *)

  (** the loop of completeKeys, SH 157-169, given the complete method of a command *)
  Fixpoint complete_keys (rec : cmd -> pystr -> res (option pystr)) (ks : list (pystr * cmd)) (s : pystr) (i state : nat) : res (option pystr) :=
    match ks with
    | [] => Ok None
    | (k, c) :: r =>
        if has_prefix (k ++ lit " ") s then
          match rec c (skipn (List.length k + 1) s) with
          | Ok (Some x) => Ok (Some (k ++ lit " " ++ x))
          | Ok None => Raise TypeError                               (* str + None *)
          | Raise e => Raise e
          end
        else if has_prefix s k then
          if Nat.eqb i state then Ok (Some k) else complete_keys rec r s (S i) state
        else complete_keys rec r s i state
    end.
  (** the file argument, SH 332-342 *)
  Fixpoint complete_arg (keys : list pystr) (done : list pystr) (tab : pystr) (state : nat) : res (option pystr) :=
    match keys with
    | [] => Ok None
    | k :: r =>
        if has_prefix k tab then
          match files (skipn (List.length k) tab) state with
          | Some x => Ok (Some ((match done with [] => [] | _ => join (lit " ") done ++ lit " " end) ++ k ++ x))
          | None => Raise TypeError
          end
        else complete_arg r done tab state
    end.
  (** CLICommand.complete, SH 329-343 *)
  Fixpoint complete_cmd (fuel : nat) (c : cmd) (s : pystr) (state : nat) : res (option pystr) :=
    match fuel with
    | 0 => Ok None
    | S f =>
        match c with
        | Cmd _ _ m _ _ _ subs keys =>
            match m with
            | Subcmd => complete_keys (fun c s => complete_cmd f c s state) subs s 0 state
            | _ => let ws := split_on 32%Z s in complete_arg keys (removelast ws) (last ws []) state
            end
        end
    end.
  (** CLIShell.complete, SH 572-573. A step into a sub command shortens s. *)
  Definition complete (sh : shell) (s : pystr) (state : nat) : res (option pystr) :=
    complete_keys (fun c s => complete_cmd (S (List.length s)) c s state) (map (fun ke => (fst ke, entry sh (snd ke))) (s_cmds sh)) s 0 state.
End Complete.

(** ** The input thread, SH 61-129 *)
Inductive tpc := TInput | TWait | TEnd.   (* SH 117, SH 84-87, SH 129 *)
Inductive job := JLine (l : pystr) | JLost.
Record stdio := Stdio {
  t_pc : tpc;
  t_get : bool;             (* __getLine *)
  t_quit : bool;            (* shouldQuit() *)
  t_jobs : list job;        (* call_soon_threadsafe, in order *)
  t_futs : list pystr       (* the futures with our done callback, by the line they are of *)
}.
(** SH 99-113 *)
Definition stdio_new : stdio := Stdio TInput true false [] [].

(** What can happen, in any order: input() returns a line, or raises; the loop
    runs the next job, in which line_received returns [d] and closes the
    transport or not; a pending future ends; the thread looks at its flags; the
    transport is closed from outside. *)
Inductive io := IoLine (l : pystr) | IoError | IoRun (d : ret) (closed : bool) | IoFut (l : pystr) | IoWake | IoClose.

(** SH 89-97: what is done with the answer; [if fut] *)
Definition answered (l : pystr) (d : ret) (s : stdio) : stdio :=
  match d with
  | RNone | ROther false => Stdio (t_pc s) true (t_quit s) (t_jobs s) (t_futs s)
  | RFut _ | RBatch _ => Stdio (t_pc s) (t_get s) (t_quit s) (t_jobs s) (t_futs s ++ [l])
  | RCoro _ | ROther true => s             (* no add_done_callback: AttributeError, printed *)
  end.
(** Lines given to line_received, ends of their futures, connection_lost *)
Inductive iolog := GLine (l : pystr) | GFut (l : pystr) | GLost.

Definition io_step (e : io) (s : stdio) : option (stdio * list iolog) :=
  match e with
  | IoLine l =>                                                        (* SH 115-126 *)
      match t_pc s with
      | TInput => Some (Stdio TWait false (t_quit s) (t_jobs s ++ [JLine l]) (t_futs s), [])
      | _ => None
      end
  | IoError =>                                                         (* SH 118-120, 129 *)
      match t_pc s with
      | TInput => Some (Stdio TEnd (t_get s) (t_quit s) (t_jobs s ++ [JLost]) (t_futs s), [])
      | _ => None
      end
  | IoRun d closed =>
      match t_jobs s with
      | [] => None
      | JLost :: r => Some (Stdio (t_pc s) (t_get s) (t_quit s) r (t_futs s), [GLost])
      | JLine l :: r => Some (answered l d (Stdio (t_pc s) (t_get s) (t_quit s || closed) r (t_futs s)), [GLine l])
      end
  | IoFut l =>                                                         (* SH 93, 61-64 *)
      if smem (t_futs s) l then Some (Stdio (t_pc s) true (t_quit s) (t_jobs s) (sremove (t_futs s) l), [GFut l]) else None
  | IoWake =>                                                          (* SH 84-87, 114 *)
      match t_pc s with
      | TWait => if t_quit s then Some (Stdio TEnd (t_get s) true (t_jobs s ++ [JLost]) (t_futs s), [])
                 else if t_get s then Some (Stdio TInput true false (t_jobs s) (t_futs s), [])
                 else None
      | _ => None
      end
  | IoClose => Some (Stdio (t_pc s) (t_get s) true (t_jobs s) (t_futs s), [])   (* SH 66-72 *)
  end.
Fixpoint io_run (es : list io) (s : stdio) : option (stdio * list iolog) :=
  match es with
  | [] => Some (s, [])
  | e :: r => match io_step e s with
              | Some (s1, g) => match io_run r s1 with Some (s2, g2) => Some (s2, g ++ g2) | None => None end
              | None => None
              end
  end.
