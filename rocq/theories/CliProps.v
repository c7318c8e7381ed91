(** * C58: the command shell; C59: its input thread *)
From Coq Require Import List ZArith Bool Lia Arith String.
From Verif Require Import PyBase PyLemmas CliModel CliSpec CliProofs.
Import ListNotations.
Open Scope nat_scope.

(** Any words can be typed: in quotes, or bare if they are plain. *)
Theorem C58_words_as_typed ws ts : Forall2 written ws ts -> shlex_split (spaced ts) = Ok ws.
Proof. apply shlex_spaced. Qed.
Print Assumptions C58_words_as_typed.

Lemma line_words env_args env_cb env_file fmt sh w args ts g : Forall2 written (w :: args) ts -> Forall (fun x => x <> []) (w :: args) ->
  line_received env_args env_cb env_file fmt sh (spaced ts) g =
    match find sh w with
    | None => (g ++ [EWrite (lit "Unknown command " ++ w ++ nl)], (false, RNone))
    | Some c => process env_args env_cb env_file fmt sh args c g
    end.
Proof.
  intros F N. unfold line_received. destruct (spaced_strip _ _ F) as [-> NE]. specialize (NE ltac:(discriminate)).
  destruct (spaced ts) as [|x l] eqn:E; [congruence|]. rewrite <- E, (shlex_spaced _ _ F).
  assert (X : forall l, Forall (fun x : pystr => x <> []) l -> filter nonempty l = l).
  { intros r. induction 1 as [|y r Y R IH]; [reflexivity|]. cbn [filter]. destruct y; [congruence|]. cbn [nonempty]. now rewrite IH. }
  rewrite (X _ N). reflexivity.
Qed.

(** A line whose words are a registered command's name and arguments runs the
    callback configured for them, with the arguments as typed (without a leading
    "f://"), and only it; the answer is True with what it returned, or False if
    it raised. *)
Theorem C58_line_runs_callback env_args env_cb env_file fmt s0 cs sh c args ts n a u g :
  shell_new = Ok s0 -> register_all cs s0 = Ok sh -> In c cs -> built c ->
  Forall2 written (c_txt c :: args) ts -> Forall (fun x => x <> []) (c_txt c :: args) ->
  invokes c args (CbUser n) None a u ->
  line_received env_args env_cb env_file fmt sh (spaced ts) g =
    match env_cb g n a with
    | CRet d => (g ++ [ECall n a], (true, d))
    | CRaise => (g ++ [ECall n a; ETrace], (false, RNone))
    end.
Proof.
  intros E R I B F N V. rewrite (line_words _ _ _ _ _ _ _ _ _ F N), (shell_find cs sh c (shell_made _ _ _ E R) I).
  destruct (process_invokes env_args env_cb env_file fmt sh _ _ _ _ _ _ (built_wf _ B) V) as [msg ->]. unfold perform. cbn [run_handler run_cb].
  destruct (env_cb g n a); [rewrite <- app_assoc|]; reflexivity.
Qed.
Print Assumptions C58_line_runs_callback.

(** With an argument handler: its words go to the callback; None, or an
    exception, and the callback is not called. *)
Theorem C58_line_runs_handler env_args env_cb env_file fmt s0 cs sh c args ts k n a u g :
  shell_new = Ok s0 -> register_all cs s0 = Ok sh -> In c cs -> built c ->
  Forall2 written (c_txt c :: args) ts -> Forall (fun x => x <> []) (c_txt c :: args) ->
  invokes c args (CbUser n) (Some k) a u ->
  match env_args g k a with
  | HArgs a' => line_received env_args env_cb env_file fmt sh (spaced ts) g =
      match env_cb (g ++ [EArgs k a]) n a' with
      | CRet d => (g ++ [EArgs k a; ECall n a'], (true, d))
      | CRaise => (g ++ [EArgs k a; ECall n a'; ETrace], (false, RNone))
      end
  | HNone => exists msg, line_received env_args env_cb env_file fmt sh (spaced ts) g = (g ++ [EArgs k a; EWrite msg], (false, RNone))
  | HRaise => line_received env_args env_cb env_file fmt sh (spaced ts) g = (g ++ [EArgs k a; ETrace], (false, RNone))
  end.
Proof.
  intros E R I B F N V. rewrite (line_words _ _ _ _ _ _ _ _ _ F N), (shell_find cs sh c (shell_made _ _ _ E R) I).
  destruct (process_invokes env_args env_cb env_file fmt sh _ _ _ _ _ _ (built_wf _ B) V) as [msg X]. rewrite X. unfold perform. cbn [run_handler run_cb].
  destruct (env_args g k a).
  - now rewrite <- app_assoc.
  - exists (msg ++ nl). now rewrite <- app_assoc.
  - destruct (env_cb _ n a0); rewrite <- !app_assoc; reflexivity.
Qed.
Print Assumptions C58_line_runs_handler.

(** Words no callback is configured for: nothing is called, the answer is False,
    and the user is told. *)
Theorem C58_line_runs_nothing env_args env_cb env_file fmt s0 cs sh w args ts g :
  shell_new = Ok s0 -> register_all cs s0 = Ok sh -> Forall built cs ->
  Forall2 written (w :: args) ts -> Forall (fun x => x <> []) (w :: args) ->
  ~ In w [lit "help"; lit "batch"; lit "quit"] ->
  (forall c b h a u, In c cs -> c_txt c = w -> ~ invokes c args b h a u) ->
  exists e l, Forall told (e :: l) /\ line_received env_args env_cb env_file fmt sh (spaced ts) g = (g ++ e :: l, (false, RNone)).
Proof.
  intros E R B F N O V. rewrite (line_words _ _ _ _ _ _ _ _ _ F N). pose proof (shell_made _ _ _ E R) as S.
  destruct (find sh w) as [c|] eqn:Fw.
  - assert (In c cs /\ c_txt c = w) as [I T].
    { unfold find in Fw. destruct (dget (s_cmds sh) w) as [e|] eqn:D; [|discriminate]. apply dget_in in D. destruct S as (S1 & _). rewrite S1 in D. apply in_app_or in D as [D|D].
      - exfalso. apply O. unfold own in D. cbn [In] in D. destruct D as [D|[D|[D|[]]]]; injection D as D _; rewrite <- D; cbn [In]; tauto.
      - apply in_map_iff in D as (c' & X & I). pose proof (f_equal fst X) as X1. pose proof (f_equal snd X) as X2. cbn [fst snd] in X1, X2. rewrite <- X2 in Fw. cbn [entry] in Fw. assert (c' = c) by congruence. subst. now split. }
    rewrite Forall_forall in B. destruct (process_not env_args env_cb env_file fmt sh c (built_wf _ (B _ I)) args (fun b h a u => V c b h a u I T)) as (l & A & Tl & P).
    destruct l as [|e l]; [congruence|]. exists e, l. split; [exact Tl|apply P].
  - exists (EWrite (lit "Unknown command " ++ w ++ nl)), []. split; [repeat constructor|reflexivity].
Qed.
Print Assumptions C58_line_runs_nothing.

(** A command can be registered exactly if its name is new and has no leading
    underscore; an argument count exactly if it is positive and new, and a sub
    command if its name is new. *)
Theorem C58_registered_once s0 cs sh c :
  shell_new = Ok s0 -> register_all cs s0 = Ok sh ->
  (exists sh', register c sh = Ok sh') <-> (forall r, c_txt c <> lit "_" ++ r) /\ ~ In (c_txt c) ([lit "help"; lit "batch"; lit "quit"] ++ map c_txt cs).
Proof.
  intros E R. destruct (shell_made _ _ _ E R) as (S1 & S2 & _).
  assert (K : dkeys (s_cmds sh) = [lit "help"; lit "batch"; lit "quit"] ++ map c_txt cs) by (rewrite S1; unfold dkeys; rewrite map_app, map_map; reflexivity).
  assert (K2 : dkeys (s_help sh) = dkeys (s_cmds sh)) by (rewrite S2; unfold dkeys at 1; rewrite map_map; cbn [fst]; apply map_id).
  assert (H : forall V (d : dict pystr V) k, dhas d k = false <-> ~ In k (dkeys d)).
  { intros V d k. rewrite dhas_false. apply dget_none. }
  rewrite <- K. split.
  - intros [sh' X]. unfold register in X. destruct (has_prefix (lit "_") (c_txt c)) eqn:P; [discriminate|]. split; [now apply has_prefix_false|].
    apply reg_ok in X as (_ & _ & N). exact N.
  - intros [P N]. unfold register. apply has_prefix_false in P. rewrite P. unfold reg. apply H in N as N1. rewrite N1. rewrite <- K2 in N. apply H in N. rewrite N. eauto.
Qed.
Print Assumptions C58_registered_once.
Theorem C58_configured_once txt help m dcb dh std subs keys n p sub : let c := Cmd txt help m dcb dh std subs keys in
  ((exists c', configure c n p = Ok c') <-> m = Standard /\ (1 <= n)%Z /\ ~ In n (map fst std)) /\
  ((exists c', configure_sub c sub = Ok c') <-> m = Subcmd /\ ~ In (c_txt sub) (map fst subs)).
Proof.
  intro c. subst c. unfold configure, configure_sub.
  assert (H : forall K V `{EqDec K} (d : dict K V) k, dhas d k = false <-> ~ In k (map fst d)).
  { intros K V EQ d k. rewrite dhas_false. apply dget_none. }
  split.
  - split.
    + intros [c' X]. destruct m; try discriminate. destruct (dhas std n) eqn:D; [discriminate|]. destruct (Z.ltb_spec n 1); [discriminate|]. apply H in D. repeat split; [lia|exact D].
    + intros (-> & L & N). assert (dhas std n = false) as -> by (apply H; exact N). destruct (Z.ltb_spec n 1); [lia|eauto].
  - split.
    + intros [c' X]. destruct m; try discriminate. destruct (dhas subs (c_txt sub)) eqn:D; [discriminate|]. apply H in D. now split.
    + intros (-> & N). assert (dhas subs (c_txt sub) = false) as -> by (apply H; exact N). eauto.
Qed.
Print Assumptions C58_configured_once.

(** The words determine the callback, its handler and its arguments. *)
Theorem C58_unambiguous c args b h a u b' h' a' u' :
  built c -> invokes c args b h a u -> invokes c args b' h' a' u' -> b' = b /\ h' = h /\ a' = a.
Proof. intros B V V'. exact (invokes_fun c (built_wf _ B) _ _ _ _ _ V _ _ _ _ V'). Qed.
Print Assumptions C58_unambiguous.

(** Whatever the line and the shell, at most one user's callback is called, and
    the answer is True only if one callback (or help, batch, quit) returned. *)
Theorem C58_one_callback_a_line env_args env_cb env_file fmt sh line g :
  exists g', fst (line_received env_args env_cb env_file fmt sh line g) = g ++ g' /\ List.length (calls g') <= 1 /\ List.length (handler_calls g') <= 1.
Proof.
  assert (T : forall l, Forall told l -> calls l = [] /\ handler_calls l = []).
  { induction 1 as [|e l H F [IH1 IH2]]; [now split|]. unfold calls, handler_calls in *. cbn [flat_map]. rewrite IH1, IH2. destruct e; destruct H; now split. }
  assert (W : forall (l : list pystr), Forall told (map (fun u => EWrite (lit "  " ++ u ++ nl)) l)) by (induction l; cbn [map]; [constructor|constructor; [exact I|assumption]]).
  assert (HA : Forall told (help_all sh)).
  { unfold help_all. induction (s_cmds sh) as [|[k [c|]] d IH]; cbn [flat_map snd]; [constructor| |constructor; [exact I|exact IH]]. apply Forall_app. split; [apply W|exact IH]. }
  assert (H1 : forall k, Forall told (help_one fmt sh k)) by (intro k; unfold help_one; destruct (find sh k); repeat constructor).
  assert (CB : forall b a g, exists g', fst (run_cb env_cb env_file fmt sh b a g) = g ++ g' /\ List.length (calls g') <= 1 /\ handler_calls g' = []).
  { intros b a g0. destruct b as [n| |k| |]; cbn [run_cb fst].
    - eexists. split; [reflexivity|]. split; [cbn; lia|reflexivity].
    - eexists. split; [reflexivity|]. destruct (T _ HA) as [-> ->]. split; [cbn; lia|reflexivity].
    - eexists. split; [reflexivity|]. destruct (T _ (H1 k)) as [-> ->]. split; [cbn; lia|reflexivity].
    - destruct a as [|f [|]]; [exists []; rewrite app_nil_r; split; [reflexivity|]; split; [cbn; lia|reflexivity]| |exists []; rewrite app_nil_r; split; [reflexivity|]; split; [cbn; lia|reflexivity]].
      destruct (env_file g0 f); cbn [fst].
      + eexists. split; [reflexivity|]. split; [cbn; lia|reflexivity].
      + exists []. rewrite app_nil_r. split; [reflexivity|]. split; [cbn; lia|reflexivity].
      + exists []. rewrite app_nil_r. split; [reflexivity|]. split; [cbn; lia|reflexivity].
    - eexists. split; [reflexivity|]. split; [cbn; lia|reflexivity]. }
  assert (CA : forall x y, calls (x ++ y) = calls x ++ calls y) by (intros; unfold calls; apply flat_map_app).
  assert (CH : forall x y, handler_calls (x ++ y) = handler_calls x ++ handler_calls y) by (intros; unfold handler_calls; apply flat_map_app).
  assert (P : forall b h a msg g, exists g', fst (perform env_args env_cb env_file fmt sh b h a msg g) = g ++ g' /\ List.length (calls g') <= 1 /\ List.length (handler_calls g') <= 1).
  { intros b h a msg g0. unfold perform. assert (RH : exists gh r, run_handler env_args h a g0 = (g0 ++ gh, r) /\ calls gh = [] /\ List.length (handler_calls gh) <= 1).
    { destruct h as [k|]; cbn [run_handler]; [exists [EArgs k a]; eexists; split; [reflexivity|]; split; [reflexivity|cbn; lia]|exists []; eexists; rewrite app_nil_r; split; [reflexivity|]; split; [reflexivity|cbn; lia]]. }
    destruct RH as (gh & r & -> & C0 & L0). destruct r as [| |a'].
    - exists (gh ++ [ETrace]). cbn [fst]. rewrite <- app_assoc, CA, CH, C0, !app_length. split; [reflexivity|]. cbn. lia.
    - exists (gh ++ [EWrite (msg ++ nl)]). cbn [fst]. rewrite <- app_assoc, CA, CH, C0, !app_length. split; [reflexivity|]. cbn. lia.
    - destruct (CB b a' (g0 ++ gh)) as (gc & E & L1 & L2). destruct (run_cb env_cb env_file fmt sh b a' (g0 ++ gh)) as [g2 [|d]]; cbn [fst] in E; subst g2.
      + exists (gh ++ gc ++ [ETrace]). cbn [fst]. rewrite <- !app_assoc, !CA, !CH, C0, L2, !app_length. split; [reflexivity|]. cbn. lia.
      + exists (gh ++ gc). cbn [fst]. rewrite <- !app_assoc, !CA, !CH, C0, L2, !app_length. split; [reflexivity|]. cbn. lia. }
  assert (TT : forall l, Forall told l -> forall g, exists g', g ++ l = g ++ g' /\ List.length (calls g') <= 1 /\ List.length (handler_calls g') <= 1).
  { intros l F g0. exists l. split; [reflexivity|]. destruct (T _ F) as [-> ->]. cbn. lia. }
  assert (PR : forall args c g, exists g', fst (process env_args env_cb env_file fmt sh args c g) = g ++ g' /\ List.length (calls g') <= 1 /\ List.length (handler_calls g') <= 1).
  { induction args as [|w args IH]; intros [txt help m dcb dh std subs keys] g0; cbn [process].
    - destruct m; [destruct dcb; [apply P|apply TT; repeat constructor]|destruct dcb; [apply P|]..].
      + destruct (dget std 0%Z) as [p|]; [|cbn [fst]; rewrite <- app_assoc; apply TT; repeat constructor].
        destruct (P (p_cb p) (p_handler p) [] (lit "Command failed") (g0 ++ [say "Command requires arguments"])) as (g' & -> & A & B). rewrite <- app_assoc. eexists. split; [reflexivity|]. exact (conj A B).
      + cbn [fst]. rewrite <- app_assoc. apply TT; repeat constructor.
    - destruct m; [destruct dcb; [apply P|apply TT; repeat constructor]|..].
      + destruct (dget std (zlen (w :: args))) as [p|]; destruct dcb; try apply P; apply TT; repeat constructor.
      + destruct (dget subs w) as [sub|]; destruct dcb; try apply IH; apply TT; repeat constructor. }
  unfold line_received. destruct (ustrip line) as [|x l]; [exists []; rewrite app_nil_r; cbn; split; [reflexivity|lia]|].
  destruct (shlex_split (x :: l)) as [ws|]; [|apply TT; repeat constructor]. destruct (filter nonempty ws) as [|w args]; [apply TT; repeat constructor|].
  destruct (find sh w); [apply PR|apply TT; repeat constructor].
Qed.
Print Assumptions C58_one_callback_a_line.

(** help lists exactly the ways of running something: a line for each. *)
Theorem C58_help_lists_everything env_args env_cb env_file fmt s0 cs sh g :
  shell_new = Ok s0 -> register_all cs s0 = Ok sh -> Forall built cs ->
  exists w, line_received env_args env_cb env_file fmt sh (lit "help") g = (g ++ w, (true, RNone)) /\
    forall e, In e w <->
      e = EWrite (lit "  help [cmd]" ++ nl) \/
      exists c args b h a u, (In c cs \/ c = batch_cmd \/ c = quit_cmd) /\ invokes c args b h a u /\ e = EWrite (lit "  " ++ u ++ nl).
Proof.
  intros E R B. pose proof (shell_made _ _ _ E R) as (S1 & S2 & S3). exists (help_all sh). split.
  - assert (F : Forall2 written [lit "help"] [lit "help"]).
    { constructor; [|constructor]. right. split; [|reflexivity]. split; [discriminate|]. vm_compute. intros c [<-|[<-|[<-|[<-|[]]]]]; (split; [split; discriminate|intuition discriminate]). }
    change (lit "help") with (spaced [lit "help"]) at 1. rewrite (line_words _ _ _ _ _ _ _ _ _ F) by (repeat constructor; discriminate).
    unfold find. rewrite (in_dget (s_cmds sh) (lit "help") None S3); [|rewrite S1; now left]. reflexivity.
  - intro e. unfold help_all. rewrite in_flat_map. rewrite S1. split.
    + intros ([k [c|]] & I & J); cbn [snd] in J.
      * right. apply in_map_iff in J as (u & <- & J).
        assert (C : (In c cs \/ c = batch_cmd \/ c = quit_cmd) /\ wf c).
        { apply in_app_or in I as [I|I].
          - unfold own in I. cbn [In] in I. destruct I as [I|[I|[I|[]]]]; [discriminate|assert (c = batch_cmd) by congruence|assert (c = quit_cmd) by congruence]; subst c; (split; [tauto|]).
            + apply wf_eq. repeat split; try easy. repeat constructor; intros []. constructor. intros n p [[= <- _]|[]]. lia.
            + apply wf_eq. repeat split; try easy; constructor.
          - apply in_map_iff in I as (c' & X & I). assert (c' = c) by congruence. subst c'. split; [tauto|]. rewrite Forall_forall in B. apply built_wf. auto. }
        destruct C as [C W]. apply (usage_iff c W) in J as (args & b & h & a & V). exists c, args, b, h, a, u. now split.
      * left. destruct J as [<-|[]]. reflexivity.
    + intros [->|(c & args & b & h & a & u & C & V & ->)].
      * exists (lit "help", None). split; [now left|now left].
      * assert (X : exists k, In (k, Some c) (own ++ map (fun c0 => (c_txt c0, Some c0)) cs) /\ wf c).
        { destruct C as [C|[->| ->]].
          - exists (c_txt c). split; [apply in_or_app; right; apply in_map_iff; now exists c|]. rewrite Forall_forall in B. apply built_wf. auto.
          - exists (lit "batch"). split; [right; now left|]. apply wf_eq. repeat split; try easy. repeat constructor; intros []. constructor. intros n p [[= <- _]|[]]. lia.
          - exists (lit "quit"). split; [right; right; now left|]. apply wf_eq. repeat split; try easy; constructor. }
        destruct X as (k & X & W). exists (k, Some c). split; [exact X|]. cbn [snd]. apply in_map_iff. exists u. split; [reflexivity|]. apply (usage_iff c W). eauto.
Qed.
Print Assumptions C58_help_lists_everything.

(** ** Completion *)
Lemma extends_prefix s k : extends s k <-> has_prefix s k = true.
Proof. unfold extends. now rewrite has_prefix_spec. Qed.

(** For a first word, states 0, 1, 2, ... enumerate the commands that begin with
    it, in the order of registration, and then there is None. *)
Theorem C58_complete_command files s0 cs sh s i l :
  shell_new = Ok s0 -> register_all cs s0 = Ok sh -> ~ In 32%Z s ->
  selection (extends s) ([lit "help"; lit "batch"; lit "quit"] ++ map c_txt cs) l ->
  complete files sh s i = Ok (nth_error l i).
Proof.
  intros E R N S. pose proof (shell_made _ _ _ E R) as (S1 & _). unfold complete. rewrite complete_plain by (exact N || lia). rewrite Nat.sub_0_r, map_map. cbn [fst].
  rewrite (selection_filter _ (has_prefix s) _ _ (extends_prefix s) S). do 3 f_equal. rewrite S1, map_app, map_map. reflexivity.
Qed.
Print Assumptions C58_complete_command.

(** For the word after a command that takes sub commands, they enumerate these;
    (refuted: then None) after the last there is a TypeError. *)
Theorem C58_complete_subcommand files s0 cs sh txt help dcb dh std subs keys r i l :
  shell_new = Ok s0 -> register_all cs s0 = Ok sh -> (forall c, In c cs -> ~ In 32%Z (c_txt c)) ->
  In (Cmd txt help Subcmd dcb dh std subs keys) cs -> ~ In 32%Z r ->
  selection (extends r) (map fst subs) l ->
  complete files sh (txt ++ lit " " ++ r) i =
    match nth_error l i with Some x => Ok (Some (txt ++ lit " " ++ x)) | None => Raise TypeError end.
Proof.
  intros E R NS I N S. pose proof (shell_made _ _ _ E R) as (S1 & _ & S3). unfold complete. set (c := Cmd txt help Subcmd dcb dh std subs keys) in *.
  rewrite (complete_delegate _ _ txt c r i).
  - subst c. cbn [complete_cmd]. rewrite complete_plain by (exact N || lia). rewrite Nat.sub_0_r, (selection_filter _ (has_prefix r) _ _ (extends_prefix r) S).
    destruct (nth_error _ i); reflexivity.
  - rewrite map_map. exact S3.
  - intros k c' J. apply in_map_iff in J as ([k' e] & X & J). pose proof (f_equal fst X) as X1. cbn [fst] in X1. subst k'. rewrite S1 in J. apply in_app_or in J as [J|J].
    + unfold own in J. cbn [In] in J. destruct J as [J|[J|[J|[]]]]; injection J as J _; rewrite <- J; vm_compute; intuition discriminate.
    + apply in_map_iff in J as (c2 & Y & J). pose proof (f_equal fst Y) as Y1. cbn [fst] in Y1. rewrite <- Y1. now apply NS.
  - apply in_map_iff. exists (txt, Some c). split; [reflexivity|]. rewrite S1. apply in_or_app. right. apply in_map_iff. now exists c.
Qed.
Print Assumptions C58_complete_subcommand.

(** For arguments: the last word, if it is "f://" and a path, is completed as a
    file name and the words before it stay; (refuted: else None) anything else,
    and the end of the files, is a TypeError. *)
Theorem C58_complete_argument files s0 cs sh txt help m dcb dh std subs words tab i :
  shell_new = Ok s0 -> register_all cs s0 = Ok sh -> (forall c, In c cs -> ~ In 32%Z (c_txt c)) ->
  In (Cmd txt help m dcb dh std subs [lit "f://"]) cs -> m <> Subcmd ->
  (forall w, In w (words ++ [tab]) -> ~ In 32%Z w) ->
  (forall path x, tab = lit "f://" ++ path -> files path i = Some x ->
     complete files sh (txt ++ lit " " ++ spaced (words ++ [tab])) i = Ok (Some (txt ++ lit " " ++ spaced (words ++ [lit "f://" ++ x])))) /\
  ((forall path x, tab = lit "f://" ++ path -> files path i <> Some x) ->
     complete files sh (txt ++ lit " " ++ spaced (words ++ [tab])) i = Raise TypeError).
Proof.
  intros E R NS I M W. pose proof (shell_made _ _ _ E R) as (S1 & _ & S3). set (c := Cmd txt help m dcb dh std subs [lit "f://"]) in *.
  assert (J : forall ps, spaced ps = join_on 32%Z ps).
  { induction ps as [|p [|p2 ps] IH]; [reflexivity|reflexivity|]. change (spaced (p :: p2 :: ps)) with (p ++ 32%Z :: spaced (p2 :: ps)). rewrite IH. reflexivity. }
  assert (J2 : forall ps, join (lit " ") ps = join_on 32%Z ps).
  { induction ps as [|p [|p2 ps] IH]; [reflexivity|reflexivity|]. change (join (lit " ") (p :: p2 :: ps)) with (p ++ lit " " ++ join (lit " ") (p2 :: ps)). rewrite IH. reflexivity. }
  assert (J3 : forall ps t, ps <> [] -> join_on 32%Z (ps ++ [t]) = join_on 32%Z ps ++ lit " " ++ t).
  { induction ps as [|p [|p2 ps] IH]; intros t N; [congruence|reflexivity|]. change ((p :: p2 :: ps) ++ [t]) with (p :: (p2 :: ps) ++ [t]).
    change (join_on 32%Z (p :: (p2 :: ps) ++ [t])) with (p ++ 32%Z :: join_on 32%Z ((p2 :: ps) ++ [t])). rewrite IH by discriminate.
    change (join_on 32%Z (p :: p2 :: ps)) with (p ++ 32%Z :: join_on 32%Z (p2 :: ps)). now rewrite <- app_assoc. }
  assert (X : complete files sh (txt ++ lit " " ++ spaced (words ++ [tab])) i =
    match complete_arg files [lit "f://"] words tab i with Ok (Some x) => Ok (Some (txt ++ lit " " ++ x)) | Ok None => Raise TypeError | Raise e => Raise e end).
  { unfold complete. rewrite (complete_delegate _ _ txt c (spaced (words ++ [tab])) i).
    - subst c. cbn [complete_cmd]. rewrite J, split_join.
      + rewrite removelast_last, last_last. destruct m; [reflexivity|reflexivity|congruence].
      + destruct words; discriminate.
      + apply Forall_forall. exact W.
    - rewrite map_map. exact S3.
    - intros k c' Q. apply in_map_iff in Q as ([k' e] & X & Q). pose proof (f_equal fst X) as X1. cbn [fst] in X1. subst k'. rewrite S1 in Q. apply in_app_or in Q as [Q|Q].
      + unfold own in Q. cbn [In] in Q. destruct Q as [Q|[Q|[Q|[]]]]; injection Q as Q _; rewrite <- Q; vm_compute; intuition discriminate.
      + apply in_map_iff in Q as (c2 & Y & Q). pose proof (f_equal fst Y) as Y1. cbn [fst] in Y1. rewrite <- Y1. now apply NS.
    - apply in_map_iff. exists (txt, Some c). split; [reflexivity|]. rewrite S1. apply in_or_app. right. apply in_map_iff. now exists c. }
  rewrite X. cbn [complete_arg]. split.
  - intros path x T F. replace (has_prefix (lit "f://") tab) with true by (symmetry; apply has_prefix_spec; now exists path). subst tab.
    replace (skipn (List.length (lit "f://")) (lit "f://" ++ path)) with path by reflexivity. rewrite F, J. destruct words as [|w words]; [reflexivity|].
    rewrite J2, J3 by discriminate. now rewrite <- app_assoc.
  - intro F. destruct (has_prefix (lit "f://") tab) eqn:P; [|reflexivity]. apply has_prefix_spec in P as [path ->].
    replace (skipn (List.length (lit "f://")) (lit "f://" ++ path)) with path by reflexivity. specialize (F path). destruct (files path i) as [x|]; [destruct (F x eq_refl eq_refl)|reflexivity].
Qed.
Print Assumptions C58_complete_argument.

(** The model's bound on the depth of sub commands is no limit. *)
Theorem C58_complete_depth files f c s i : List.length s < f -> complete_cmd files f c s i = complete_cmd files (S (List.length s)) c s i.
Proof. intro L. apply complete_fuel; [exact L|lia]. Qed.
Print Assumptions C58_complete_depth.

(** ** Batches *)
(** A batch runs its lines in order, each after the last one's future is done,
    as long as every line's command succeeds and returns something to wait for
    that succeeds. *)
Theorem C58_batch_in_order env_args env_cb env_file env_await fmt sh lines g :
  Forall (line_good env_args env_cb env_file env_await fmt sh) lines ->
  exists fuel, run_batch env_args env_cb env_file env_await fmt sh fuel lines g =
    Some (fold_left (fun g l => fst (line_received env_args env_cb env_file fmt sh l g)) lines g, true).
Proof.
  intro F. exists (S (List.length lines)). revert g. induction F as [|l lines G F IH]; intro g; [reflexivity|]. cbn [fold_left List.length].
  destruct (G g) as (g1 & d & i & E & D & A).
  change (S (S (List.length lines))) with (S (S (List.length lines))). remember (S (List.length lines)) as f. cbn [run_batch]. rewrite E. cbn [fst]. destruct D as [-> | ->]; rewrite A; apply IH.
Qed.
Print Assumptions C58_batch_in_order.

(** It stops at the first line that fails, is blank, or (refuted: a batch of
    ordinary commands runs to its end) whose command returns None: later lines
    are not run, and the batch still counts as done. *)
Theorem C58_batch_stops_refuted env_args env_cb env_file env_await fmt sh lines1 l lines2 g g1 ok d :
  Forall (line_good env_args env_cb env_file env_await fmt sh) lines1 ->
  line_received env_args env_cb env_file fmt sh l (fold_left (fun g l => fst (line_received env_args env_cb env_file fmt sh l g)) lines1 g) = (g1, (ok, d)) ->
  ok = false \/ d = RNone ->
  exists fuel w, Forall told w /\ run_batch env_args env_cb env_file env_await fmt sh fuel (lines1 ++ l :: lines2) g = Some (g1 ++ w, true).
Proof.
  intros F E O. exists (S (List.length lines1)).
  assert (exists w, Forall told w /\ w <> [] /\ forall f, run_batch env_args env_cb env_file env_await fmt sh (S f) (l :: lines2) (fold_left (fun g l => fst (line_received env_args env_cb env_file fmt sh l g)) lines1 g) = Some (g1 ++ w, true)) as (w & Tw & _ & H).
  { destruct ok.
    - destruct O as [O| ->]; [discriminate|]. exists [batch_failed l; EWrite (lit "  " ++ not_awaitable)]. split; [repeat constructor|]. split; [discriminate|]. intro f. cbn [run_batch]. rewrite E. reflexivity.
    - exists [batch_failed l]. split; [repeat constructor|]. split; [discriminate|]. intro f. cbn [run_batch]. rewrite E. reflexivity. }
  exists w. split; [exact Tw|]. revert g E H. induction F as [|x lines G F IH]; intros g E H; [apply H|]. cbn [app List.length fold_left] in *.
  destruct (G g) as (g2 & d2 & i & E2 & D2 & A). remember (S (List.length lines)) as f. cbn [run_batch]. rewrite E2.
  rewrite E2 in E, H. cbn [fst] in E, H. destruct D2 as [-> | ->]; rewrite A; apply IH; assumption.
Qed.
Print Assumptions C58_batch_stops_refuted.
(** ** The input thread. [io_run es stdio_new] runs any schedule [es]. *)
(** A line is read only when every line read before has been processed and the
    future it answered with is done. *)
Theorem C59_one_at_a_time es l s g :
  io_run (es ++ [IoLine l]) stdio_new = Some (s, g) ->
  exists s0 g0, io_run es stdio_new = Some (s0, g0) /\ run_lines g0 = typed_lines es /\ t_jobs s0 = [] /\ t_futs s0 = [].
Proof.
  intro E. apply io_run_app in E as (s0 & g0 & g2 & A & B & ->). exists s0, g0. split; [exact A|].
  pose proof (stands_run _ _ _ _ _ stands_new A) as S. cbn [io_run] in B. destruct (io_step (IoLine l) s0) as [[u ga]|] eqn:F; [|discriminate]. cbn [io_step] in F.
  assert (t_jobs s0 = [] /\ t_futs s0 = []) as [J T] by (inversion S; subst s0; try discriminate F; now split).
  split; [|now split]. pose proof (lines_run _ _ _ _ A) as L. rewrite J in L. cbn in L. now rewrite app_nil_r in L.
Qed.
Print Assumptions C59_one_at_a_time.

(** Lines are processed in the order typed, none twice and none skipped. *)
Theorem C59_in_order es s g : io_run es stdio_new = Some (s, g) -> exists r, typed_lines es = run_lines g ++ r /\ List.length r <= 1.
Proof.
  intro E. pose proof (lines_run _ _ _ _ E) as L. cbn in L. exists (queued (t_jobs s)). split; [exact L|].
  pose proof (stands_run _ _ _ _ _ stands_new E) as S. inversion S as [q H|q l H|q H|q l H|q H|get q js fs H]; subst s; cbn; try lia. destruct H as [->|[->|[l ->]]]; cbn; lia.
Qed.
Print Assumptions C59_in_order.

(** If every command answers with None, something false, a future or a batch:
    while the thread waits something can happen, and after at most three steps
    of the loop it reads again or has ended. *)
Theorem C59_progress es s g :
  (forall d c, In (IoRun d c) es -> hangs d = false) ->
  io_run es stdio_new = Some (s, g) -> t_pc s = TWait ->
  (exists e, loop_event e /\ io_step e s <> None) /\
  forall es2 s2 g2, Forall loop_event es2 -> (forall d c, In (IoRun d c) es2 -> hangs d = false) -> io_run es2 s = Some (s2, g2) -> 3 <= List.length es2 ->
    exists n s3 g3, n <= 3 /\ io_run (firstn n es2) s = Some (s3, g3) /\ t_pc s3 <> TWait.
Proof.
  intros H E P. pose proof (stands_run _ _ _ _ _ stands_new E) as St. rewrite (good_no_hang _ H) in St. cbn [orb] in St. split; [now apply not_stuck|].
  intros es2 s2 g2 L H2 R N.
  rewrite <- (firstn_skipn 3 es2) in R. apply io_run_app in R as (s3 & g3 & g4 & R & _ & _).
  assert (D : (exists n s3 g3, n <= 3 /\ io_run (firstn n es2) s = Some (s3, g3) /\ t_pc s3 <> TWait) \/ forall n s3 g3, n <= 3 -> io_run (firstn n es2) s = Some (s3, g3) -> t_pc s3 = TWait).
  { assert (forall m, (exists n s3 g3, n <= m /\ io_run (firstn n es2) s = Some (s3, g3) /\ t_pc s3 <> TWait) \/ forall n s3 g3, n <= m -> io_run (firstn n es2) s = Some (s3, g3) -> t_pc s3 = TWait) as X; [|apply X].
    induction m as [|m [IH|IH]].
    - right. intros n s4 g5 Ln Q. assert (n = 0) by lia. subst n. cbn in Q. congruence.
    - left. destruct IH as (n & s4 & g5 & Ln & Q). exists n, s4, g5. split; [lia|exact Q].
    - destruct (io_run (firstn (S m) es2) s) as [[v gv]|] eqn:Q.
      + destruct (t_pc v) eqn:V; [left; exists (S m), v, gv; split; [lia|]; split; [exact Q|rewrite V; discriminate]| |left; exists (S m), v, gv; split; [lia|]; split; [exact Q|rewrite V; discriminate]].
        right. intros n s4 g5 Ln Q2. destruct (Nat.eq_dec n (S m)) as [->|]; [congruence|]. eapply IH; [|exact Q2]. lia.
      + right. intros n s4 g5 Ln Q2. destruct (Nat.eq_dec n (S m)) as [->|]; [congruence|]. eapply IH; [|exact Q2]. lia. }
  destruct D as [D|D]; [exact D|exfalso]. assert (LE : List.length (firstn 3 es2) = 3) by (rewrite firstn_length; lia).
  assert (List.length (firstn 3 es2) + rank s3 <= rank s).
  { eapply rank_run; [exact St| | |exact R|].
    - apply Forall_forall. intros x I. rewrite Forall_forall in L. apply L. eapply In_firstn. exact I.
    - intros d c I. apply (H2 d c). eapply In_firstn. exact I.
    - intros n s4 g5 Ln Q. rewrite LE in Ln. apply (D n s4 g5 Ln). rewrite firstn_firstn in Q. now replace (Nat.min n 3) with n in Q by lia. }
  pose proof (rank_small s St).
  assert (P3 : t_pc s3 = TWait) by (eapply (D 3); [lia|exact R]).
  assert (S3 : stands false s3).
  { pose proof (stands_run _ _ _ _ _ St R) as S3. rewrite good_no_hang in S3; [exact S3|]. intros d c I. apply (H2 d c). eapply In_firstn. exact I. }
  assert (1 <= rank s3) by (inversion S3; subst s3; cbn in *; try discriminate; lia). lia.
Qed.
Print Assumptions C59_progress.

(** (refuted: every command line gets its prompt back) If a command's answer is
    true but no future (a coroutine object, a string, a number) no line is ever
    read again, whatever happens. *)
Theorem C59_hang_refuted es l d c s0 g0 s1 g1 es2 s2 g2 :
  io_run es stdio_new = Some (s0, g0) -> io_run [IoRun d c] s0 = Some (s1, [GLine l] ++ g1) -> hangs d = true ->
  io_run es2 s1 = Some (s2, g2) -> typed_lines es2 = [].
Proof.
  intros E R H E2. pose proof (stands_run _ _ _ _ _ stands_new E) as S. cbn [io_run] in R.
  destruct (io_step (IoRun d c) s0) as [[u ga]|] eqn:F; [|discriminate]. assert (u = s1) by congruence. assert (G : ga ++ [] = [GLine l] ++ g1) by congruence. subst u.
  pose proof (stands_step _ _ _ _ _ S F) as S1. replace (hanging (IoRun d c) s0) with true in S1.
  - rewrite orb_true_r in S1. exact (no_lines_hung _ _ _ _ S1 E2).
  - unfold hanging. cbn [io_step] in F. destruct (t_jobs s0) as [|[l'|] r]; [discriminate|now rewrite H|]. injection F as _ <-. discriminate.
Qed.
Print Assumptions C59_hang_refuted.

(** After the transport is closed at most one more line is read, and nothing is
    processed once connection_lost was called; *)
Theorem C59_after_close es1 es2 s g : io_run (es1 ++ IoClose :: es2) stdio_new = Some (s, g) -> List.length (typed_lines es2) <= 1.
Proof.
  intro E. apply io_run_app in E as (s1 & g1 & g2 & A & B & _). cbn [io_run io_step] in B.
  destruct (io_run es2 _) as [[v gb]|] eqn:G; [|discriminate]. pose proof (quit_lines es2 _ _ _ (eq_refl : t_quit (Stdio (t_pc s1) (t_get s1) true (t_jobs s1) (t_futs s1)) = true) G) as L. cbn [t_pc] in L. destruct (t_pc s1); lia.
Qed.
Print Assumptions C59_after_close.
(** connection_lost is called exactly once by the end, and no line is processed after it. *)
Theorem C59_lost_once es s g : io_run es stdio_new = Some (s, g) ->
  lost_count g <= 1 /\ (t_pc s = TEnd -> t_jobs s = [] -> lost_count g = 1) /\ (t_pc s <> TEnd -> lost_count g = 0) /\
  forall g1 g2, g = g1 ++ GLost :: g2 -> run_lines g2 = [].
Proof.
  intro E. pose proof (lost_run _ _ _ _ E) as L. cbn [stdio_new t_jobs ended t_pc lost_jobs filter List.length] in L. unfold ended in L.
  split; [destruct (t_pc s); lia|]. split; [intros P J; rewrite P, J in L; cbn in L; lia|]. split; [intro P; destruct (t_pc s); [lia|lia|congruence]|].
  intros g1 g2 ->. exact (after_lost _ _ _ _ _ _ stands_new E).
Qed.
Print Assumptions C59_lost_once.
(** (refuted: no command runs after close) The one line read after it is processed. *)
Theorem C59_after_close_refuted l : exists es1 es2 s g s1 g1,
  io_run es1 stdio_new = Some (s1, g1) /\ io_run (es1 ++ IoClose :: es2) stdio_new = Some (s, g1 ++ g) /\ run_lines g = [l].
Proof. exists [], [IoLine l; IoRun RNone false]. do 4 eexists. split; [reflexivity|]. split; reflexivity. Qed.
Print Assumptions C59_after_close_refuted.

(** ** Examples *)
(** A shell with a command "greet" for one or two words, with a handler for two,
    and "net" with the sub command "up". *)
Definition ex_greet : cmd :=
  Cmd (lit "greet") (lit "Greet") Standard None None [(1%Z, Pod (CbUser 1) None (lit "one") (Some (lit "[who]"))); (2%Z, Pod (CbUser 2) (Some 7) (lit "two") None)] [] [lit "f://"].
Definition ex_up : cmd := Cmd (lit "up") (lit "Start") Singleton (Some (CbUser 3)) None [] [] [lit "f://"].
Definition ex_net : cmd := Cmd (lit "net") (lit "Networks") Subcmd None None [] [(lit "up", ex_up)] [lit "f://"].
Lemma ex_greet_built : built ex_greet.
Proof.
  eapply BuiltArgs with (n := 2%Z); [eapply BuiltArgs with (n := 1%Z); [eapply BuiltNew with (m := Standard) (dcb := None); reflexivity|]|]; reflexivity.
Qed.
Lemma ex_net_built : built ex_net.
Proof.
  eapply BuiltSub with (sub := ex_up); [eapply BuiltNew with (m := Subcmd) (dcb := None); reflexivity|eapply BuiltNew with (m := Singleton) (dcb := Some (CbUser 3)); reflexivity|reflexivity].
Qed.
Definition ex_shell : shell := match bind shell_new (register_all [ex_greet; ex_net]) with Ok s => s | Raise _ => Shell [] [] end.
Example ex_shell_made : bind shell_new (register_all [ex_greet; ex_net]) = Ok ex_shell.
Proof. vm_compute. reflexivity. Qed.
(** the environment: handler 7 refuses "bob"; callback 2 raises; callback 1 answers
    with future 0 and the others with None; the file "b" has three lines; future 0 succeeds *)
Definition ex_args (g : log) (n : nat) (a : list pystr) : hres := if smem a (lit "bob") then HNone else HArgs (rev a).
Definition ex_cb (g : log) (n : nat) (a : list pystr) : cres := match n with 1 => CRet (RFut 0) | 2 => CRaise | _ => CRet RNone end.
Definition ex_file (g : log) (f : pystr) : fres := if eq_dec f (lit "b") then FLines [lit "greet ann" ++ nl; lit "net up" ++ nl; lit "greet eve"] else FMissing.
Definition ex_await (g : log) (i : nat) : fdone := FDone.
Definition ex_line s := line_received ex_args ex_cb ex_file (fun x => x) ex_shell (lit s) [].

(** The hypotheses of C58_line_runs_callback, with a word in quotes *)
Example ex_line_quoted : ex_line "greet 'ann ''x'" = ([ECall 1 [lit "ann x"]], (true, RFut 0)).
Proof. vm_compute. reflexivity. Qed.
Example ex_invokes : invokes ex_greet [lit "f://a"] (CbUser 1) None [lit "a"] (lit "greet [who]").
Proof.
  refine (InvStandard (lit "greet") (lit "Greet") None None _ [] [lit "f://"] [lit "f://a"] (Pod (CbUser 1) None (lit "one") (Some (lit "[who]"))) [lit "a"] _ _ _).
  - discriminate.
  - now left.
  - constructor; [|constructor]. left. exists [], (lit "f://"), []. split; [reflexivity|]. split; [reflexivity|]. intros k' r [].
Qed.
Example ex_line_handler : ex_line "greet a b" = ([EArgs 7 [lit "a"; lit "b"]; ECall 2 [lit "b"; lit "a"]; ETrace], (false, RNone)).
Proof. vm_compute. reflexivity. Qed.
Example ex_line_refused : ex_line "greet a bob" = ([EArgs 7 [lit "a"; lit "bob"]; EWrite (lit "Command failed" ++ nl)], (false, RNone)).
Proof. vm_compute. reflexivity. Qed.
Example ex_line_count : ex_line "greet a b c" = ([EWrite (lit "Wrong number of arguments" ++ nl)], (false, RNone)).
Proof. vm_compute. reflexivity. Qed.
Example ex_line_sub : ex_line " net   up x" = ([ECall 3 [lit "x"]], (true, RNone)).
Proof. vm_compute. reflexivity. Qed.
(** an empty word alone: args[0] raises IndexError, a traceback is written *)
Example ex_line_empty_word : ex_line """""" = ([traceback], (false, RNone)).
Proof. vm_compute. reflexivity. Qed.
Example ex_line_open_quote : ex_line "greet 'ann" = ([traceback], (false, RNone)).
Proof. vm_compute. reflexivity. Qed.
Example ex_help : ex_line "help" =
  ([EWrite (lit "  help [cmd]" ++ nl); EWrite (lit "  batch [batch_file]" ++ nl); EWrite (lit "  quit/0" ++ nl);
    EWrite (lit "  greet [who]" ++ nl); EWrite (lit "  greet/2" ++ nl); EWrite (lit "  net up/*" ++ nl)], (true, RNone)).
Proof. vm_compute. reflexivity. Qed.
Example ex_complete : complete (fun _ _ => None) ex_shell (lit "g") 0 = Ok (Some (lit "greet")) /\ complete (fun _ _ => None) ex_shell (lit "g") 1 = Ok None /\
  complete (fun _ _ => None) ex_shell (lit "net u") 0 = Ok (Some (lit "net up")) /\ complete (fun _ _ => None) ex_shell (lit "net u") 1 = Raise TypeError /\
  complete (fun p i => if eq_dec p (lit "/e") then nth_error [lit "/etc"; lit "/exe"] i else None) ex_shell (lit "greet x f:///e") 1 = Ok (Some (lit "greet x f:///exe")).
Proof. vm_compute. repeat split. Qed.
(** the batch stops after its second line, whose command returns None: the third is not run *)
Example ex_batch : ex_line "batch b" = ([], (true, RBatch [lit "greet ann" ++ nl; lit "net up" ++ nl; lit "greet eve"])) /\
  option_map (fun r => calls (fst r)) (run_batch ex_args ex_cb ex_file ex_await (fun x => x) ex_shell 9 [lit "greet ann" ++ nl; lit "net up" ++ nl; lit "greet eve"] []) =
    Some [(1, [lit "ann"]); (3, [])].
Proof. vm_compute. split; reflexivity. Qed.
Example ex_batch_good : line_good ex_args ex_cb ex_file ex_await (fun x => x) ex_shell (lit "greet ann").
Proof.
  intro g. exists (g ++ [ECall 1 [lit "ann"]]), (RFut 0), 0. split; [|split; [now left|reflexivity]].
  pose proof ex_shell_made as M. destruct shell_new as [s0|] eqn:E; [|discriminate]. cbn [bind] in M.
  change (lit "greet ann") with (spaced [lit "greet"; lit "ann"]).
  apply (C58_line_runs_callback ex_args ex_cb ex_file (fun x => x) s0 [ex_greet; ex_net] ex_shell ex_greet [lit "ann"] [lit "greet"; lit "ann"] 1 [lit "ann"] (lit "greet [who]") g E M);
    [now left|apply ex_greet_built| |repeat constructor; discriminate|].
  - assert (B : forall w, forallb (fun c => Z.leb 33 c && Z.leb c 126 && negb (smem [39; 34; 92]%Z c)) w = true -> w <> [] -> written w w).
    { intros w H N. right. split; [|reflexivity]. split; [exact N|]. intros c I. rewrite forallb_forall in H. apply H in I. rewrite !andb_true_iff, negb_true_iff, !Z.leb_le in I.
      destruct I as [[A A'] C]. split; [lia|]. unfold smem in C. destruct (in_dec eq_dec c _); [discriminate|assumption]. }
    constructor; [apply B; (reflexivity || discriminate)|]. constructor; [apply B; (reflexivity || discriminate)|]. constructor.
  - refine (InvStandard (lit "greet") (lit "Greet") None None _ [] [lit "f://"] [lit "ann"] (Pod (CbUser 1) None (lit "one") (Some (lit "[who]"))) [lit "ann"] _ _ _).
    + discriminate.
    + now left.
    + constructor; [|constructor]. right. split; [reflexivity|]. intros k r [<-|[]] X. discriminate.
Qed.
(** two lines typed, the first's future done before the second is read; quit; end *)
Example ex_io : io_run [IoLine (lit "a"); IoRun (RFut 0) false; IoFut (lit "a"); IoWake; IoLine (lit "quit"); IoRun RNone true; IoWake; IoRun RNone false] stdio_new =
  Some (Stdio TEnd true true [] [], [GLine (lit "a"); GFut (lit "a"); GLine (lit "quit"); GLost]).
Proof. reflexivity. Qed.
(** a coroutine function as a callback: its line is processed, and the thread waits for ever *)
Example ex_io_hang : io_run [IoLine (lit "a"); IoRun (RCoro 0) false] stdio_new = Some (Stdio TWait false false [] [], [GLine (lit "a")]).
Proof. reflexivity. Qed.
