(** * Proofs about the command shell *)
From Coq Require Import List ZArith Bool Lia Arith String.
From Verif Require Import PyBase PyLemmas CliModel CliSpec.
Import ListNotations.
Open Scope nat_scope.

(** ** shlex *)
Lemma shlex_quoted w : forall r tok q, shlex (flat_map typed_char w ++ 39%Z :: r) (LQuote 39) tok q = shlex r LWord (rev w ++ tok) true.
Proof.
  induction w as [|c w IH]; intros r tok q; [reflexivity|]. cbn [flat_map rev]. unfold typed_char at 1. destruct (Z.eqb_spec c 39) as [->|N].
  - cbn [app shlex]. cbn -[shlex flat_map]. rewrite IH. now rewrite <- app_assoc.
  - cbn [app shlex]. destruct (Z.eqb_spec c 39); [contradiction|]. change (Z.eqb 39 q2) with false. rewrite andb_false_r, IH, <- app_assoc. reflexivity.
Qed.

Lemma bare_char c : (33 <= c <= 126)%Z -> ~ In c [39; 34; 92]%Z -> lex_space c = false /\ lex_quote c = false /\ Z.eqb c bs = false /\ uspace c = false.
Proof.
  intros R N. cbn [In] in N. unfold lex_space, lex_quote, q1, q2, bs, uspace, is_space.
  repeat match goal with |- context [Z.eqb c ?k] => destruct (Z.eqb_spec c k); [exfalso; lia|] end.
  repeat match goal with |- context [Z.leb ?a ?b] => destruct (Z.leb_spec a b) end; cbn; repeat split; try reflexivity; exfalso; lia.
Qed.
Lemma shlex_bare w : (forall c, In c w -> (33 <= c <= 126)%Z /\ ~ In c [39; 34; 92]%Z) -> forall r tok q, shlex (w ++ r) LWord tok q = shlex r LWord (rev w ++ tok) q.
Proof.
  induction w as [|c w IH]; intros B r tok q; [reflexivity|]. cbn [app shlex rev]. destruct (B c (or_introl eq_refl)) as [R N]. destruct (bare_char c R N) as (-> & -> & -> & _).
  rewrite IH by (intros x X; apply B; now right). now rewrite <- app_assoc.
Qed.

Lemma shlex_written w t r : written w t -> exists q, shlex (t ++ r) LSpace [] false = shlex r LWord (rev w) q /\ (w = [] -> q = true).
Proof.
  intros [->|[[N B] ->]].
  - exists true. split; [|auto]. unfold typed. cbn [app shlex]. cbn -[shlex flat_map]. rewrite <- app_assoc. cbn [app]. rewrite shlex_quoted. now rewrite app_nil_r.
  - exists false. split; [|congruence]. destruct w as [|c w]; [congruence|]. cbn [app shlex]. destruct (B c (or_introl eq_refl)) as [R M]. destruct (bare_char c R M) as (-> & -> & -> & _).
    rewrite shlex_bare by (intros x X; apply B; now right). reflexivity.
Qed.

Lemma rev_nil {A} (l : list A) : rev l = [] -> l = [].
Proof. intro E. rewrite <- (rev_involutive l), E. reflexivity. Qed.
Lemma shlex_spaced ws ts : Forall2 written ws ts -> shlex_split (spaced ts) = Ok ws.
Proof.
  unfold shlex_split. induction 1 as [|w t ws ts W F IH]; [reflexivity|]. destruct (shlex_written w t (match ts with [] => [] | _ => 32%Z :: spaced ts end) W) as (q & E & Q).
  assert (X : spaced (t :: ts) = t ++ match ts with [] => [] | _ => 32%Z :: spaced ts end) by (cbn [spaced]; destruct ts; [now rewrite app_nil_r|reflexivity]).
  rewrite X, E. destruct ts as [|t2 ts].
  - inversion F; subst. cbn [shlex]. destruct (rev w) as [|c l] eqn:R.
    + apply rev_nil in R. subst w. now rewrite Q.
    + rewrite <- R, rev_involutive. reflexivity.
  - cbn [shlex]. cbn -[shlex spaced rev]. rewrite IH. destruct (rev w) as [|c l] eqn:R.
    + apply rev_nil in R. subst w. now rewrite Q.
    + rewrite <- R, rev_involutive. reflexivity.
Qed.

Lemma ulstrip_id s : (forall c r, s = c :: r -> uspace c = false) -> ulstrip s = s.
Proof. destruct s as [|c r]; intro H; [reflexivity|]. cbn. now rewrite (H c r eq_refl). Qed.
Lemma ustrip_id s : (forall c r, s = c :: r -> uspace c = false) -> (forall c r, s = r ++ [c] -> uspace c = false) -> ustrip s = s.
Proof.
  intros A B. unfold ustrip. rewrite (ulstrip_id s A), ulstrip_id, rev_involutive; [reflexivity|]. intros c r E. apply (B c (rev r)). rewrite <- (rev_involutive s), E. reflexivity.
Qed.
(** a written word begins and ends with no space *)
Lemma written_ends w t : written w t -> (exists c r, t = c :: r /\ uspace c = false) /\ (exists c r, t = r ++ [c] /\ uspace c = false).
Proof.
  intros [->|[[N B] ->]].
  - split; [now exists 39%Z, (flat_map typed_char w ++ [39%Z])|now exists 39%Z, (39%Z :: flat_map typed_char w)].
  - split.
    + destruct w as [|c w]; [congruence|]. exists c, w. split; [reflexivity|]. destruct (B c (or_introl eq_refl)) as [R M]. now destruct (bare_char c R M) as (_ & _ & _ & ->).
    + destruct (exists_last N) as (r & c & ->). exists c, r. split; [reflexivity|]. destruct (B c) as [R M]; [apply in_or_app; right; now left|]. now destruct (bare_char c R M) as (_ & _ & _ & ->).
Qed.
Lemma spaced_strip ws ts : Forall2 written ws ts -> ustrip (spaced ts) = spaced ts /\ (ws <> [] -> spaced ts <> []).
Proof.
  intro F. assert (H : ws <> [] -> (exists c r, spaced ts = c :: r /\ uspace c = false) /\ (exists c r, spaced ts = r ++ [c] /\ uspace c = false)).
  { induction F as [|w t ws ts W F IH]; [congruence|]. intros _. destruct (written_ends w t W) as [(c & r & -> & C) (d & l & E & D)]. destruct ts as [|t2 ts].
    - split; [now exists c, r|]. exists d, l. now split.
    - inversion F; subst. destruct (IH ltac:(discriminate)) as [_ (d' & l' & E' & D')]. split; [eexists c, _; split; [cbn [spaced app]; reflexivity|exact C]|].
      exists d', ((c :: r) ++ 32%Z :: l'). split; [|exact D']. change (spaced ((c :: r) :: t2 :: ts)) with ((c :: r) ++ 32%Z :: spaced (t2 :: ts)). rewrite E', <- app_assoc. reflexivity. }
  destruct ws as [|w ws]; [inversion F; subst; split; [reflexivity|congruence]|]. destruct (H ltac:(discriminate)) as [(c & r & E & C) (d & l & E' & D)]. split.
  - apply ustrip_id; [intros c' r' X; rewrite E in X; injection X as <- _; exact C|]. intros c' r' X. rewrite E' in X. apply app_inj_tail in X as [_ <-]. exact D.
  - intros _ X. rewrite E in X. discriminate.
Qed.

(** ** Induction over commands *)
Fixpoint cmd_ind' (P : cmd -> Prop)
  (H : forall txt help m dcb dh std subs keys, Forall (fun p => P (snd p)) subs -> P (Cmd txt help m dcb dh std subs keys)) (c : cmd) : P c :=
  match c with
  | Cmd txt help m dcb dh std subs keys =>
      H txt help m dcb dh std subs keys
        ((fix go (l : list (pystr * cmd)) : Forall (fun p => P (snd p)) l :=
            match l with [] => Forall_nil _ | (k, x) :: r => Forall_cons (k, x) (cmd_ind' P H x) (go r) end) subs)
  end.

(** What built commands are like *)
Fixpoint wf (c : cmd) : Prop :=
  match c with
  | Cmd txt help m dcb dh std subs keys =>
      NoDup (dkeys std) /\ NoDup (dkeys subs) /\ (forall n p, In (n, p) std -> (1 <= n)%Z) /\ (m = Singleton -> dcb <> None) /\
      (fix go (l : list (pystr * cmd)) : Prop := match l with [] => True | (k, x) :: r => wf x /\ go r end) subs
  end.
Lemma wf_eq txt help m dcb dh std subs keys : wf (Cmd txt help m dcb dh std subs keys) <->
  NoDup (dkeys std) /\ NoDup (dkeys subs) /\ (forall n p, In (n, p) std -> (1 <= n)%Z) /\ (m = Singleton -> dcb <> None) /\ (forall k x, In (k, x) subs -> wf x).
Proof.
  cbn [wf]. enough (E : (fix go (l : list (pystr * cmd)) : Prop := match l with [] => True | (k, x) :: r => wf x /\ go r end) subs <-> forall k x, In (k, x) subs -> wf x) by (rewrite E; reflexivity).
  induction subs as [|[k x] subs IH]; [split; [intros _ ? ? []|auto]|]. rewrite IH. split.
  - intros [A B] k' x' [[= <- <-]|I]; eauto.
  - intro A. split; [apply (A k); now left|]. intros k' x' I. apply (A k'). now right.
Qed.

Lemma dset_app {K V} `{EqDec K} (d : dict K V) k v : dhas d k = false -> dset d k v = d ++ [(k, v)].
Proof.
  intro N. apply dhas_false in N. induction d as [|[k' v'] d IH]; [reflexivity|]. cbn in *. destruct (eq_dec k k'); [discriminate|]. now rewrite IH.
Qed.
Lemma built_wf c : built c -> wf c.
Proof.
  induction 1 as [txt help dcb dh m c E|c sub c' B IH B' IH' E|c n p c' B IH E].
  - unfold cmd_new in E. assert (c = Cmd txt help m dcb dh [] [] [lit "f://"] /\ (m = Singleton -> dcb <> None)) as [-> S].
    { destruct m, dcb; try discriminate; apply Ok_inj in E; (split; [now symmetry|]); try discriminate; congruence. }
    apply wf_eq. repeat split; try constructor; try easy.
  - destruct c as [txt help m dcb dh std subs keys]. apply wf_eq in IH as (A1 & A2 & A3 & A4 & A5). unfold configure_sub in E. destruct m; try discriminate.
    destruct (dhas subs (c_txt sub)) eqn:D; [discriminate|]. apply Ok_inj in E. subst c'. apply wf_eq. repeat split; try assumption.
    + now apply nodup_dset.
    + intros k x I. rewrite dset_app in I by exact D. apply in_app_or in I as [I|[[= <- <-]|[]]]; eauto.
  - destruct c as [txt help m dcb dh std subs keys]. apply wf_eq in IH as (A1 & A2 & A3 & A4 & A5). unfold configure in E. destruct m; try discriminate.
    destruct (dhas std n) eqn:D; [discriminate|]. destruct (Z.ltb_spec n 1); [discriminate|]. apply Ok_inj in E. subst c'. apply wf_eq. repeat split; try assumption.
    + now apply nodup_dset.
    + intros k x I. rewrite dset_app in I by exact D. apply in_app_or in I as [I|[[= <- <-]|[]]]; eauto.
Qed.

(** ** Prefixes *)
Lemma has_prefix_spec p s : has_prefix p s = true <-> exists r, s = p ++ r.
Proof.
  revert s. induction p as [|x p IH]; intros s; cbn [has_prefix].
  - split; [intros _; now exists s|reflexivity].
  - destruct s as [|y s]; [split; [discriminate|intros [r [=]]]|]. rewrite andb_true_iff, Z.eqb_eq, IH. split.
    + intros [-> [r ->]]. now exists r.
    + intros [r E]. cbn in E. injection E as -> ->. split; [reflexivity|eauto].
Qed.
Lemma has_prefix_false p s : has_prefix p s = false <-> forall r, s <> p ++ r.
Proof.
  split.
  - intros E r X. enough (has_prefix p s = true) by congruence. apply has_prefix_spec. eauto.
  - intro N. destruct (has_prefix p s) eqn:E; [|reflexivity]. apply has_prefix_spec in E as [r E]. destruct (N r E).
Qed.
Lemma strip_spec keys a b : stripped keys a b <-> b = strip_keys keys a.
Proof.
  induction keys as [|k keys IH]; cbn [strip_keys].
  - split.
    + intros [(k1 & k & k2 & E & _)|[-> _]]; [destruct k1; discriminate|reflexivity].
    + intros ->. right. split; [reflexivity|]. intros k r [].
  - destruct (has_prefix k a) eqn:P.
    + apply has_prefix_spec in P as [r ->]. rewrite skipn_app, skipn_all, Nat.sub_diag. cbn [skipn app]. split.
      * intros [(k1 & k' & k2 & E & E2 & N)|[-> N]].
        -- destruct k1 as [|x k1]; cbn in E; injection E as -> E.
           ++ now apply app_inv_head in E2.
           ++ exfalso. apply (N x r); [now left|reflexivity].
        -- exfalso. apply (N k r); [now left|reflexivity].
      * intros ->. left. exists [], k, keys. repeat split. intros k' r' [].
    + rewrite <- IH. rewrite has_prefix_false in P. split.
      * intros [(k1 & k' & k2 & E & E2 & N)|[-> N]].
        -- destruct k1 as [|x k1]; cbn in E; injection E as -> E; [destruct (P _ E2)|]. left. exists k1, k', k2. repeat split; [exact E|exact E2|]. intros k'' r I. apply N. now right.
        -- right. split; [reflexivity|]. intros k' r I. apply N. now right.
      * intros [(k1 & k' & k2 & -> & E2 & N)|[-> N]].
        -- left. exists (k :: k1), k', k2. repeat split; [exact E2|]. intros k'' r [<-|I]; [apply P|now apply N].
        -- right. split; [reflexivity|]. intros k' r [<-|I]; [apply P|now apply N].
Qed.
Lemma strip_all keys args a : Forall2 (stripped keys) args a <-> a = map (strip_keys keys) args.
Proof.
  revert a. induction args as [|x args IH]; intro a; cbn.
  - split; [intro F; now inversion F|intros ->; constructor].
  - split.
    + intro F. inversion F as [|? y ? a' S F']; subst. apply strip_spec in S. apply IH in F'. now subst.
    + intros ->. constructor; [now apply strip_spec|now apply IH].
Qed.

(** ** Dispatch *)
Section Dispatch.
  Variable env_args : log -> nat -> list pystr -> hres.
  Variable env_cb : log -> nat -> list pystr -> cres.
  Variable env_file : log -> pystr -> fres.
  Variable fmt : pystr -> pystr.
  Variable sh : shell.
  Notation process := (process env_args env_cb env_file fmt sh).
  Notation perform := (perform env_args env_cb env_file fmt sh).

  Lemma process_invokes c args b h a u : wf c -> invokes c args b h a u -> exists msg, forall g, process args c g = perform b h a msg g.
  Proof.
    intros W V. induction V as [txt help b dh std subs keys args a S|txt help m b dh std subs keys M|txt help dcb dh std subs keys args p a N I S|txt help dcb dh std subs keys w sub args b h a u I V IH].
    - apply strip_all in S. subst a. exists (lit "Command failed."). intro g. destruct args; reflexivity.
    - exists (lit "Command failed."). intro g. destruct m; [congruence|reflexivity..].
    - apply strip_all in S. subst a. exists (lit "Command failed"). intro g. destruct args as [|w args]; [congruence|]. cbn [CliModel.process].
      apply wf_eq in W as (W1 & _). rewrite (in_dget _ _ _ W1 I). reflexivity.
    - apply wf_eq in W as (_ & W2 & _ & _ & W5). destruct (IH (W5 _ _ I)) as [msg E]. exists msg. intro g. cbn [CliModel.process]. rewrite (in_dget _ _ _ W2 I). apply E.
  Qed.

  Lemma process_not c : wf c -> forall args, (forall b h a u, ~ invokes c args b h a u) ->
    exists w, w <> [] /\ Forall told w /\ forall g, process args c g = (g ++ w, (false, RNone)).
  Proof.
    induction c as [txt help m dcb dh std subs keys IH] using cmd_ind'. intros W args N. apply wf_eq in W as (W1 & W2 & W3 & W4 & W5).
    assert (M : m = Singleton \/ m <> Singleton) by (destruct m; [now left|right; discriminate..]).
    destruct M as [->|M].
    { destruct dcb as [b|]; [|destruct (W4 eq_refl eq_refl)]. exfalso. eapply N. apply InvSingleton. now apply strip_all. }
    destruct args as [|w args].
    - destruct dcb as [b|]; [exfalso; eapply N; now apply InvDefault|]. destruct m; [congruence| |].
      + destruct (dget std 0%Z) as [p|] eqn:D; [apply dget_in in D; apply W3 in D; lia|].
        exists [say "Command requires arguments"; say "Wrong number of arguments"]. split; [discriminate|]. split; [repeat constructor|]. intro g. cbn [CliModel.process]. rewrite D, <- app_assoc. reflexivity.
      + exists [say "Command requires arguments"; ETrace]. split; [discriminate|]. split; [repeat constructor|]. intro g. cbn [CliModel.process]. rewrite <- app_assoc. reflexivity.
    - destruct m; [congruence| |].
      + destruct (dget std (zlen (w :: args))) as [p|] eqn:D.
        * exfalso. eapply N. eapply InvStandard; [discriminate| |now apply strip_all]. apply dget_in in D. exact D.
        * exists [say "Wrong number of arguments"]. split; [discriminate|]. split; [repeat constructor|]. intro g. cbn [CliModel.process]. rewrite D. destruct dcb; reflexivity.
      + destruct (dget subs w) as [sub|] eqn:D.
        * apply dget_in in D as I. rewrite Forall_forall in IH. destruct (IH _ I (W5 _ _ I) args) as (w' & A & B & C).
          { intros b h a u V. eapply N. eapply InvSub; eassumption. }
          exists w'. split; [exact A|]. split; [exact B|]. intro g. cbn [CliModel.process]. rewrite D. destruct dcb; apply C.
        * eexists [_]. split; [discriminate|]. split; [|intro g; cbn [CliModel.process]; rewrite D; destruct dcb; reflexivity]. repeat constructor.
  Qed.
End Dispatch.

Lemma invokes_fun c : wf c -> forall args b h a u, invokes c args b h a u -> forall b' h' a' u', invokes c args b' h' a' u' -> b' = b /\ h' = h /\ a' = a.
Proof.
  intros W args b h a u V. induction V as [txt help b dh std subs keys args a S|txt help m b dh std subs keys M|txt help dcb dh std subs keys args p a N I S|txt help dcb dh std subs keys w sub args b h a u I V IH];
    intros b' h' a' u' V'.
  - inversion V'; subst; [|congruence]. apply strip_all in S. match goal with X : Forall2 _ _ a' |- _ => apply strip_all in X; subst end. now repeat split.
  - inversion V'; subst; try congruence. now repeat split.
  - inversion V' as [| |? ? ? ? ? ? ? ? p' ? N' I' S'|]; subst; [congruence|]. apply wf_eq in W as (W1 & _). apply strip_all in S, S'. subst.
    pose proof (in_dget _ _ _ W1 I) as D. pose proof (in_dget _ _ _ W1 I') as D'. rewrite D in D'. injection D' as <-. now repeat split.
  - inversion V' as [| | |? ? ? ? ? ? ? ? sub' ? ? ? ? ? I' V2]; subst. apply wf_eq in W as (_ & W2 & _ & _ & W5).
    pose proof (in_dget _ _ _ W2 I) as D. pose proof (in_dget _ _ _ W2 I') as D'. rewrite D in D'. injection D' as <-. eapply IH; [eauto|exact V2].
Qed.

(** ** Help *)
Lemma forall2_strip keys args : Forall2 (stripped keys) args (map (strip_keys keys) args).
Proof. now apply strip_all. Qed.
Lemma usage_iff c : wf c -> forall u, In u (usage_help c) <-> exists args b h a, invokes c args b h a u.
Proof.
  induction c as [txt help m dcb dh std subs keys IH] using cmd_ind'. intros W u. apply wf_eq in W as (W1 & W2 & W3 & W4 & W5). cbn [usage_help]. rewrite in_app_iff. split.
  - intros [I|I].
    + destruct dcb as [b|]; [|destruct I]. destruct I as [<-|[]]. destruct m; cbn [default_mark].
      * exists [], b, dh, []. apply InvSingleton. constructor.
      * exists [], b, dh, []. apply InvDefault. discriminate.
      * exists [], b, dh, []. apply InvDefault. discriminate.
    + destruct m; [destruct I| |].
      * apply in_map_iff in I as ([n p] & <- & I). pose proof (W3 _ _ I) as L. set (args := @repeat pystr [] (Z.to_nat n)).
        assert (Ln : Z.of_nat (List.length args) = n) by (unfold args; rewrite repeat_length; lia).
        exists args, (p_cb p), (p_handler p), (map (strip_keys keys) args).
        replace (pod_line txt (n, p)) with (match p_usage p with Some (c :: u) => txt ++ lit " " ++ c :: u | _ => txt ++ lit "/" ++ print_int (Z.of_nat (List.length args)) end).
        2:{ unfold pod_line. cbn [fst snd]. rewrite Ln. destruct (p_usage p) as [[|]|]; reflexivity. }
        apply InvStandard; [|rewrite Ln; exact I|apply forall2_strip]. intro E. rewrite E in Ln. cbn in Ln. lia.
      * apply in_flat_map in I as ([k x] & I & J). apply in_map_iff in J as (v & <- & J). cbn [snd] in J. rewrite Forall_forall in IH.
        apply (IH _ I (W5 _ _ I)) in J as (args & b & h & a & V). exists (k :: args), b, h, a. eapply InvSub; eassumption.
  - intros (args & b & h & a & V). inversion V; subst.
    + left. now left.
    + left. destruct m; [congruence|now left..].
    + right. apply in_map_iff. eexists (_, p). split; [|eassumption]. unfold pod_line. cbn [fst snd]. destruct (p_usage p) as [[|]|]; reflexivity.
    + right. apply in_flat_map. eexists (_, sub). split; [eassumption|]. apply in_map_iff. eexists. split; [reflexivity|]. cbn [snd]. rewrite Forall_forall in IH.
      eapply (IH (_, sub)); [eassumption|eauto|]. eauto.
Qed.

(** ** Registration *)
Definition help_entry (k : pystr) : cmd := Cmd k (lit "Get information about " ++ k) Singleton (Some (CbHelp k)) None [] [] [lit "f://"].
Lemma reg_ok k e s s' : reg k e s = Ok s' -> s_cmds s' = s_cmds s ++ [(k, e)] /\ s_help s' = s_help s ++ [(k, help_entry k)] /\ ~ In k (dkeys (s_cmds s)).
Proof.
  unfold reg. destruct (dhas (s_cmds s) k) eqn:D; [discriminate|]. destruct (dhas (s_help s) k) eqn:D2; [discriminate|]. intro E. apply Ok_inj in E. subst s'. cbn [s_cmds s_help].
  rewrite !dset_app by assumption. split; [reflexivity|]. split; [reflexivity|]. apply dhas_false in D. now apply dget_none.
Qed.
Definition own : list (pystr * option cmd) := [(lit "help", None); (lit "batch", Some batch_cmd); (lit "quit", Some quit_cmd)].
Lemma shell_new_ok : shell_new = Ok (Shell own (map (fun k => (k, help_entry k)) (dkeys own))).
Proof. reflexivity. Qed.
(** a shell with the users' commands cs *)
Definition shell_is (cs : list cmd) (sh : shell) : Prop :=
  s_cmds sh = own ++ map (fun c => (c_txt c, Some c)) cs /\ s_help sh = map (fun k => (k, help_entry k)) (dkeys (s_cmds sh)) /\ NoDup (dkeys (s_cmds sh)).
Lemma own_nodup : NoDup (dkeys own).
Proof. repeat constructor; cbn [dkeys own map fst]; intros X; vm_compute in X; intuition discriminate. Qed.
Lemma register_all_ok cs : forall done s sh, shell_is done s -> register_all cs s = Ok sh -> shell_is (done ++ cs) sh.
Proof.
  induction cs as [|c cs IH]; intros done s sh S E; cbn [register_all] in E.
  - apply Ok_inj in E. subst. now rewrite app_nil_r.
  - unfold bind in E. destruct (register c s) as [s1|] eqn:R; [|discriminate]. replace (done ++ c :: cs) with ((done ++ [c]) ++ cs) by (now rewrite <- app_assoc).
    apply (IH _ s1); [|exact E]. unfold register in R. destruct (has_prefix _ (c_txt c)); [discriminate|]. apply reg_ok in R as (A & B & N). destruct S as (S1 & S2 & S3).
    split; [rewrite A, S1, map_app, <- app_assoc; reflexivity|]. split; [rewrite B, S2, A; unfold dkeys; rewrite !map_app; reflexivity|].
    rewrite A. unfold dkeys in *. rewrite map_app. apply NoDup_snoc; assumption.
Qed.
Lemma shell_made cs s0 sh : shell_new = Ok s0 -> register_all cs s0 = Ok sh -> shell_is cs sh.
Proof.
  intros E R. rewrite shell_new_ok in E. apply Ok_inj in E. subst s0. apply (register_all_ok cs [] _ _) in R; [exact R|]. split; [cbn [map]; now rewrite app_nil_r|]. split; [reflexivity|apply own_nodup].
Qed.
Lemma shell_find cs sh c : shell_is cs sh -> In c cs -> find sh (c_txt c) = Some c.
Proof.
  intros (A & _ & N) I. unfold find. rewrite (in_dget (s_cmds sh) (c_txt c) (Some c) N); [reflexivity|]. rewrite A. apply in_or_app. right. apply in_map_iff. now exists c.
Qed.

(** ** Completion *)
Lemma selection_filter {A} (P : A -> Prop) f ks l : (forall x, P x <-> f x = true) -> selection P ks l -> l = filter f ks.
Proof.
  intro H. induction 1 as [|x ks l Y S IH|x ks l N S IH]; [reflexivity|cbn [filter]..].
  - apply H in Y. now rewrite Y, IH.
  - destruct (f x) eqn:F; [destruct N; now apply H|exact IH].
Qed.
Lemma complete_plain rec ks s : ~ In 32%Z s -> forall i state, i <= state -> complete_keys rec ks s i state = Ok (nth_error (filter (has_prefix s) (map fst ks)) (state - i)).
Proof.
  intro N. induction ks as [|[k c] ks IH]; intros i state L; [cbn [complete_keys map filter]; now destruct (state - i)|]. cbn [complete_keys map fst filter].
  replace (has_prefix (k ++ lit " ") s) with false.
  2:{ symmetry. apply has_prefix_false. intros r ->. apply N. apply in_or_app. left. apply in_or_app. right. now left. }
  destruct (has_prefix s k); [|now apply IH]. destruct (Nat.eqb_spec i state) as [->|D].
  - now rewrite Nat.sub_diag.
  - rewrite IH by lia. replace (state - i) with (S (state - S i)) by lia. reflexivity.
Qed.
Lemma space_split k k' r r' : ~ In 32%Z k -> ~ In 32%Z k' -> k ++ 32%Z :: r = k' ++ 32%Z :: r' -> k = k'.
Proof.
  revert k'. induction k as [|x k IH]; intros [|y k'] N N' E; cbn in *.
  - reflexivity.
  - exfalso. apply N'. left. congruence.
  - exfalso. apply N. left. congruence.
  - injection E as -> E. f_equal. apply IH; [tauto|tauto|exact E].
Qed.
Lemma complete_delegate rec ks k c r state : NoDup (map fst ks) -> (forall k' c', In (k', c') ks -> ~ In 32%Z k') -> In (k, c) ks -> forall i,
  complete_keys rec ks (k ++ lit " " ++ r) i state =
    match rec c r with Ok (Some x) => Ok (Some (k ++ lit " " ++ x)) | Ok None => Raise TypeError | Raise e => Raise e end.
Proof.
  induction ks as [|[k' c'] ks IH]; intros N S I i; [destruct I|]. cbn [complete_keys]. inversion N as [|? ? N1 N2]; subst.
  assert (Sk : ~ In 32%Z k) by (eapply S; exact I).
  destruct (eq_dec k' k) as [->|D].
  - assert (c' = c). { destruct I as [[= ->]|I]; [reflexivity|]. destruct N1. apply in_map_iff. now exists (k, c). } subst c'.
    replace (has_prefix (k ++ lit " ") (k ++ lit " " ++ r)) with true by (symmetry; apply has_prefix_spec; exists r; now rewrite <- app_assoc).
    replace (skipn (List.length k + 1) (k ++ lit " " ++ r)) with r; [reflexivity|].
    rewrite app_assoc, skipn_app. replace (List.length (k ++ lit " ")) with (List.length k + 1) by (rewrite app_length; reflexivity).
    rewrite skipn_all2 by (rewrite app_length; cbn; lia). now rewrite Nat.sub_diag.
  - destruct I as [[= -> _]|I]; [congruence|].
    replace (has_prefix (k' ++ lit " ") (k ++ lit " " ++ r)) with false.
    2:{ symmetry. apply has_prefix_false. intros r' E. rewrite <- app_assoc in E. apply D. symmetry. eapply space_split; [exact Sk|eapply S; now left|exact E]. }
    replace (has_prefix (k ++ lit " " ++ r) k') with false.
    2:{ symmetry. apply has_prefix_false. intros r' E. apply (S k' c'); [now left|]. rewrite E. apply in_or_app. left. apply in_or_app. right. now left. }
    apply IH; [exact N2|intros a b X; apply (S a b); now right|exact I].
Qed.
Lemma complete_keys_ext rec rec' ks s : (forall k c, In (k, c) ks -> has_prefix (k ++ lit " ") s = true -> rec c (skipn (List.length k + 1) s) = rec' c (skipn (List.length k + 1) s)) ->
  forall i state, complete_keys rec ks s i state = complete_keys rec' ks s i state.
Proof.
  induction ks as [|[k c] ks IH]; intros H i state; [reflexivity|]. cbn [complete_keys]. destruct (has_prefix (k ++ lit " ") s) eqn:P; [now rewrite (H k c (or_introl eq_refl) P)|].
  assert (H' : forall i state, complete_keys rec ks s i state = complete_keys rec' ks s i state) by (apply IH; intros k' c' I; apply H; now right).
  destruct (has_prefix s k); [destruct (Nat.eqb i state); [reflexivity|apply H']|apply H'].
Qed.
Lemma complete_fuel files f : forall g c s state, List.length s < f -> List.length s < g -> complete_cmd files f c s state = complete_cmd files g c s state.
Proof.
  induction f as [|f IH]; intros g c s state L L'; [lia|]. destruct g as [|g]; [lia|]. cbn [complete_cmd]. destruct c as [txt help m dcb dh std subs keys]. destruct m; try reflexivity.
  apply complete_keys_ext. intros k c I P. apply has_prefix_spec in P as [r ->].
  assert (List.length (skipn (List.length k + 1) ((k ++ lit " ") ++ r)) < List.length ((k ++ lit " ") ++ r)) by (rewrite skipn_length, !app_length; cbn; lia).
  apply IH; lia.
Qed.

(** ** The input thread *)
Definition queued (js : list job) : list pystr := flat_map (fun j => match j with JLine l => [l] | JLost => [] end) js.

(** where the input loop stands; [hung] if some answer made it wait for ever *)
Inductive stands (hung : bool) : stdio -> Prop :=
| StInput q : hung = false -> stands hung (Stdio TInput true q [] [])
| StLine q l : hung = false -> stands hung (Stdio TWait false q [JLine l] [])
| StReady q : hung = false -> stands hung (Stdio TWait true q [] [])
| StFuture q l : hung = false -> stands hung (Stdio TWait false q [] [l])
| StHung q : hung = true -> stands hung (Stdio TWait false q [] [])
| StEnd get q js fs : (js = [] \/ js = [JLost] \/ exists l, js = [JLine l; JLost]) -> stands hung (Stdio TEnd get q js fs).

(** did the step make it wait for ever? *)
Definition hanging (e : io) (s : stdio) : bool :=
  match e, t_jobs s with IoRun d _, JLine _ :: _ => hangs d | _, _ => false end.

Lemma stands_step e s s1 g hung : stands hung s -> io_step e s = Some (s1, g) -> stands (hung || hanging e s) s1.
Proof.
  intros S E. unfold hanging. destruct S as [q H|q l H|q H|q l H|q H|get q js fs H]; destruct e as [l'|  |d c|l'| |]; cbn [io_step t_pc t_get t_quit t_jobs t_futs] in E; try discriminate; cbn [t_jobs].
  - injection E as <- <-. rewrite orb_false_r. apply StLine. exact H.
  - injection E as <- <-. apply StEnd. right. now left.
  - injection E as <- <-. rewrite orb_false_r. apply StInput. exact H.
  - destruct d as [|i|i|ls|[]]; cbn [answered] in E; injection E as <- <-; cbn [hangs t_pc t_get t_quit t_jobs t_futs app]; subst hung; cbn [orb].
    + apply StReady. reflexivity. + apply StFuture. reflexivity. + apply StHung. reflexivity. + apply StFuture. reflexivity. + apply StHung. reflexivity. + apply StReady. reflexivity.
  - destruct q; [|discriminate]. injection E as <- <-. apply StEnd. right. right. exists l. reflexivity.
  - injection E as <- <-. rewrite orb_false_r. apply StLine. exact H.
  - destruct q; injection E as <- <-; [apply StEnd; right; now left|]. rewrite orb_false_r. apply StInput. exact H.
  - injection E as <- <-. rewrite orb_false_r. apply StReady. exact H.
  - unfold smem in E. destruct (in_dec eq_dec l' [l]) as [[->|[]]|]; [|discriminate]. injection E as <- <-. rewrite orb_false_r.
    cbn [sremove]. destruct (eq_dec l' l') as [_|X]; [|congruence]. apply StReady. exact H.
  - destruct q; [|discriminate]. injection E as <- <-. apply StEnd. right. now left.
  - injection E as <- <-. rewrite orb_false_r. apply StFuture. exact H.
  - destruct q; [|discriminate]. injection E as <- <-. apply StEnd. right. now left.
  - injection E as <- <-. rewrite orb_false_r. apply StHung. exact H.
  - destruct H as [->|[->|[l ->]]]; [discriminate|injection E as <- <-; apply StEnd; now left|].
    destruct d as [|i|i|ls|[]]; cbn [answered] in E; injection E as <- <-; apply StEnd; right; now left.
  - destruct (smem fs l'); [|discriminate]. injection E as <- <-. apply StEnd. exact H.
  - injection E as <- <-. apply StEnd. exact H.
Qed.

(** did any step? *)
Fixpoint any_hang (es : list io) (s : stdio) : bool :=
  match es with
  | [] => false
  | e :: r => match io_step e s with Some (s1, _) => hanging e s || any_hang r s1 | None => false end
  end.
Lemma stands_run es : forall hung s s1 g, stands hung s -> io_run es s = Some (s1, g) -> stands (hung || any_hang es s) s1.
Proof.
  induction es as [|e es IH]; intros hung s s1 g S E; cbn [io_run any_hang] in *; [injection E as <- <-; now rewrite orb_false_r|].
  destruct (io_step e s) as [[u ga]|] eqn:F; [|discriminate]. destruct (io_run es u) as [[v gb]|] eqn:G; [|discriminate]. injection E as <- <-.
  rewrite orb_assoc. eapply IH; [|exact G]. eapply stands_step; eassumption.
Qed.
Lemma stands_new : stands false stdio_new.
Proof. now apply StInput. Qed.

Lemma lines_step e s s1 g : io_step e s = Some (s1, g) -> queued (t_jobs s) ++ typed_lines [e] = run_lines g ++ queued (t_jobs s1).
Proof.
  intro E. unfold queued, typed_lines, run_lines. destruct e as [l'| |d c|l'| |]; cbn [io_step] in E; cbn [flat_map]; rewrite ?app_nil_r.
  - destruct (t_pc s); try discriminate. injection E as <- <-. cbn [t_jobs]. now rewrite flat_map_app.
  - destruct (t_pc s); try discriminate. injection E as <- <-. cbn [t_jobs]. rewrite flat_map_app. cbn. now rewrite app_nil_r.
  - destruct (t_jobs s) as [|[l|] r]; [discriminate| |]; injection E as <- <-; [destruct d as [|i|i|ls|[]]|]; reflexivity.
  - destruct (smem (t_futs s) l'); [|discriminate]. now injection E as <- <-.
  - destruct (t_pc s); try discriminate. destruct (t_quit s); [|destruct (t_get s); [|discriminate]]; injection E as <- <-; cbn [t_jobs]; [rewrite flat_map_app; cbn; now rewrite app_nil_r|reflexivity].
  - now injection E as <- <-.
Qed.
Lemma lines_run es : forall s s1 g, io_run es s = Some (s1, g) -> queued (t_jobs s) ++ typed_lines es = run_lines g ++ queued (t_jobs s1).
Proof.
  induction es as [|e es IH]; intros s s1 g E; cbn [io_run] in E; [injection E as <- <-; cbn; now rewrite app_nil_r|].
  destruct (io_step e s) as [[u ga]|] eqn:F; [|discriminate]. destruct (io_run es u) as [[v gb]|] eqn:G; [|discriminate]. injection E as <- <-.
  pose proof (lines_step _ _ _ _ F) as A. pose proof (IH _ _ _ G) as B.
  unfold typed_lines, run_lines in *. rewrite flat_map_app, <- app_assoc, <- B, app_assoc, <- A. cbn [flat_map]. rewrite <- app_assoc, app_nil_r. reflexivity.
Qed.
Lemma io_run_app es1 : forall es2 s s2 g, io_run (es1 ++ es2) s = Some (s2, g) <-> exists s1 g1 g2, io_run es1 s = Some (s1, g1) /\ io_run es2 s1 = Some (s2, g2) /\ g = g1 ++ g2.
Proof.
  induction es1 as [|e es1 IH]; intros es2 s s2 g; cbn [app io_run].
  - split; [intro E; now exists s, [], g|intros (s1 & g1 & g2 & [= <- <-] & E & ->); exact E].
  - destruct (io_step e s) as [[u ga]|]; [|split; [discriminate|intros (? & ? & ? & ? & _); discriminate]]. split.
    + intro E. destruct (io_run (es1 ++ es2) u) as [[v gb]|] eqn:G; [|discriminate]. injection E as <- <-. apply IH in G as (s1 & g1 & g2 & A & B & ->). rewrite A.
      exists s1, (ga ++ g1), g2. now rewrite <- app_assoc.
    + intros (s1 & g1 & g2 & A & B & ->). destruct (io_run es1 u) as [[v gb]|] eqn:G; [|discriminate]. injection A as <- <-.
      assert (X : io_run (es1 ++ es2) u = Some (s2, gb ++ g2)) by (apply IH; now exists v, gb, g2). rewrite X, app_assoc. reflexivity.
Qed.

Lemma good_no_hang es : (forall d c, In (IoRun d c) es -> hangs d = false) -> forall s, any_hang es s = false.
Proof.
  induction es as [|e es IH]; intros H s; [reflexivity|]. cbn [any_hang]. destruct (io_step e s) as [[u g]|]; [|reflexivity].
  rewrite IH by (intros d c I; apply (H d c); now right). unfold hanging. destruct e as [l| |d c|l| |]; try reflexivity.
  rewrite (H d c (or_introl eq_refl)). destruct (t_jobs s) as [|[]]; reflexivity.
Qed.
Lemma typed_cons e es : typed_lines (e :: es) = typed_lines [e] ++ typed_lines es.
Proof. unfold typed_lines. cbn [flat_map]. now rewrite app_nil_r. Qed.
Lemma In_firstn {A} (x : A) n l : In x (firstn n l) -> In x l.
Proof. intro I. rewrite <- (firstn_skipn n l). apply in_or_app. now left. Qed.
Lemma no_lines_hung es : forall s s1 g, stands true s -> io_run es s = Some (s1, g) -> typed_lines es = [].
Proof.
  induction es as [|e es IH]; intros s s1 g S E; [reflexivity|]. cbn [io_run] in E.
  destruct (io_step e s) as [[u ga]|] eqn:F; [|discriminate]. destruct (io_run es u) as [[v gb]|] eqn:G; [|discriminate].
  pose proof (stands_step _ _ _ _ _ S F) as S'. cbn [orb] in S'. rewrite typed_cons. rewrite (IH _ _ _ S' G), app_nil_r.
  destruct e as [l| |d c|l| |]; try reflexivity. exfalso. cbn [io_step] in F. inversion S; subst; try discriminate.
Qed.
Lemma quit_step e s s1 g : t_quit s = true -> io_step e s = Some (s1, g) -> t_quit s1 = true.
Proof.
  intros Q E. destruct e as [l'| |d c|l'| |]; cbn [io_step] in E.
  - destruct (t_pc s); try discriminate. now injection E as <- <-.
  - destruct (t_pc s); try discriminate. now injection E as <- <-.
  - destruct (t_jobs s) as [|[l|] r]; [discriminate| |now injection E as <- <-]. destruct d as [|i|i|ls|[]]; injection E as <- <-; cbn [answered t_quit]; now rewrite Q.
  - destruct (smem (t_futs s) l'); [|discriminate]. now injection E as <- <-.
  - destruct (t_pc s); try discriminate. rewrite Q in E. now injection E as <- <-.
  - now injection E as <- <-.
Qed.
Lemma quit_lines es : forall s s1 g, t_quit s = true -> io_run es s = Some (s1, g) -> List.length (typed_lines es) <= match t_pc s with TInput => 1 | _ => 0 end.
Proof.
  induction es as [|e es IH]; intros s s1 g Q E; [cbn; lia|]. cbn [io_run] in E.
  destruct (io_step e s) as [[u ga]|] eqn:F; [|discriminate]. destruct (io_run es u) as [[v gb]|] eqn:G; [|discriminate].
  pose proof (IH _ _ _ (quit_step _ _ _ _ Q F) G) as L. rewrite typed_cons. rewrite app_length.
  destruct e as [l'| |d c|l'| |]; cbn [io_step] in F; cbn [typed_lines flat_map app List.length] in *.
  - destruct (t_pc s); try discriminate. injection F as <- <-. cbn [t_pc] in L. lia.
  - destruct (t_pc s); try discriminate. injection F as <- <-. cbn [t_pc] in L. lia.
  - destruct (t_jobs s) as [|[l|] r]; [discriminate| |injection F as <- <-; exact L]. destruct d as [|i|i|ls|[]]; injection F as <- <-; exact L.
  - destruct (smem (t_futs s) l'); [|discriminate]. injection F as <- <-. exact L.
  - destruct (t_pc s); try discriminate. rewrite Q in F. injection F as <- <-. exact L.
  - injection F as <- <-. exact L.
Qed.

(** connection_lost *)
Definition lost_jobs (js : list job) : nat := List.length (filter (fun j => match j with JLost => true | _ => false end) js).
Definition ended (s : stdio) : nat := match t_pc s with TEnd => 1 | _ => 0 end.
Lemma lost_app g g' : lost_count (g ++ g') = lost_count g + lost_count g'.
Proof. induction g as [|[l|l|] g IH]; cbn [app lost_count]; lia. Qed.
Lemma lost_jobs_app a b : lost_jobs (a ++ b) = lost_jobs a + lost_jobs b.
Proof. unfold lost_jobs. now rewrite filter_app, app_length. Qed.
Lemma lost_step e s s1 g : io_step e s = Some (s1, g) -> lost_count g + lost_jobs (t_jobs s1) + ended s = lost_jobs (t_jobs s) + ended s1.
Proof.
  intro E. unfold ended. destruct e as [l'| |d c|l'| |]; cbn [io_step] in E.
  - destruct (t_pc s); try discriminate. injection E as <- <-. cbn [t_jobs t_pc lost_count]. rewrite lost_jobs_app. cbn. lia.
  - destruct (t_pc s); try discriminate. injection E as <- <-. cbn [t_jobs t_pc lost_count]. rewrite lost_jobs_app. cbn. lia.
  - destruct (t_jobs s) as [|[l|] r]; [discriminate| |injection E as <- <-; cbn; lia]. destruct d as [|i|i|ls|[]]; injection E as <- <-; cbn; lia.
  - destruct (smem (t_futs s) l'); [|discriminate]. injection E as <- <-. cbn [t_jobs t_pc lost_count]. lia.
  - destruct (t_pc s); try discriminate. destruct (t_quit s); [|destruct (t_get s); [|discriminate]]; injection E as <- <-; cbn [t_jobs t_pc lost_count]; [rewrite lost_jobs_app; cbn; lia|lia].
  - injection E as <- <-. cbn [t_jobs t_pc lost_count]. lia.
Qed.
Lemma lost_run es : forall s s1 g, io_run es s = Some (s1, g) -> lost_count g + lost_jobs (t_jobs s1) + ended s = lost_jobs (t_jobs s) + ended s1.
Proof.
  induction es as [|e es IH]; intros s s1 g E; cbn [io_run] in E; [injection E as <- <-; cbn; lia|].
  destruct (io_step e s) as [[u ga]|] eqn:F; [|discriminate]. destruct (io_run es u) as [[v gb]|] eqn:G; [|discriminate]. injection E as <- <-.
  pose proof (lost_step _ _ _ _ F). pose proof (IH _ _ _ G). rewrite lost_app. lia.
Qed.
Lemma over_run es : forall s s1 g, t_pc s = TEnd -> t_jobs s = [] -> io_run es s = Some (s1, g) -> run_lines g = [].
Proof.
  induction es as [|e es IH]; intros s s1 g P J E; cbn [io_run] in E; [now injection E as <- <-|].
  destruct (io_step e s) as [[u ga]|] eqn:F; [|discriminate]. destruct (io_run es u) as [[v gb]|] eqn:G; [|discriminate]. injection E as <- <-.
  enough (t_pc u = TEnd /\ t_jobs u = [] /\ run_lines ga = []) as (A & B & C) by (unfold run_lines in *; rewrite flat_map_app, C; exact (IH _ _ _ A B G)).
  destruct e as [l'| |d c|l'| |]; cbn [io_step] in F; rewrite ?P, ?J in F; try discriminate.
  - destruct (smem (t_futs s) l'); [|discriminate]. now injection F as <- <-.
  - now injection F as <- <-.
Qed.
Lemma after_lost es : forall h s s1 g1 g2, stands h s -> io_run es s = Some (s1, g1 ++ GLost :: g2) -> run_lines g2 = [].
Proof.
  induction es as [|e es IH]; intros h s s1 g1 g2 S E; cbn [io_run] in E; [destruct g1; discriminate|].
  destruct (io_step e s) as [[u ga]|] eqn:F; [|discriminate]. destruct (io_run es u) as [[v gb]|] eqn:G; [|discriminate].
  pose proof (stands_step _ _ _ _ _ S F) as S'. assert (X : ga ++ gb = g1 ++ GLost :: g2) by congruence. clear E.
  assert (C : ga = [] \/ exists x, ga = [x] /\ (x = GLost -> t_pc u = TEnd /\ t_jobs u = [])).
  { destruct e as [l'| |d c|l'| |]; cbn [io_step] in F.
    - destruct (t_pc s); try discriminate. injection F as <- <-. now left.
    - destruct (t_pc s); try discriminate. injection F as <- <-. now left.
    - right. destruct (t_jobs s) as [|[l|] r] eqn:J; [discriminate| |].
      + exists (GLine l). split; [destruct d as [|i|i|ls|[]]; now injection F as <- <-|discriminate].
      + injection F as <- <-. exists GLost. split; [reflexivity|]. intros _. inversion S as [q H|q l H|q H|q l H|q H|get q js fs H]; subst s; cbn [t_jobs t_pc] in *; try discriminate.
        split; [reflexivity|]. destruct H as [->|[->|[l ->]]]; try discriminate. now injection J as <-.
    - destruct (smem (t_futs s) l'); [|discriminate]. injection F as <- <-. right. exists (GFut l'). split; [reflexivity|discriminate].
    - destruct (t_pc s); try discriminate. destruct (t_quit s); [|destruct (t_get s); [|discriminate]]; injection F as <- <-; now left.
    - injection F as <- <-. now left. }
  destruct C as [->|(x & -> & C)]; cbn [app] in X; [subst gb; eapply IH; eassumption|].
  destruct g1 as [|y g1]; cbn [app] in X.
  - injection X as -> ->. destruct (C eq_refl) as [A B]. exact (over_run _ _ _ _ A B G).
  - injection X as -> ->. eapply IH; eassumption.
Qed.

(** progress *)
Lemma not_stuck s : stands false s -> t_pc s = TWait -> exists e, loop_event e /\ io_step e s <> None.
Proof.
  intros S P. inversion S as [q H|q l H|q H|q l H|q H|get q js fs H]; subst s; cbn [t_pc] in P; try discriminate.
  - exists (IoRun RNone false). split; [exact I|discriminate].
  - exists IoWake. split; [exact I|]. cbn. destruct q; discriminate.
  - exists (IoFut l). split; [exact I|]. cbn. unfold smem. destruct (in_dec eq_dec l [l]); [discriminate|]. exfalso. apply n. now left.
Qed.
Definition rank (s : stdio) : nat :=
  match t_pc s with TWait => (if t_get s then 1 else 0) + (2 * List.length (t_futs s)) + (3 * List.length (t_jobs s)) | _ => 0 end.
Lemma rank_step e s s1 g : stands false s -> loop_event e -> io_step e s = Some (s1, g) -> t_pc s = TWait -> t_pc s1 = TWait -> rank s1 < rank s.
Proof.
  intros S L E P P1. inversion S as [q H|q l H|q H|q l H|q H|get q js fs H]; subst s; cbn [t_pc] in P; try discriminate;
    destruct e as [l'| |d c|l'| |]; cbn [loop_event] in L; try contradiction; cbn [io_step t_pc t_get t_quit t_jobs t_futs] in E; try discriminate.
  - destruct d as [|i|i|ls|[]]; cbn [answered] in E; injection E as <- <-; cbn; lia.
  - destruct q; [|discriminate]. injection E as <- <-. discriminate.
  - destruct q; injection E as <- <-; discriminate.
  - unfold smem in E. destruct (in_dec eq_dec l' [l]) as [[->|[]]|]; [|discriminate]. injection E as <- <-. cbn [sremove]. destruct (eq_dec l' l') as [_|X]; [|congruence]. cbn. lia.
  - destruct q; [|discriminate]. injection E as <- <-. discriminate.
Qed.
Lemma rank_run es : forall s s1 g, stands false s -> Forall loop_event es -> (forall d c, In (IoRun d c) es -> hangs d = false) -> io_run es s = Some (s1, g) ->
  (forall n s2 g2, n <= List.length es -> io_run (firstn n es) s = Some (s2, g2) -> t_pc s2 = TWait) -> List.length es + rank s1 <= rank s.
Proof.
  induction es as [|e es IH]; intros s s1 g S L H E W; cbn [io_run] in E; [injection E as <- <-; cbn; lia|].
  destruct (io_step e s) as [[u ga]|] eqn:F; [|discriminate]. destruct (io_run es u) as [[v gb]|] eqn:G; [|discriminate]. injection E as <- <-.
  inversion L as [|? ? L1 L2]; subst. pose proof (W 0 s [] ltac:(lia) eq_refl) as P. assert (P1 : t_pc u = TWait).
  { apply (W 1 u (ga ++ [])); [cbn; lia|]. cbn [firstn io_run]. now rewrite F. }
  pose proof (rank_step _ _ _ _ S L1 F P P1). pose proof (stands_step _ _ _ _ _ S F) as S'.
  replace (hanging e s) with false in S'.
  2:{ symmetry. unfold hanging. destruct e as [l| |d c|l| |]; try reflexivity. rewrite (H d c (or_introl eq_refl)). destruct (t_jobs s) as [|[]]; reflexivity. }
  cbn [orb] in S'. cbn [List.length]. enough (List.length es + rank v <= rank u) by lia. eapply IH; [exact S'|exact L2| |exact G|].
  - intros d c I. apply (H d c). now right.
  - intros n s2 g2 Ln R. apply (W (1 + n) s2 (ga ++ g2)); [cbn; lia|]. cbn [Nat.add firstn io_run]. now rewrite F, R.
Qed.
Lemma rank_small s : stands false s -> rank s <= 3.
Proof. intro S. inversion S; subst s; cbn; lia. Qed.
