(** * C73: what a log record says *)
From Coq Require Import String.
From Coq Require Import List ZArith Bool Lia.
From Verif Require Import PyBase FmtModel FmtSpec FmtProofs.
Import ListNotations.
Open Scope nat_scope.

(** C73.  A record without special data says, at each of the handlers, its
    message as it is if it has no arguments; and the message read with its
    arguments if it has some, or nothing (TypeError) if the numbers differ. *)
Theorem C73_plain {X} (cv : pystr -> option (X -> res pystr)) self whole n m : handled cv self whole n (Rec m (ATuple []) None) = repeat (Done m) n.
Proof. induction n as [|n IH]; [reflexivity|]. cbn [handled format r_special]. now rewrite IH. Qed.
Print Assumptions C73_plain.
Theorem C73_positional {X} (cv : pystr -> option (X -> res pystr)) self whole n ps l : Forall piece_ok ps -> Forall unnamed ps -> l <> [] ->
  handled cv self whole n (Rec (writes ps) (ATuple l) None) =
  repeat (match reads (fun _ => None) l ps with Some t => Done t | None => Err TypeError end) n.
Proof.
  intros O U N. induction n as [|n IH]; [reflexivity|]. cbn [handled format r_special]. rewrite IH. cbn [repeat]. f_equal.
  unfold get_message. cbn [r_msg r_args]. destruct l as [|v l]; [congruence|]. cbn [has_args]. apply pct_tuple; assumption.
Qed.
Print Assumptions C73_positional.
Theorem C73_named {X} (cv : pystr -> option (X -> res pystr)) self whole n ps d t : Forall piece_ok ps -> Forall unplaced ps -> d <> [] ->
  reads (dget d) [] ps = Some t -> handled cv self whole n (Rec (writes ps) (AMap d) None) = repeat (Done t) n.
Proof.
  intros O U N R. induction n as [|n IH]; [reflexivity|]. cbn [handled format r_special]. rewrite IH. cbn [repeat]. f_equal.
  unfold get_message. cbn [r_msg r_args]. destruct d as [|v d]; [congruence|]. cbn [has_args]. apply (pct_map _ (dget (v :: d))); try assumption.
  intros k x _ Q. unfold dget_e. now rewrite Q.
Qed.
Print Assumptions C73_named.
(** a key that is not among the arguments: nothing *)
Theorem C73_named_missing {X} (cv : pystr -> option (X -> res pystr)) self whole n ps d k : Forall piece_ok ps -> Forall unplaced ps -> d <> [] ->
  In (Named k) ps -> dget d k = None -> handled cv self whole n (Rec (writes ps) (AMap d) None) = repeat (Err KeyError) n.
Proof.
  intros O U N H M. induction n as [|n IH]; [reflexivity|]. cbn [handled format r_special]. rewrite IH. cbn [repeat]. f_equal.
  unfold get_message. cbn [r_msg r_args]. destruct d as [|v d]; [congruence|]. cbn [has_args]. apply (pct_missing _ _ k); try assumption.
  - intros j. eexists. split; [reflexivity|]. intros e. unfold dget_e. destruct (dget (v :: d) j); congruence.
  - unfold dget_e. rewrite M. eauto.
Qed.
Print Assumptions C73_named_missing.

(** C73.  A record with special data: every handler, however many, shows the
    message with each special key replaced by what its converter says, and each
    other key by the record's argument, or by itself if the record has none.
    This needs converters that write no percent sign, and a message of plain
    text and keys only. *)
Theorem C73_special {X} (cv : pystr -> option (X -> res pystr)) self whole n ps a data f t :
  converts cv data f -> (forall k v, f k = Some v -> no_percent v) -> Forall piece_ok ps -> Forall keyed ps ->
  reads (either f (match a with AMap (e :: d) => dget (e :: d) | _ => itself end)) [] ps = Some t ->
  (forall v l, a <> ATuple (v :: l)) ->
  handled cv self whole n (Rec (writes ps) a (Some data)) = repeat (Done t) n.
Proof.
  intros C N O K R A. destruct (convert_ok cv data f C) as (d & Hd & G).
  set (qs := map (fill f) ps). assert (Oq : Forall piece_ok qs) by (apply fill_ok; assumption). assert (Kq : Forall keyed qs) by (apply fill_keyed; assumption).
  assert (E1 : pct (Some (partial d)) (SOne self) Text (writes ps) = Done (writes qs)).
  { apply (pct_map _ (either f itself)); [exact O|now apply keyed_unplaced|intros k v _; now apply partial_either|].
    rewrite reads_either by exact K. fold qs. now apply reads_itself. }
  assert (E2 : pct (Some (partial d)) (SOne self) Text (writes qs) = Done (writes qs)).
  { apply (pct_map _ (either f itself)); [exact Oq|now apply keyed_unplaced|intros k v _; now apply partial_either|].
    apply fill_none; [exact Kq|]. intros k. now apply filled_none. }
  assert (E3 : get_message whole (writes qs) a = Done t).
  { rewrite reads_either in R by exact K. fold qs in R. unfold get_message.
    assert (I : reads itself [] qs = Some t -> Done (writes qs) = Done t) by (rewrite reads_itself by exact Kq; congruence).
    destruct a as [[|v l]|[|e l]]; cbn [has_args].
    - auto.
    - now destruct (A v l).
    - auto.
    - apply (pct_map _ (dget (e :: l))); [exact Oq|now apply keyed_unplaced| |exact R]. intros k x _ Q. unfold dget_e. now rewrite Q. }
  assert (H : forall n, handled cv self whole n (Rec (writes qs) a (Some data)) = repeat (Done t) n).
  { clear n. induction n as [|n IH]; [reflexivity|]. cbn [handled format r_special r_msg r_args]. rewrite Hd, E2, E3. cbn [repeat]. now rewrite IH. }
  destruct n as [|n]; [reflexivity|]. cbn [handled format r_special r_msg r_args]. rewrite Hd, E1, E3. cbn [repeat]. now rewrite H.
Qed.
Print Assumptions C73_special.

(** C73.  With one handler and no arguments, converters may write anything, and
    the message may double its percent signs. *)
Theorem C73_special_once {X} (cv : pystr -> option (X -> res pystr)) self whole ps data f t :
  converts cv data f -> Forall piece_ok ps -> Forall unplaced ps -> reads (either f itself) [] ps = Some t ->
  handled cv self whole 1 (Rec (writes ps) (ATuple []) (Some data)) = [Done t].
Proof.
  intros C O U R. destruct (convert_ok cv data f C) as (d & Hd & G). cbn [handled format r_special r_msg r_args]. rewrite Hd.
  rewrite (pct_map _ (either f itself) ps O U (SOne self) t) by (try exact R; intros k v _; now apply partial_either). reflexivity.
Qed.
Print Assumptions C73_special_once.

(** C73, refuted: the handlers of one record show the same text.  The first
    changes the record's message.  After a doubled percent sign the second
    fails; and text of a converter is taken for format by the second handler
    ([k] is again a special key: its text is shown in its place). *)
Theorem C73_second_handler_refuted {X} (cv : pystr -> option (X -> res pystr)) self whole data f s n :
  converts cv data f -> no_percent s ->
  handled cv self whole (S n) (Rec (writes [Plain s; Twice]) (ATuple []) (Some data)) = Done (s ++ [37%Z]) :: repeat (Err ValueError) n.
Proof.
  intros C S. destruct (convert_ok cv data f C) as (d & Hd & G). cbn [handled format r_special r_msg r_args]. rewrite Hd.
  assert (E : pct (Some (partial d)) (SOne self) Text (writes [Plain s; Twice]) = Done (s ++ [37%Z])).
  { unfold writes. cbn [map concat written]. rewrite app_nil_r, pct_plain by exact S. reflexivity. }
  rewrite E. f_equal. clear E.
  assert (E : pct (Some (partial d)) (SOne self) Text (s ++ [37%Z]) = Err ValueError) by (rewrite pct_plain by exact S; reflexivity).
  induction n as [|n IH]; [reflexivity|]. cbn [handled format r_special r_msg r_args]. rewrite Hd, E. cbn [repeat]. f_equal. exact IH.
Qed.
Print Assumptions C73_second_handler_refuted.

(** C73, refuted: what a converter writes is shown as it is.  If the record has
    arguments, it is read as a format: data that hold "%(j)s" are shown as the
    argument j, and data that end in a percent sign lose the record. *)
Theorem C73_injection_refuted {X} (cv : pystr -> option (X -> res pystr)) self whole data f k j e v : converts cv data f -> simple k -> simple j ->
  e <> [] -> dget e j = Some v ->
  (f k = Some (writes [Named j]) -> handled cv self whole 1 (Rec (writes [Named k]) (AMap e) (Some data)) = [Done v]) /\
  (f k = Some [37%Z] -> handled cv self whole 1 (Rec (writes [Named k]) (AMap e) (Some data)) = [Err ValueError]).
Proof.
  intros C K J E V. destruct (convert_ok cv data f C) as (d & Hd & G).
  assert (P : forall x, f k = Some x -> pct (Some (partial d)) (SOne self) Text (writes [Named k]) = Done x).
  { intros x Fx. unfold writes. cbn [map concat]. rewrite pct_named by exact K. unfold partial. rewrite G, Fx. cbn. now rewrite app_nil_r. }
  destruct e as [|p e]; [congruence|]. split; intros Fk; cbn [handled format r_special r_msg r_args]; rewrite Hd, (P _ Fk); unfold get_message; cbn [has_args].
  - unfold writes. cbn [map concat]. rewrite pct_named by exact J. unfold dget_e. rewrite V. cbn. now rewrite app_nil_r.
  - reflexivity.
Qed.
Print Assumptions C73_injection_refuted.

(** C73, refuted: special data go with positional arguments.  Such a record is
    lost at every handler: the place takes the text of an internal object, and
    the argument is left over. *)
Theorem C73_positional_refuted {X} (cv : pystr -> option (X -> res pystr)) self whole data f s r v n : converts cv data f -> no_percent self -> no_percent s -> no_percent r ->
  handled cv self whole n (Rec (writes [Plain s; Here; Plain r]) (ATuple [v]) (Some data)) = repeat (Err TypeError) n.
Proof.
  intros C S1 S2 S3. destruct (convert_ok cv data f C) as (d & Hd & G).
  assert (S4 : no_percent (s ++ self ++ r)) by (intros H; apply in_app_iff in H as [H|H]; [now apply S2|apply in_app_iff in H as [H|H]; [now apply S1|now apply S3]]).
  assert (E0 : forall D src x, no_percent x -> pct D src Text x = pre x (pct D src Text [])) by (intros D src x H; rewrite <- (app_nil_r x) at 1; now apply pct_plain).
  assert (E1 : pct (Some (partial d)) (SOne self) Text (writes [Plain s; Here; Plain r]) = Done (s ++ self ++ r)).
  { unfold writes. cbn [map concat]. change (written (Plain s)) with s. rewrite pct_plain by exact S2. rewrite pct_here. cbn [next]. cbn [written]. rewrite app_nil_r, E0 by exact S3. cbn. now rewrite app_nil_r. }
  assert (E2 : pct (Some (partial d)) (SOne self) Text (s ++ self ++ r) = Done (s ++ self ++ r)) by (rewrite E0 by exact S4; cbn; now rewrite app_nil_r).
  assert (E3 : get_message whole (s ++ self ++ r) (ATuple [v]) = Err TypeError) by (unfold get_message; cbn [has_args]; rewrite E0 by exact S4; reflexivity).
  assert (H : forall n, handled cv self whole n (Rec (s ++ self ++ r) (ATuple [v]) (Some data)) = repeat (Err TypeError) n).
  { clear n. induction n as [|n IH]; [reflexivity|]. cbn [handled format r_special r_msg r_args]. rewrite Hd, E2, E3. cbn [repeat]. now rewrite IH. }
  destruct n as [|n]; [reflexivity|]. cbn [handled format r_special r_msg r_args]. rewrite Hd, E1, E3. cbn [repeat]. now rewrite H.
Qed.
Print Assumptions C73_positional_refuted.

(** C73, refuted: special data are looked at when the message asks for them.
    Data under a key without a converter lose the record at every handler,
    whatever the message says. *)
Theorem C73_no_converter_refuted {X} (cv : pystr -> option (X -> res pystr)) self whole data m a k x n : In (k, x) data -> cv k = None ->
  (forall k x g, In (k, x) data -> cv k = Some g -> exists v, g x = Ok v) ->
  handled cv self whole n (Rec m a (Some data)) = repeat (Err KeyError) n.
Proof.
  intros H N V. pose proof (convert_missing cv data k x H N V) as E. induction n as [|n IH]; [reflexivity|]. cbn [handled format r_special]. rewrite E. cbn [repeat]. now rewrite IH.
Qed.
Print Assumptions C73_no_converter_refuted.

(** ** Examples: converters of numbers (in decimal) and of texts (as they are) *)
Definition ex_cv (k : pystr) : option (Z -> res pystr) :=
  if eqb k (lit "num") then Some (fun z => Ok (print_int z)) else if eqb k (lit "odd") then Some (fun z => if Z.eqb z 0 then Ok (lit "%(who)s") else Ok (lit "%")) else None.
Definition ex_f (x : Z) (k : pystr) : option pystr := if eqb k (lit "num") then Some (print_int x) else None.
Example C73_ex_converts x : converts ex_cv [(lit "num", x)] (ex_f x).
Proof.
  split.
  - intros k y [[= <- <-]|[]]. exists (fun z => Ok (print_int z)), (print_int x). repeat split.
  - intros k H. unfold ex_f in H. unfold eqb in H. destruct (eq_dec k (lit "num")) as [->|N]; [now left|congruence].
Qed.
Definition ex_ps := [Plain (lit "got "); Named (lit "num"); Plain (lit " from "); Named (lit "who")].
Example C73_ex_special :
  writes ex_ps = lit "got %(num)s from %(who)s" /\ Forall piece_ok ex_ps /\ Forall keyed ex_ps /\ no_percent (print_int 42) /\
  reads (either (ex_f 42) (dget [(lit "who", lit "me")])) [] ex_ps = Some (lit "got 42 from me") /\
  handled ex_cv (lit "<c>") (lit "{}") 2 (Rec (writes ex_ps) (AMap [(lit "who", lit "me")]) (Some [(lit "num", 42%Z)])) = [Done (lit "got 42 from me"); Done (lit "got 42 from me")] /\
  handled ex_cv (lit "<c>") (lit "{}") 2 (Rec (writes ex_ps) (ATuple []) (Some [(lit "num", 42%Z)])) = [Done (lit "got 42 from %(who)s"); Done (lit "got 42 from %(who)s")].
Proof.
  split; [vm_compute; reflexivity|]. split; [|split; [repeat constructor|split; [|vm_compute; repeat split]]].
  - repeat constructor; intros H; vm_compute in H; repeat (destruct H as [H|H]; [discriminate|]); exact H.
  - intros H. vm_compute in H. repeat (destruct H as [H|H]; [discriminate|]). exact H.
Qed.
Example C73_ex_positional : handled ex_cv (lit "<c>") (lit "{}") 2 (Rec (lit "%s is 100%% of %s") (ATuple [lit "a"; lit "b"]) None) = [Done (lit "a is 100% of b"); Done (lit "a is 100% of b")] /\
  handled ex_cv (lit "<c>") (lit "{}") 1 (Rec (lit "%s and %s") (ATuple [lit "a"]) None) = [Err TypeError] /\
  handled ex_cv (lit "<c>") (lit "{}") 1 (Rec (lit "100% of") (ATuple []) None) = [Done (lit "100% of")].
Proof. vm_compute. repeat split. Qed.
Example C73_ex_refuted :
  handled ex_cv (lit "<c>") (lit "{}") 2 (Rec (lit "%(num)s%%") (ATuple []) (Some [(lit "num", 7%Z)])) = [Done (lit "7%"); Err ValueError] /\
  handled ex_cv (lit "<c>") (lit "{}") 1 (Rec (lit "%(odd)s") (AMap [(lit "who", lit "me")]) (Some [(lit "odd", 0%Z)])) = [Done (lit "me")] /\
  handled ex_cv (lit "<c>") (lit "{}") 1 (Rec (lit "%(odd)s") (AMap [(lit "who", lit "me")]) (Some [(lit "odd", 1%Z)])) = [Err ValueError] /\
  handled ex_cv (lit "<c>") (lit "{}") 1 (Rec (lit "%(num)s %s") (ATuple [lit "a"]) (Some [(lit "num", 7%Z)])) = [Err TypeError] /\
  handled ex_cv (lit "<c>") (lit "{}") 1 (Rec (lit "hello") (ATuple []) (Some [(lit "other", 7%Z)])) = [Err KeyError].
Proof. vm_compute. repeat split. Qed.
