(** * Reading the status file, and ps's output *)
From Coq Require Import String.
From Coq Require Import List ZArith Bool Lia.
From Verif Require Import PyBase PyLemmas PnmsModel ConnSvcModel ConnSvcProofs ProcModel ProcSpec.
Import ListNotations.
Open Scope Z_scope.

Lemma lower_eq s : lower s = map ascii_lower s. Proof. reflexivity. Qed.
(** a text that lacks the separator lies on one side of it *)
Lemma contains_sep c p a b : ~ In c p -> contains p (a ++ c :: b) = contains p a || contains p b.
Proof.
  intro N. destruct (contains p a || contains p b) eqn:E.
  - apply contains_spec. apply orb_true_iff in E as [E|E]; apply contains_spec in E as (f & h & ->); [exists f, (h ++ c :: b); now rewrite <- !app_assoc|exists (a ++ c :: f), h; now rewrite <- !app_assoc].
  - apply orb_false_iff in E as [Ea Eb]. destruct (contains p (a ++ c :: b)) eqn:C; [|reflexivity]. exfalso. apply contains_spec in C as (f & h & C).
    assert (Pa : ~ exists f h, a = f ++ p ++ h) by (intro X; apply contains_spec in X; congruence). assert (Pb : ~ exists f h, b = f ++ p ++ h) by (intro X; apply contains_spec in X; congruence).
    apply app_eq_app in C as (l & [[-> C]|[-> C]]).
    + symmetry in C. apply app_eq_app in C as (m & [[-> C]|[-> C]]).
      * apply Pa. exists f, m. reflexivity.
      * destruct m as [|y m]; [apply Pa; exists f, []; now rewrite !app_nil_r|]. cbn in C. injection C as <- C. apply N. apply in_or_app. right. now left.
    + destruct l as [|y l].
      * destruct p as [|y p]; [apply Pa; exists a, []; now rewrite app_nil_r|]. cbn in C. injection C as <- C. apply N. now left.
      * cbn in C. injection C as <- C. apply Pb. eauto.
Qed.
Lemma contains_in p a : contains p a = true -> forall c, In c p -> In c a.
Proof. intros C c X. apply contains_spec in C as (f & h & ->). apply in_or_app. right. apply in_or_app. now left. Qed.
Lemma contains_prefix p a k : contains p a = false -> contains p (firstn k a) = false.
Proof. intro C. destruct (contains p (firstn k a)) eqn:E; [|reflexivity]. apply contains_spec in E as (f & h & E). assert (contains p a = true); [|congruence]. apply contains_spec. exists f, (h ++ skipn k a). rewrite <- (firstn_skipn k a) at 1. now rewrite E, <- !app_assoc. Qed.
Lemma contains_suffix p q a : contains (p ++ q) a = true -> contains q a = true.
Proof. intro C. apply contains_spec in C as (f & h & ->). apply contains_spec. exists (f ++ p), h. now rewrite <- !app_assoc. Qed.
Lemma lower_digits z : lower (print_int z) = print_int z.
Proof.
  unfold lower. rewrite <- (map_id (print_int z)) at 2. apply map_ext_in. intros c X. pose proof (print_int_chars z) as P. rewrite Forall_forall in P. destruct (P c X) as [Y| ->]; [|reflexivity]. destruct (65 <=? c) eqn:E; [apply Z.leb_le in E; lia|reflexivity].
Qed.
Notation word := (lit "connected").
Lemma digits_clean z : contains word (lower (print_int z)) = false.
Proof. rewrite lower_digits. destruct (contains word (print_int z)) eqn:E; [|reflexivity]. exfalso. apply (print_int_no 99 z); [discriminate|lia|]. apply (contains_in _ _ E). now left. Qed.

Section Text.
Variables (port : Z) (ip : pystr) (sp : Z).
Hypothesis clean : without "connected" ip.
Let head := print_int port ++ 10 :: ip ++ 58 :: print_int sp.
Lemma text_head s : status_text port ip sp s = head ++ 10 :: status_word s.
Proof. unfold status_text, head. rewrite <- !app_assoc. cbn. now rewrite <- !app_assoc. Qed.
Lemma ip_clean : contains word (lower ip) = false.
Proof. destruct (contains word (lower ip)) eqn:E; [|reflexivity]. apply contains_spec in E as (f & h & E). now apply clean in E. Qed.
Lemma no_char c : c <> 99 -> c <> 111 -> c <> 110 -> c <> 101 -> c <> 116 -> c <> 100 -> ~ In c word.
Proof. cbn. intuition. Qed.
Lemma head_clean : contains word (lower head) = false.
Proof.
  unfold head, lower. rewrite !map_app. cbn [map]. rewrite map_app. cbn [map]. rewrite !contains_sep by (apply no_char; discriminate). fold (lower (print_int port)) (lower ip) (lower (print_int sp)). now rewrite !digits_clean, ip_clean.
Qed.
Lemma torn s k : connection_status (firstn k (status_text port ip sp s)) = lit "Unknown" \/ connection_status (firstn k (status_text port ip sp s)) = match s with Connected => lit "Live" | Disconnected => lit "Failed" end.
Proof.
  rewrite text_head. destruct (Nat.le_gt_cases k (List.length head)) as [L|L].
  - left. rewrite firstn_app. replace (k - List.length head)%nat with 0%nat by lia. cbn [firstn]. rewrite app_nil_r. unfold connection_status.
    assert (C : contains word (lower (firstn k head)) = false) by (unfold lower; rewrite <- firstn_map; apply contains_prefix; exact head_clean). rewrite C.
    destruct (contains (lit "disconnected") (lower (firstn k head))) eqn:D; [|reflexivity]. apply (contains_suffix (lit "dis") word) in D. congruence.
  - rewrite firstn_app. rewrite firstn_all2 by lia. destruct (k - List.length head)%nat as [|j] eqn:J; [lia|]. cbn [firstn]. unfold connection_status, lower. rewrite map_app. cbn [map]. fold (lower head). change (10 <? 0) with false.
    rewrite !(contains_sep 10) by (cbn; intuition discriminate). rewrite head_clean.
    assert (D : contains (lit "disconnected") (lower head) = false) by (destruct (contains (lit "disconnected") (lower head)) eqn:D; [apply (contains_suffix (lit "dis") word) in D; rewrite head_clean in D; discriminate|reflexivity]).
    rewrite D. cbn [orb]. destruct s; do 13 (destruct j as [|j]; [vm_compute; auto|]); right; destruct j; vm_compute; reflexivity.
Qed.
Lemma whole s : connection_status (status_text port ip sp s) = match s with Connected => lit "Live" | Disconnected => lit "Failed" end.
Proof.
  rewrite text_head. unfold connection_status, lower. rewrite map_app. cbn [map]. fold (lower head). rewrite !(contains_sep 10) by (cbn; intuition discriminate). rewrite head_clean.
  assert (D : contains (lit "disconnected") (lower head) = false) by (destruct (contains (lit "disconnected") (lower head)) eqn:D; [apply (contains_suffix (lit "dis") word) in D; rewrite head_clean in D; discriminate|reflexivity]).
  rewrite D. destruct s; vm_compute; reflexivity.
Qed.
End Text.

(** ** The port *)
Lemma readline_line a b : ~ In 10 a -> readline (a ++ 10 :: b) = a ++ [10].
Proof. induction a as [|x a IH]; intro N; [reflexivity|]. cbn. destruct (x =? 10) eqn:E; [apply Z.eqb_eq in E; subst; exfalso; apply N; now left|]. rewrite IH; [reflexivity|]. intro X. apply N. now right. Qed.
Lemma lstrip_app_space a c : is_space c = true -> lstrip (c :: a) = lstrip a. Proof. cbn. now intros ->. Qed.
Lemma strip_newline z : strip (print_int z ++ [10]) = print_int z.
Proof.
  assert (S0 : Forall (fun c => is_space c = false) (print_int z)) by (eapply Forall_impl; [|apply print_int_chars]; intros a [?| ->]; [now apply digit_not_space|reflexivity]).
  unfold strip. assert (N : print_int z <> []) by (intro E; pose proof (parse_print z) as P; rewrite E in P; discriminate).
  destruct (print_int z) as [|c r] eqn:E; [contradiction|]. rewrite (lstrip_id ((c :: r) ++ [10])) by (inversion S0; cbn; assumption). rewrite rev_app_distr. change (rev [10] ++ rev (c :: r)) with (10 :: rev (c :: r)). rewrite lstrip_app_space by reflexivity. rewrite lstrip_id; [apply rev_involutive|]. apply Forall_rev in S0. destruct (rev (c :: r)) eqn:R; [trivial|]. cbn. now inversion S0.
Qed.
Lemma port_read port rest : tcp_port (print_int port ++ 10 :: rest) = Ok port.
Proof.
  unfold tcp_port. rewrite readline_line by (apply print_int_no; [discriminate|lia]). rewrite strip_newline. apply parse_print.
Qed.

(** ** ps *)
Lemma bspace_iff c : is_bspace c = true <-> 9 <= c <= 13 \/ c = 32.
Proof. unfold is_bspace. rewrite orb_true_iff, andb_true_iff, !Z.leb_le, Z.eqb_eq. tauto. Qed.
Lemma bl_blank l : blank l -> bl l = []. Proof. induction 1 as [|c l H F IH]; [reflexivity|]. cbn. apply bspace_iff in H. now rewrite H. Qed.
Lemma bl_app a b : blank a -> bl (a ++ b) = bl b. Proof. induction 1 as [|c l H F IH]; [reflexivity|]. cbn. apply bspace_iff in H. now rewrite H. Qed.
Lemma bl_nil l : bl l = [] -> blank l.
Proof. induction l as [|c l IH]; intro E; [constructor|]. cbn in E. destruct (is_bspace c) eqn:B; [|discriminate]. constructor; [now apply bspace_iff|exact (IH E)]. Qed.
Lemma bl_split l : exists sp, blank sp /\ l = sp ++ bl l.
Proof. induction l as [|c l (sp & S0 & E)]; [exists []; split; [constructor|reflexivity]|]. cbn. destruct (is_bspace c) eqn:B; [|exists []; split; [constructor|reflexivity]]. exists (c :: sp). split; [constructor; [now apply bspace_iff|exact S0]|]. cbn. now rewrite <- E. Qed.
Lemma bstrip_nil l : bstrip l = [] <-> blank l.
Proof.
  unfold bstrip. split.
  - intro E. apply (f_equal (@rev Z)) in E. rewrite rev_involutive in E. cbn in E. apply bl_nil in E. destruct (bl_split l) as (sp & S0 & ->) . apply Forall_app. split; [exact S0|]. apply Forall_rev in E. now rewrite rev_involutive in E.
  - intro B. now rewrite (bl_blank l B).
Qed.
Lemma starts_app p a b : starts p a = true -> starts p (a ++ b) = true.
Proof. intro H. apply starts_spec in H as [r ->]. apply starts_spec. exists (r ++ b). now rewrite <- app_assoc. Qed.
Lemma bl_last a c : is_bspace c = false -> bl (a ++ [c]) = bl a ++ [c] .
Proof. intro B. induction a as [|x a IH]; cbn; [now rewrite B|]. destruct (is_bspace x); [exact IH|reflexivity]. Qed.
(** stripping keeps a beginning that is not blank *)
Lemma bstrip_starts x y z r : is_bspace x = false -> is_bspace y = false -> is_bspace z = false -> exists t, bstrip (x :: y :: z :: r) = x :: y :: z :: t.
Proof.
  intros X Y Z0. unfold bstrip. assert (bl (x :: y :: z :: r) = x :: y :: z :: r) as -> by (cbn; now rewrite X). cbn [rev]. rewrite !bl_last by assumption. rewrite !rev_app_distr. cbn. eauto.
Qed.
Lemma header_found l : header l -> starts (lit "pid") (lower (bstrip l)) = true.
Proof.
  intros (_ & sp & r & B & ->). change (lit "PID" ++ r) with (80 :: 73 :: 68 :: r). destruct (bstrip_starts 80 73 68 r) as [t E]; try reflexivity. unfold bstrip in *. rewrite bl_app by exact B. rewrite E. reflexivity.
Qed.
Lemma split_unlines ls : Forall line ls -> split_on 10 (unlines ls) = ls ++ [[]].
Proof. induction 1 as [|l ls H F IH]; [reflexivity|]. cbn [unlines]. rewrite split_on_app by exact H. now rewrite IH. Qed.
Lemma drop_blank_app bs ls : Forall blank bs -> drop_blank (bs ++ ls) = drop_blank ls.
Proof. induction 1 as [|b bs H F IH]; [reflexivity|]. cbn. apply bstrip_nil in H. now rewrite H. Qed.
Lemma drop_blank_stop l ls : ~ blank l -> drop_blank (l :: ls) = l :: ls.
Proof. intro N. cbn. destruct (bstrip l) eqn:E; [|reflexivity]. now apply bstrip_nil in E. Qed.
Lemma drop_end rows bs : Forall blank bs -> (rows = [] \/ exists r last, rows = r ++ [last] /\ ~ blank last) -> rev (drop_blank (rev (rows ++ bs))) = rows.
Proof.
  intros B R. rewrite rev_app_distr, drop_blank_app by (now apply Forall_rev). destruct R as [->|(r & last & -> & N)]; [reflexivity|]. rewrite rev_app_distr. cbn [rev app]. rewrite drop_blank_stop by exact N. cbn [rev]. now rewrite rev_involutive.
Qed.
