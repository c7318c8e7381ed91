(** * Proofs about configuration files *)
From Coq Require Import String.
From Coq Require Import List ZArith Bool Lia.
From Verif Require Import PyBase PyLemmas PnmsModel IniModel IniSpec.
Import ListNotations.
Open Scope Z_scope.

(** ** White space *)
Lemma white_space c : white c = true <-> space c.
Proof.
  unfold white, space. cbn [In]. rewrite !orb_true_iff, !andb_true_iff, !Z.leb_le, !Z.eqb_eq. lia.
Qed.
Lemma white_false c : white c = false <-> ~ space c.
Proof. rewrite <- white_space. destruct (white c); split; intro; congruence. Qed.
Definition hd_ok (s : pystr) : Prop := match s with c :: _ => white c = false | [] => True end.
Definition all_white (s : pystr) : Prop := Forall (fun c => white c = true) s.
Lemma hd_ok_iff s : hd_ok s <-> forall c r, s = c :: r -> ~ space c.
Proof.
  split.
  - intros H c r ->. now apply white_false.
  - intro H. destruct s as [|c r]; [exact I|]. apply white_false. now apply (H c r).
Qed.
Lemma stripped_iff s : stripped s <-> hd_ok s /\ hd_ok (rev s).
Proof.
  unfold stripped. rewrite !hd_ok_iff. split; intros [A B]; split; try exact A.
  - intros c r E. apply (B (rev r)). rewrite <- (rev_involutive s), E. reflexivity.
  - intros r c ->. apply (B c (rev r)). now rewrite rev_app_distr.
Qed.
Lemma trim_l_hd s : hd_ok (trim_l s).
Proof. induction s as [|c s IH]; [exact I|]. cbn. destruct (white c) eqn:E; [exact IH|exact E]. Qed.
Lemma trim_l_id s : hd_ok s -> trim_l s = s.
Proof. destruct s as [|c s]; [reflexivity|]. cbn. now intros ->. Qed.
Lemma trim_r_id s : hd_ok (rev s) -> trim_r s = s.
Proof. intro H. unfold trim_r. rewrite (trim_l_id _ H). apply rev_involutive. Qed.
Lemma trim_l_split s : exists w, s = w ++ trim_l s /\ all_white w.
Proof.
  induction s as [|c s (w & E & W)]; [exists []; split; [reflexivity|constructor]|]. cbn. destruct (white c) eqn:Ec.
  - exists (c :: w). cbn. split; [now f_equal|constructor; assumption].
  - exists []. split; [reflexivity|constructor].
Qed.
Lemma trim_r_split s : exists w, s = trim_r s ++ w /\ all_white w.
Proof.
  destruct (trim_l_split (rev s)) as (w & E & W). exists (rev w). split.
  - unfold trim_r. rewrite <- rev_app_distr, <- E. symmetry. apply rev_involutive.
  - apply Forall_rev. exact W.
Qed.
Lemma trim_r_tl s : hd_ok (rev (trim_r s)).
Proof. unfold trim_r. rewrite rev_involutive. apply trim_l_hd. Qed.
Lemma hd_ok_trim_r s : hd_ok s -> hd_ok (trim_r s).
Proof.
  intro H. destruct (trim_r_split s) as (w & E & W). destruct (trim_r s) as [|c r] eqn:T; [exact I|]. rewrite E in H. exact H.
Qed.
Lemma trim_stripped s : stripped (trim s).
Proof. apply stripped_iff. split; [apply hd_ok_trim_r, trim_l_hd|apply trim_r_tl]. Qed.
Lemma trim_id s : stripped s -> trim s = s.
Proof. rewrite stripped_iff. intros [A B]. unfold trim. rewrite (trim_l_id _ A). now apply trim_r_id. Qed.
Lemma trim_l_incl s c : In c (trim_l s) -> In c s.
Proof. destruct (trim_l_split s) as (w & E & _). intro H. rewrite E. apply in_or_app. now right. Qed.
Lemma trim_r_incl s c : In c (trim_r s) -> In c s.
Proof. destruct (trim_r_split s) as (w & E & _). intro H. rewrite E. apply in_or_app. now left. Qed.
Lemma trim_incl s c : In c (trim s) -> In c s.
Proof. intro H. now apply trim_l_incl, trim_r_incl. Qed.
Lemma trim_l_app w s : all_white w -> trim_l (w ++ s) = trim_l s.
Proof. induction w as [|c w IH]; [reflexivity|]. intro H. inversion H; subst. cbn. rewrite H2. now apply IH. Qed.
Lemma trim_r_app s w : all_white w -> trim_r (s ++ w) = trim_r s.
Proof. intro H. unfold trim_r. rewrite rev_app_distr, trim_l_app; [reflexivity|]. apply Forall_rev. exact H. Qed.
Lemma trim_cons_white c s : white c = true -> trim (c :: s) = trim s.
Proof. intro H. unfold trim. cbn. now rewrite H. Qed.

(** ** Comments, headers, options *)
Lemma comment_iff s : comment s = true <-> like_comment s.
Proof.
  unfold like_comment. destruct s as [|c r]; cbn.
  - split; [discriminate|]. intros [r [E|E]]; discriminate.
  - rewrite orb_true_iff, !Z.eqb_eq. split.
    + intros [-> | ->]; exists r; [now left|now right].
    + intros [r' [E|E]]; injection E as E _; [now left|now right].
Qed.
Lemma comment_false s : comment s = false <-> ~ like_comment s.
Proof. rewrite <- comment_iff. destruct (comment s); split; intro; congruence. Qed.
Lemma header_shape s : like_header s <-> exists r, s = 91 :: r /\ In 93 (tl r).
Proof.
  split.
  - intros (h & t & N & ->). exists (h ++ lit "]" ++ t). split; [reflexivity|]. destruct h as [|x h]; [congruence|]. cbn. apply in_or_app. right. now left.
  - intros ([|x r] & -> & H); [destruct H|]. cbn in H. apply in_split in H as (a & b & ->). exists (x :: a), b. split; [discriminate|reflexivity].
Qed.
Lemma before_last_none c s : before_last c s = None <-> ~ In c s.
Proof.
  induction s as [|x s IH]; cbn; [tauto|]. destruct (before_last c s) eqn:E.
  - split; [discriminate|]. intro N. exfalso. assert (X : ~ In c s) by tauto. apply IH in X. discriminate.
  - destruct (Z.eqb_spec x c) as [->|Ne].
    + split; [discriminate|]. intro N. destruct N. now left.
    + split; [|reflexivity]. intros _ [->|I]; [now apply Ne|]. apply (proj1 IH eq_refl I).
Qed.
Lemma before_last_some c s p : before_last c s = Some p -> exists t, s = p ++ c :: t /\ ~ In c t.
Proof.
  revert p. induction s as [|x s IH]; cbn; [discriminate|]. intros p. destruct (before_last c s) eqn:E.
  - intros [= <-]. destruct (IH _ eq_refl) as (t & -> & N). now exists t.
  - destruct (Z.eqb_spec x c) as [->|Ne]; [|discriminate]. intros [= <-]. exists s. split; [reflexivity|]. now apply before_last_none.
Qed.
Lemma before_last_end c s : before_last c (s ++ [c]) = Some s.
Proof. induction s as [|x s IH]; cbn; [now rewrite Z.eqb_refl|]. now rewrite IH. Qed.
Lemma header_none s : header s = None <-> ~ like_header s.
Proof.
  rewrite header_shape. destruct s as [|x r]; cbn.
  - split; [|reflexivity]. intros _ (r & E & _). discriminate.
  - destruct (Z.eqb_spec x 91) as [->|Ne].
    + destruct (before_last 93 r) as [[|y h]|] eqn:E.
      * split; [|reflexivity]. intros _ (r' & E' & H). injection E' as <-. apply before_last_some in E as (t & -> & N). now apply N in H.
      * split; [discriminate|]. intro N. destruct N. exists r. split; [reflexivity|]. apply before_last_some in E as (t & -> & _). cbn. apply in_or_app. right. now left.
      * split; [|reflexivity]. intros _ (r' & E' & H). injection E' as <-. apply before_last_none in E. apply E. destruct r; [destruct H|now right].
    + split; [|reflexivity]. intros _ (r' & E' & _). congruence.
Qed.
Lemma header_of n : n <> [] -> header (lit "[" ++ n ++ lit "]") = Some n.
Proof. intro N. cbn. rewrite before_last_end. destruct n; [congruence|reflexivity]. Qed.
Lemma header_some s n : header s = Some n -> n <> [] /\ (forall c, In c n -> In c s).
Proof.
  destruct s as [|x r]; cbn; [discriminate|]. destruct (x =? 91); [|discriminate]. destruct (before_last 93 r) as [[|y h]|] eqn:E; try discriminate.
  intros [= <-]. split; [discriminate|]. apply before_last_some in E as (t & -> & _). intros c H. right. apply in_or_app. now left.
Qed.
Lemma option_line_some s k v : option_line s = Some (k, v) -> exists d, s = k ++ d :: v /\ (d = 61 \/ d = 58) /\ ~ In 61 k /\ ~ In 58 k.
Proof.
  revert k v. induction s as [|x s IH]; cbn; [discriminate|]. intros k v. destruct (Z.eqb_spec x 61) as [->|N1]; [|destruct (Z.eqb_spec x 58) as [->|N2]]; cbn [orb].
  - intros [= <- <-]. exists 61. repeat split; auto.
  - intros [= <- <-]. exists 58. repeat split; auto.
  - destruct (option_line s) as [[k' v']|] eqn:E; [|discriminate]. intros [= <- <-]. destruct (IH _ _ eq_refl) as (d & -> & D & A & B). exists d. cbn.
    split; [reflexivity|]. split; [exact D|]. split; intros [X|X]; subst; contradiction.
Qed.
Lemma option_line_eq k v : ~ In 61 k -> ~ In 58 k -> option_line (k ++ 61 :: v) = Some (k, v).
Proof.
  induction k as [|x k IH]; cbn; [reflexivity|]. intros A B. destruct (Z.eqb_spec x 61) as [->|N1]; [now destruct A; left|]. destruct (Z.eqb_spec x 58) as [->|N2]; [now destruct B; left|].
  cbn [orb]. rewrite IH; [reflexivity|tauto|tauto].
Qed.

(** ** Lower case *)
Definition low (c : Z) : Z := if (65 <=? c) && (c <=? 90) then c + 32 else c.
Lemma lower_low s : lower s = map low s.
Proof. reflexivity. Qed.
Lemma low_range c : ~ 65 <= low c <= 90.
Proof. unfold low. destruct (Z.leb_spec 65 c), (Z.leb_spec c 90); cbn; lia. Qed.
Lemma low_id c : ~ (65 <= c <= 90) -> low c = c.
Proof. unfold low. destruct (Z.leb_spec 65 c), (Z.leb_spec c 90); cbn; lia. Qed.
(** low changes nothing below A *)
Lemma low_small c x : x < 65 \/ x = 91 \/ x = 93 \/ 122 < x -> low c = x <-> c = x.
Proof. unfold low. destruct (Z.leb_spec 65 c), (Z.leb_spec c 90); cbn; lia. Qed.
Lemma low_white c : white (low c) = white c.
Proof.
  unfold low. destruct (Z.leb_spec 65 c), (Z.leb_spec c 90); cbn [andb]; try reflexivity.
  transitivity false; [|symmetry]; apply white_false; unfold space; cbn [In]; lia.
Qed.
Lemma hd_ok_lower s : hd_ok (lower s) <-> hd_ok s.
Proof. destruct s as [|c s]; [tauto|]. cbn. change (white (low c) = false <-> white c = false). rewrite low_white. tauto. Qed.
Lemma stripped_lower s : stripped (lower s) <-> stripped s.
Proof. rewrite !stripped_iff, hd_ok_lower, !lower_low, <- map_rev, <- lower_low, hd_ok_lower. tauto. Qed.
Lemma lower_id s : (forall c, In c s -> ~ (65 <= c <= 90)) -> lower s = s.
Proof.
  rewrite lower_low. induction s as [|c s IH]; [reflexivity|]. intro H. cbn [map]. rewrite low_id by (apply H; now left). f_equal. apply IH. intros x X. apply H. now right.
Qed.
Lemma in_lower s x : x < 65 \/ x = 91 \/ x = 93 \/ 122 < x -> In x (lower s) <-> In x s.
Proof.
  intro S. rewrite lower_low, in_map_iff. split.
  - intros (c & E & H). apply (low_small c x S) in E. now subst.
  - intro H. exists x. split; [now apply low_small|exact H].
Qed.

(** ** Lines *)
Lemma newlines_id s : ~ In 13 s -> newlines s = s.
Proof.
  induction s as [|c s IH]; [reflexivity|]. intro N. assert (c <> 13) by (intro; subst; apply N; now left).
  assert (IH' : newlines s = s) by (apply IH; intro; apply N; now right).
  cbn. destruct c as [|p|p]; rewrite ?IH'; try reflexivity.
  repeat (destruct p as [p|p|]; rewrite ?IH'; try reflexivity; try congruence).
Qed.
Lemma newlines_no_cr s : ~ In 13 (newlines s).
Proof.
  assert (H : forall n s, (List.length s <= n)%nat -> ~ In 13 (newlines s)).
  { induction n as [|n IH]; intros [|c r] L; try (cbn in *; lia); try (intros []). destruct (Z.eq_dec c 13) as [->|N].
    - destruct r as [|c' r'].
      + cbn. intros [X|[]]; discriminate.
      + destruct (Z.eq_dec c' 10) as [->|N'].
        * change (newlines (13 :: 10 :: r')) with (10 :: newlines r'). intros [X|X]; [discriminate|]. revert X. apply IH. cbn in L. lia.
        * assert (E : newlines (13 :: c' :: r') = 10 :: newlines (c' :: r')).
          { cbn [newlines]. destruct c' as [|p|p]; try reflexivity. repeat (destruct p as [p|p|]; try reflexivity; try congruence). }
          rewrite E. intros [X|X]; [discriminate|]. revert X. apply IH. cbn in *. lia.
    - assert (E : newlines (c :: r) = c :: newlines r).
      { cbn [newlines]. destruct c as [|p|p]; try reflexivity. repeat (destruct p as [p|p|]; try reflexivity; try congruence). }
      rewrite E. intros [X|X]; [congruence|]. revert X. apply IH. cbn in L. lia. }
  exact (H _ s (le_n _)).
Qed.
Definition unlines (ls : list pystr) : pystr := flat_map (fun l => l ++ [10]) ls.
Lemma split_unlines ls : Forall (fun l => ~ In 10 l) ls -> split_on 10 (unlines ls) = ls ++ [[]].
Proof.
  induction ls as [|l ls IH]; [reflexivity|]. intro H. inversion H; subst. cbn [unlines flat_map]. rewrite <- app_assoc. cbn [app]. rewrite split_on_app by assumption.
  fold (unlines ls). now rewrite IH.
Qed.
Lemma file_lines_unlines ls : Forall (fun l => ~ In 10 l) ls -> file_lines (unlines ls) = ls.
Proof. intro H. unfold file_lines. rewrite (split_unlines _ H), last_last. apply removelast_last. Qed.
Lemma in_file_lines s l : In l (file_lines s) -> In l (split_on 10 s).
Proof.
  unfold file_lines. destruct (last (split_on 10 s) []); [|tauto]. intro H. rewrite (app_removelast_last [] (split_on_nonempty 10 s)). apply in_or_app. now left.
Qed.
Lemma split_incl c s l x : In l (split_on c s) -> In x l -> In x s.
Proof.
  revert l. induction s as [|y s IH]; cbn; [intros l [<-|[]] []|]. intros l. destruct (Z.eq_dec y c) as [->|N].
  - intros [<-|I] X; [destruct X|]. right. now apply (IH l).
  - destruct (split_on c s) as [|p ps] eqn:E; [now apply split_on_nonempty in E|]. intros [<-|I] X.
    + destruct X as [X|X]; [now left|right; apply (IH p); [now left|exact X]].
    + right. apply (IH l); [now right|exact X].
Qed.
Lemma file_lines_clean t l : In l (file_lines (newlines t)) -> ~ In 10 l /\ ~ In 13 l.
Proof.
  intro H. apply in_file_lines in H. split.
  - pose proof (split_parts_clean 10 (newlines t)) as F. rewrite Forall_forall in F. now apply F.
  - intro X. apply (newlines_no_cr t). now apply (split_incl 10 _ l).
Qed.

(** ** Joined values *)
Lemma join_snoc c ps l : ps <> [] -> join_on c (ps ++ [l]) = join_on c ps ++ c :: l.
Proof.
  induction ps as [|p [|q ps] IH]; [congruence|reflexivity|]. intros _. change ((p :: q :: ps) ++ [l]) with (p :: (q :: ps) ++ [l]).
  change (join_on c (p :: (q :: ps) ++ [l])) with (p ++ c :: join_on c ((q :: ps) ++ [l])). rewrite IH by discriminate. change (join_on c (p :: q :: ps)) with (p ++ c :: join_on c (q :: ps)).
  now rewrite <- app_assoc.
Qed.
Lemma trim_r_join_blank ls : ls <> [] -> trim_r (join_on 10 (ls ++ [[]])) = trim_r (join_on 10 ls).
Proof. intro N. rewrite join_snoc by exact N. apply trim_r_app. repeat constructor. Qed.
Lemma join_in c ps x : In x (join_on c ps) -> x = c \/ exists p, In p ps /\ In x p.
Proof.
  induction ps as [|p [|q ps] IH]; [intros []| |].
  - intro H. right. exists p. split; [now left|exact H].
  - change (join_on c (p :: q :: ps)) with (p ++ c :: join_on c (q :: ps)). intro H. apply in_app_or in H as [H|[H|H]].
    + right. exists p. split; [now left|exact H].
    + left. now symmetry.
    + destruct (IH H) as [->|(r & I & X)]; [now left|]. right. exists r. split; [now right|exact X].
Qed.
(** lines without spaces at their ends: only empty lines at the end are lost *)
Lemma trim_r_join ls : ls <> [] -> Forall stripped ls -> exists ls' k, ls = ls' ++ repeat [] k /\ ls' <> [] /\ trim_r (join_on 10 ls) = join_on 10 ls' /\ (last ls' [] <> [] \/ exists x, ls' = [x]).
Proof.
  induction ls as [|l ls IH] using rev_ind; [congruence|]. intros _ F. apply Forall_app in F as [F1 F2]. inversion F2 as [|? ? Sl _]; subst.
  destruct ls as [|l0 ls].
  - exists [l], 0%nat. cbn [repeat app join_on]. split; [reflexivity|]. split; [discriminate|]. split; [|right; eauto]. apply trim_r_id. now apply stripped_iff in Sl.
  - destruct l as [|c l].
    + destruct IH as (ls' & k & E & N & T & L); [discriminate|exact F1|]. exists ls', (S k). rewrite trim_r_join_blank by discriminate. split; [|now split].
      rewrite E, <- app_assoc. f_equal. clear. induction k; [reflexivity|]. cbn [repeat]. cbn [app]. now f_equal.
    + exists ((l0 :: ls) ++ [c :: l]), 0%nat. cbn [repeat]. rewrite app_nil_r. split; [reflexivity|]. split; [destruct ls; discriminate|]. split.
      * apply trim_r_id. rewrite join_snoc by discriminate. rewrite rev_app_distr. cbn [rev]. apply stripped_iff in Sl as [_ Sl]. cbn [rev] in Sl.
        destruct (rev l ++ [c]) as [|z zs] eqn:Ez; [destruct (rev l); discriminate|]. cbn. exact Sl.
      * left. rewrite last_last. discriminate.
Qed.
