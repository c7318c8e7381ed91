(** * What is read can be written *)
From Coq Require Import String.
From Coq Require Import List ZArith Bool Lia.
From Verif Require Import PyBase PyLemmas PnmsModel IniModel IniSpec IniProofs IniProofs2.
Import ListNotations.
Open Scope Z_scope.

Record good_entry (e : pystr * list pystr) : Prop := {
  e_key : key_ok (fst e); e_some : snd e <> []; e_strip : Forall stripped (snd e); e_clean : Forall clean (snd e);
  e_comments : Forall (fun l => ~ like_comment l) (tl (snd e)); e_header : ~ like_header (fst e ++ lit " = " ++ hd [] (snd e))
}.
Definition good_opts (o : opts) : Prop := NoDup (dkeys o) /\ Forall good_entry o.
Record good (st : pst) : Prop := {
  g_defs : good_opts (p_defs st); g_names : NoDup (dkeys (p_sects st)); g_name : Forall name_ok (dkeys (p_sects st));
  g_opts : Forall (fun s => good_opts (snd s)) (p_sects st);
  g_cur : forall n, p_cur st = Some n -> n = default_section \/ name_ok n
}.
Lemma Forall_dset {K V} `{EqDec K} (P : K * V -> Prop) (d : dict K V) k v : Forall P d -> P (k, v) -> Forall P (dset d k v).
Proof.
  intros F Pk. induction d as [|[k' w] d IH]; cbn; [now constructor|]. inversion F; subst. destruct (eq_dec k k') as [->|].
  - constructor; assumption.
  - constructor; [assumption|]. now apply IH.
Qed.
Lemma good_get st n : good st -> good_opts (sect_get st n).
Proof.
  intros G. unfold sect_get. destruct (eqb n default_section); [apply G|]. destruct (dget (p_sects st) n) as [o|] eqn:E.
  - apply dget_in in E. pose proof (g_opts _ G) as F. rewrite Forall_forall in F. exact (F _ E).
  - split; constructor.
Qed.
Lemma good_set st n o : good st -> (n = default_section \/ name_ok n) -> good_opts o -> good (sect_set st n o).
Proof.
  intros [A B C D E] N O. unfold sect_set, eqb. destruct (eq_dec n default_section) as [Ed|Nd].
  - constructor; cbn [p_defs p_sects p_cur]; assumption.
  - destruct N as [N|N]; [contradiction|]. constructor; cbn [p_defs p_sects p_cur]; [assumption| | | |assumption].
    + now apply nodup_dset.
    + apply Forall_forall. intros x X. apply in_dkeys_dset in X as [->|X]; [exact N|]. rewrite Forall_forall in C. now apply C.
    + now apply Forall_dset.
Qed.
Lemma good_append st x : good st -> stripped x -> clean x -> ~ like_comment x -> good (append_value st x).
Proof.
  intros G Sx Cx Nx. unfold append_value. destruct (p_cur st) as [n|] eqn:En; [|exact G]. destruct (good_get st n G) as [A B].
  cbv zeta. destruct (dget (sect_get st n) (p_opt st)) as [ls|] eqn:E; [|exact G]. apply good_set; [exact G|now apply (g_cur _ G)|].
  apply dget_in in E. rewrite Forall_forall in B. destruct (B _ E) as [b1 b2 b3 b4 b5 b6]. cbn [fst snd] in *. split; [now apply nodup_dset|].
  apply Forall_dset; [now apply Forall_forall|]. constructor; cbn [fst snd].
  - exact b1.
  - destruct ls; discriminate.
  - apply Forall_app. split; [exact b3|constructor; [exact Sx|constructor]].
  - apply Forall_app. split; [exact b4|constructor; [exact Cx|constructor]].
  - destruct ls as [|l ls]; [congruence|]. cbn [app tl] in *. apply Forall_app. split; [exact b5|constructor; [exact Nx|constructor]].
  - destruct ls as [|l ls]; [congruence|]. exact b6.
Qed.
Lemma clean_trim l : clean l -> clean (trim l).
Proof. intros [A B]. split; intro H; apply trim_incl in H; contradiction. Qed.
Lemma lower_app a b : lower (a ++ b) = lower a ++ lower b.
Proof. rewrite !lower_low. apply map_app. Qed.

(** the key and the value of an option line *)
Lemma option_good value k0 v : stripped value -> clean value -> ~ like_comment value -> ~ like_header value ->
  option_line value = Some (k0, v) -> trim_r k0 <> [] -> good_entry (lower (trim_r k0), [trim v]).
Proof.
  intros Sv [Lv Rv] Cv Hv Ol Nk. destruct (option_line_some _ _ _ Ol) as (d & -> & Dd & N1 & N2).
  apply stripped_iff in Sv as [Hd _].
  assert (Hk0 : k0 <> []) by (intros ->; apply Nk; reflexivity).
  assert (Hdk : hd_ok k0) by (destruct k0; [congruence|exact Hd]).
  destruct (trim_r_split k0) as (w & Ew & _). set (t := trim_r k0) in *.
  assert (St : stripped t) by (apply stripped_iff; split; [now apply hd_ok_trim_r|apply trim_r_tl]).
  assert (It : forall c, In c t -> In c k0) by (intros c X; rewrite Ew; apply in_or_app; now left).
  assert (Cd : clean (trim v)).
  { split; intro X; apply trim_incl in X; [apply Lv|apply Rv]; apply in_or_app; right; now right. }
  constructor; cbn [fst snd hd tl].
  - constructor.
    + destruct t; [congruence|discriminate].
    + now apply stripped_lower.
    + intros [r X]. destruct t as [|c t']; [congruence|]. apply Cv. rewrite Ew. cbn [app]. unfold like_comment.
      destruct X as [X|X]; cbn in X; injection X as X _; [apply (proj1 (low_small c 35 ltac:(lia))) in X|apply (proj1 (low_small c 59 ltac:(lia))) in X]; subst c; eexists; [left|right]; reflexivity.
    + intros c X. assert (Y : forall x, x < 65 -> In x (lower t) -> In x k0) by (intros x Lx Ix; apply It, in_lower; [now left|exact Ix]).
      split; [intros ->; apply N1, Y; [lia|exact X]|]. split; [intros ->; apply N2, Y; [lia|exact X]|].
      split; [intros ->; apply Lv, in_or_app; left; apply Y; [lia|exact X]|]. split; [intros ->; apply Rv, in_or_app; left; apply Y; [lia|exact X]|].
      rewrite lower_low in X. apply in_map_iff in X as (y & <- & _). apply low_range.
  - discriminate.
  - constructor; [apply trim_stripped|constructor].
  - constructor; [exact Cd|constructor].
  - constructor.
  - intro X. apply Hv. apply header_shape in X as (r & E & X). apply header_shape. destruct t as [|c t]; [congruence|].
    change (lower (c :: t)) with (low c :: lower t) in E. cbn [app] in E. injection E as E <-. apply (proj1 (low_small c 91 ltac:(lia))) in E. subst c.
    exists ((t ++ w) ++ d :: v). rewrite Ew. split; [reflexivity|].
    assert (V : In 93 (trim v) -> In 93 (tl ((t ++ w) ++ d :: v))).
    { intro Y. apply trim_incl in Y. destruct (t ++ w) as [|z zs]; cbn; [exact Y|]. apply in_or_app. right. now right. }
    destruct t as [|c t].
    + cbn in X. destruct X as [X|[X|X]]; [discriminate|discriminate|]. now apply V.
    + change (lower (c :: t)) with (low c :: lower t) in X. cbn [app tl] in X. apply in_app_or in X as [X|X].
      * apply (proj1 (in_lower t 93 ltac:(lia))) in X. cbn [app tl]. rewrite <- !app_assoc. apply in_or_app. now left.
      * cbn in X. destruct X as [X|[X|[X|X]]]; try discriminate. now apply V.
Qed.

Lemma good_line st l st' : clean l -> good st -> read_line st l = (st', None) -> p_err st' = false -> p_err st = false -> good st'.
Proof.
  intros Cl G. unfold read_line. pose proof (clean_trim _ Cl) as Ct. pose proof (trim_stripped l) as Sv. set (value := trim l) in *. destruct (comment value) eqn:Ec; [now intros [= <-]|].
  apply comment_false in Ec. destruct value as [|c r] eqn:Ev.
  - intros [= <-] _ _. destruct (p_opt st); [exact G|]. apply good_append; [exact G|exact Sv|exact Ct|exact Ec].
  - rewrite <- Ev in *. clear c r Ev. destruct (continues st l); [intros [= <-] _ _; now apply good_append|].
    set (st1 := set_indent st (indent_of l)). assert (G1 : good st1) by (destruct G; constructor; assumption).
    destruct (header value) as [n|] eqn:Hh.
    + unfold read_header. destruct (dhas (p_sects st1) n); [discriminate|]. destruct (header_some _ _ Hh) as [Hn Hi].
      destruct (eqb n default_section) eqn:En.
      * intros [= <-] _ _. unfold eqb in En. destruct (eq_dec n default_section); [|discriminate]. destruct G1. constructor; try assumption. cbn. intros m [= <-]. now left.
      * assert (Nd : n <> default_section) by (unfold eqb in En; destruct (eq_dec n default_section); [discriminate|assumption]).
        assert (No : name_ok n) by (constructor; [exact Hn|exact Nd|intro X; now apply Hi, Ct in X|intro X; now apply Hi, Ct in X]).
        intros [= <-] _ _. assert (G2 : good (sect_set st1 n [])) by (apply good_set; [exact G1|now right|split; constructor]).
        destruct G2. constructor; try assumption. cbn. intros m [= <-]. now right.
    + apply header_none in Hh. destruct (p_cur st1) as [n|] eqn:En; [|discriminate]. unfold read_option. destruct (option_line value) as [[k0 v]|] eqn:Ol.
      * cbv zeta. destruct (smem _ _); [discriminate|]. intros [= <-] P _. apply good_set; [|now apply (g_cur _ G1)|].
        -- destruct (trim_r k0); destruct G1; constructor; assumption.
        -- assert (Nt : trim_r k0 <> []).
           { intro X. rewrite X in P. unfold sect_set in P. destruct (eqb n default_section); discriminate. }
           replace (sect_get (Pst _ _ _ _ _ _ _) n) with (sect_get st1 n) by (destruct (trim_r k0); reflexivity).
           destruct (good_get st1 n G1) as [A B]. split; [now apply nodup_dset|]. apply Forall_dset; [exact B|]. now apply (option_good value k0 v).
      * intros [= <-] P. discriminate.
Qed.
Lemma err_mono st l st' e : read_line st l = (st', e) -> p_err st' = false -> p_err st = false.
Proof.
  assert (A : forall s x, p_err (append_value s x) = p_err s).
  { intros s x. unfold append_value. destruct (p_cur s); [|reflexivity]. cbv zeta. destruct (dget _ _); [|reflexivity]. unfold sect_set. destruct (eqb _ _); reflexivity. }
  assert (T : forall s n o, p_err (sect_set s n o) = p_err s) by (intros s n o; unfold sect_set; destruct (eqb _ _); reflexivity).
  unfold read_line. destruct (comment _); [now intros [= <- <-]|]. destruct (trim l) as [|c r].
  - intros [= <- <-]. destruct (p_opt st); [tauto|]. now rewrite A.
  - destruct (continues st l); [intros [= <- <-]; now rewrite A|]. destruct (header _) as [n|].
    + unfold read_header. destruct (dhas _ _); [now intros [= <- <-]|]. destruct (eqb _ _); intros [= <- <-]; cbn; [tauto|]. rewrite T. tauto.
    + destruct (p_cur _); [|now intros [= <- <-]]. unfold read_option. destruct (option_line _) as [[k0 v]|]; [|intros [= <- <-]; discriminate].
      cbv zeta. destruct (smem _ _); intros [= <- <-]; rewrite ?T; destruct (trim_r k0); cbn; tauto || discriminate.
Qed.
Lemma good_lines ls : forall st st', Forall clean ls -> good st -> read_lines st ls = (st', None) -> good st' /\ p_err st' = false.
Proof.
  assert (Pm : forall ls st st', read_lines st ls = (st', None) -> p_err st = false /\ p_err st' = false).
  { clear. induction ls as [|l ls IH]; intros st st' E; cbn in E.
    - destruct (p_err st) eqn:P; [discriminate|]. injection E as <-. now split.
    - destruct (read_line st l) as [s1 [e|]] eqn:E1; [discriminate|]. apply IH in E as [A B]. split; [now apply (err_mono st l s1 None)|exact B]. }
  induction ls as [|l ls IH]; intros st st' C G E; pose proof (Pm _ _ _ E) as [P0 P1]; cbn in E.
  - rewrite P0 in E. injection E as <-. now split.
  - destruct (read_line st l) as [s1 [e|]] eqn:E1; [discriminate|]. inversion C; subst. apply (IH s1); [assumption| |exact E].
    apply (good_line st l); try assumption. now apply Pm in E.
Qed.

Lemma split_ends a : split_on 10 (a ++ [10]) = split_on 10 a ++ [[]].
Proof.
  induction a as [|x a IH]; [reflexivity|]. cbn [app split_on]. rewrite IH. destruct (Z.eq_dec x 10); [reflexivity|].
  destruct (split_on 10 a) as [|p ps] eqn:E; [now apply split_on_nonempty in E|]. reflexivity.
Qed.
Lemma entry_ok e : good_entry e -> item_ok (fst e, trim_r (join_on 10 (snd e))).
Proof.
  destruct e as [k ls]. intros [b1 b2 b3 b4 b5 b6]. cbn [fst snd] in *. destruct (trim_r_join ls b2 b3) as (ls' & m & E & N & T & L).
  assert (Sub : forall x, In x ls' -> In x ls) by (intros x X; rewrite E; apply in_or_app; now left).
  rewrite Forall_forall in b3, b4, b5.
  assert (Sp : split_on 10 (join_on 10 ls') = ls').
  { apply split_join; [exact N|]. apply Forall_forall. intros x X. now apply b4, Sub. }
  unfold item_ok. cbn [fst snd]. rewrite T. split; [exact b1|]. split.
  - constructor.
    + intro X. apply join_in in X as [X|(p & Ip & X)]; [discriminate|]. now apply (b4 p (Sub _ Ip)).
    + rewrite Sp. intros l X. now apply b3, Sub.
    + rewrite Sp. intros l X. apply b5. rewrite E. destruct ls' as [|x ls']; [destruct X|]. cbn in *. apply in_or_app. now left.
    + intros a Ea. assert (X : split_on 10 (join_on 10 ls') = split_on 10 a ++ [[]]) by (rewrite Ea; apply split_ends). rewrite Sp in X.
      destruct L as [L|[x ->]]; [apply L; rewrite X; apply last_last|]. pose proof (split_on_nonempty 10 a) as Na. destruct (split_on 10 a) as [|p [|]]; [congruence|discriminate|discriminate].
  - unfold first_line. rewrite Sp. destruct ls' as [|x ls']; [congruence|]. rewrite E in b6. exact b6.
Qed.
Lemma opts_ok o : good_opts o -> options_ok (joined o).
Proof.
  intros [A B]. split.
  - change (NoDup (dkeys (joined o))). now rewrite joined_keys.
  - unfold joined. apply Forall_map. eapply Forall_impl; [|exact B]. intros e. apply entry_ok.
Qed.
Lemma good_result st : good st -> storable (result st).
Proof.
  intros [A B C D _]. unfold result. constructor; cbn [i_defs i_sects].
  - now apply opts_ok.
  - rewrite map_map. cbn [fst]. split; [exact B|]. apply Forall_map. cbn [fst]. unfold dkeys in C. now rewrite Forall_map in C.
  - apply Forall_map. cbn [snd]. eapply Forall_impl; [|exact D]. intros s. apply opts_ok.
Qed.
Theorem read_storable t c : read_text t = (c, None) -> storable c.
Proof.
  unfold read_text. destruct (read_lines pst0 _) as [st e] eqn:E. intros [= <- ->]. apply good_result.
  apply good_lines in E as [G _]; [exact G| |].
  - apply Forall_forall. intros l X. now apply (file_lines_clean t).
  - constructor; cbn; try constructor; try discriminate; constructor.
Qed.
