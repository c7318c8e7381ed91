(** * C67: an unreliable switch and its verbs *)
From Coq Require Import String.
From Coq Require Import List ZArith QArith Bool Lia Permutation.
From Verif Require Import PyBase PyLemmas AddrModel AddrSpec SwitchModel SwitchProofs FragModel HubModel HubSpec HubProofs ErrModel ErrSpec ErrProofs SpmpModel WanApiModel USwitchModel USwitchSpec USwitchProofs USwitchProofs2 USwitchProofs3.
Import ListNotations.
Open Scope Z_scope.

(** what a switch process is given: how packets are written, how delays are read and
    printed, the three operations on log levels, its name *)
Record device (F S0 : Type) := Device {
  d_enc : wire -> bytes; d_read : pystr -> option F; d_print : F -> pystr;
  d_1 : S0 -> list pystr -> S0 * opres; d_2 : S0 -> list pystr -> S0 * opres; d_3 : S0 -> list pystr -> S0 * opres; d_name : pystr }.
Arguments d_enc {F S0}. Arguments d_read {F S0}. Arguments d_print {F S0}. Arguments d_1 {F S0}. Arguments d_2 {F S0}. Arguments d_3 {F S0}. Arguments d_name {F S0}.
Definition runs {L F S0} `{EqDec L} (d : device F S0) : list (uevent L) -> usw L F S0 -> usw L F S0 * list (ulog L) :=
  u_run (d_enc d) (d_read d) (d_print d) (d_1 d) (d_2 d) (d_3 d) (d_name d).
Definition happens {L F S0} `{EqDec L} (d : device F S0) (e : uevent L) (s : usw L F S0) := runs d [e] s.
(** the state after [es] from a start with the error setting [err] and the delay setting [dl] *)
Definition after {L F S0} `{EqDec L} (d : device F S0) (err : Z * Z) (dl : rate * F) (x : S0) (es : list (uevent L)) : usw L F S0 :=
  fst (runs d es (usw_new (err, dl, x))).

Lemma happens_step {L F S0} `{EqDec L} (d : device F S0) (e : uevent L) s : happens d e s = u_step (d_enc d) (d_read d) (d_print d) (d_1 d) (d_2 d) (d_3 d) (d_name d) e s.
Proof. unfold happens, runs. cbn [u_run]. destruct (u_step _ _ _ _ _ _ _ e s). now rewrite app_nil_r. Qed.

Definition api_of {F S0} (d : device F S0) := unreliable_api (d_read d) (d_print d) (d_1 d) (d_2 d) (d_3 d).
Lemma ask_step {L F S0} `{EqDec L} (d : device F S0) (l : L) id verb args s op : dget (api_of d) (lit verb) = Some op ->
  happens d (URequest l (ask id verb args)) s = (Usw (u_sw s) (u_up s) (u_layers s) (u_pend s) (fst (op (u_conf s) args)),
    match snd (op (u_conf s) args) with OpValue v => answers l id verb args v
    | OpRaises m => [UReply l (SRun (lit verb) args); UReply l (SSend (Spmp id (lit verb) args [] (match m with [] => None | _ => Some m end)))] end).
Proof.
  intro E. rewrite happens_step. cbn [u_step]. unfold process. cbn [unreliable_server s_security s_api ask m_request m_args m_id m_error]. fold (api_of d). rewrite E.
  destruct (op (u_conf s) args) as [x' [v|[|c m]]]; reflexivity.
Qed.
(** ** The settings *)
Definition error_text (e : Z * Z) : pystr := lit "Errors per Bytes = (" ++ print_int (fst e) ++ lit ", " ++ print_int (snd e) ++ lit ")".
Definition rate_text (r : rate) : pystr := match r with RDefault => lit "0.01" | RInt z => print_int z end.
(** get-error-rate and get-delay-rate report the setting made last, on any link; they
    change nothing. *)
Theorem C67_settings_reported : forall (L : Type) (E : EqDec L) (F S0 : Type) (d : device F S0) err dl x (es : list (uevent L)) l id,
  let s := after d err dl x es in
  happens d (URequest l (ask id "get-error-rate" [])) s = (s, answers l id "get-error-rate" [] (error_text (error_setting err es))) /\
  happens d (URequest l (ask id "get-delay-rate" [])) s =
    (s, answers l id "get-delay-rate" [] (lit "Every " ++ rate_text (fst (delay_setting (d_read d) dl es)) ++ lit " packets, delay " ++ d_print d (snd (delay_setting (d_read d) dl es)) ++ lit " second")).
Proof.
  intros L E F S0 d err dl x es l id. cbv zeta. destruct (conf_run (d_enc d) (d_read d) (d_print d) (d_1 d) (d_2 d) (d_3 d) (d_name d) es (usw_new (err, dl, x))) as [A B].
  change (fst (u_run (d_enc d) (d_read d) (d_print d) (d_1 d) (d_2 d) (d_3 d) (d_name d) es (usw_new (err, dl, x)))) with (after d err dl x es) in *.
  change (set_of (usw_new (err, dl, x))) with err in A. change (delay_of (usw_new (err, dl, x))) with dl in B. rewrite <- A, <- B. rewrite !happens_step. destruct (after d err dl x es) as [a b c q [[e2 d2] z]]. split; reflexivity.
Qed.
(** set-error-rate and set-delay-rate answer None when their arguments are numbers, and
    the setting is made; otherwise they answer an error and nothing is set. *)
Theorem C67_setting_answers : forall (L : Type) (E : EqDec L) (F S0 : Type) (d : device F S0) (s : usw L F S0) l id args,
  (let (s', log) := happens d (URequest l (ask id "set-error-rate" args)) s in
   (exists a b n h, args = [a; b] /\ parse_int a = Ok n /\ parse_int b = Ok h /\ log = answers l id "set-error-rate" args (lit "None") /\
      s' = Usw (u_sw s) (u_up s) (u_layers s) (u_pend s) ((n, h), snd (fst (u_conf s)), snd (u_conf s))) \/
   (s' = s /\ exists m, m <> [] /\ log = [UReply l (SRun (lit "set-error-rate") args); UReply l (SSend (Spmp id (lit "set-error-rate") args [] (Some m)))] /\
      forall a b, args = [a; b] -> (exists e, parse_int a = Raise e) \/ (exists e, parse_int b = Raise e))) /\
  (let (s', log) := happens d (URequest l (ask id "set-delay-rate" args)) s in
   (exists a b n t, args = [a; b] /\ parse_int a = Ok n /\ d_read d b = Some t /\ log = answers l id "set-delay-rate" args (lit "None") /\
      s' = Usw (u_sw s) (u_up s) (u_layers s) (u_pend s) (fst (fst (u_conf s)), (RInt n, t), snd (u_conf s))) \/
   (s' = s /\ exists m, m <> [] /\ log = [UReply l (SRun (lit "set-delay-rate") args); UReply l (SSend (Spmp id (lit "set-delay-rate") args [] (Some m)))] /\
      forall a b, args = [a; b] -> (exists e, parse_int a = Raise e) \/ d_read d b = None)).
Proof.
  intros L E F S0 d [sw up ly pe [[er dl] x]] l id args. split.
  - destruct args as [|a [|b [|c q]]].
    + right. split; [reflexivity|]. exists argument_error. split; [discriminate|]. split; [reflexivity|]. discriminate.
    + right. split; [reflexivity|]. exists argument_error. split; [discriminate|]. split; [reflexivity|]. discriminate.
    + assert (G : happens d (URequest l (ask id "set-error-rate" [a; b])) (Usw sw up ly pe (er, dl, x)) =
        match parse_int a, parse_int b with
        | Ok n, Ok h => (Usw sw up ly pe ((n, h), dl, x), answers l id "set-error-rate" [a; b] (lit "None"))
        | _, _ => (Usw sw up ly pe (er, dl, x), [UReply l (SRun (lit "set-error-rate") [a; b]); UReply l (SSend (Spmp id (lit "set-error-rate") [a; b] [] (Some int_error)))]) end).
      { rewrite (ask_step d l id "set-error-rate" [a; b] _ op_set_error eq_refl). cbn [u_sw u_up u_layers u_pend u_conf]. unfold op_set_error. destruct (parse_int a); [destruct (parse_int b)|]; reflexivity. }
      rewrite G. destruct (parse_int a) as [n|e] eqn:Pa; [destruct (parse_int b) as [h|e] eqn:Pb|].
      * left. exists a, b, n, h. auto.
      * right. split; [reflexivity|]. exists int_error. split; [discriminate|]. split; [reflexivity|]. intros a' b' X. injection X as <- <-. eauto.
      * right. split; [reflexivity|]. exists int_error. split; [discriminate|]. split; [reflexivity|]. intros a' b' X. injection X as <- <-. eauto.
    + right. split; [reflexivity|]. exists argument_error. split; [discriminate|]. split; [reflexivity|]. discriminate.
  - destruct args as [|a [|b [|c q]]].
    + right. split; [reflexivity|]. exists argument_error. split; [discriminate|]. split; [reflexivity|]. discriminate.
    + right. split; [reflexivity|]. exists argument_error. split; [discriminate|]. split; [reflexivity|]. discriminate.
    + assert (G : happens d (URequest l (ask id "set-delay-rate" [a; b])) (Usw sw up ly pe (er, dl, x)) =
        match parse_int a with
        | Ok n => match d_read d b with
                  | Some t => (Usw sw up ly pe (er, (RInt n, t), x), answers l id "set-delay-rate" [a; b] (lit "None"))
                  | None => (Usw sw up ly pe (er, dl, x), [UReply l (SRun (lit "set-delay-rate") [a; b]); UReply l (SSend (Spmp id (lit "set-delay-rate") [a; b] [] (Some float_error)))]) end
        | Raise _ => (Usw sw up ly pe (er, dl, x), [UReply l (SRun (lit "set-delay-rate") [a; b]); UReply l (SSend (Spmp id (lit "set-delay-rate") [a; b] [] (Some int_error)))]) end).
      { rewrite (ask_step d l id "set-delay-rate" [a; b] _ (op_set_delay (d_read d)) eq_refl). cbn [u_sw u_up u_layers u_pend u_conf]. unfold op_set_delay. destruct (parse_int a); [destruct (d_read d b)|]; reflexivity. }
      rewrite G. destruct (parse_int a) as [n|e] eqn:Pa; [destruct (d_read d b) as [t|] eqn:Pb|].
      * left. exists a, b, n, t. auto.
      * right. split; [reflexivity|]. exists float_error. split; [discriminate|]. split; [reflexivity|]. intros a' b' X. injection X as <- <-. auto.
      * right. split; [reflexivity|]. exists int_error. split; [discriminate|]. split; [reflexivity|]. intros a' b' X. injection X as <- <-. eauto.
    + right. split; [reflexivity|]. exists argument_error. split; [discriminate|]. split; [reflexivity|]. discriminate.
Qed.
(** Whoever asks is answered: there is no policy. *)
Theorem C67_open_to_all : forall (F S0 : Type) (d : device F S0) peer peer' r x,
  process (unreliable_server (d_read d) (d_print d) (d_1 d) (d_2 d) (d_3 d) (d_name d)) peer r x = process (unreliable_server (d_read d) (d_print d) (d_1 d) (d_2 d) (d_3 d) (d_name d)) peer' r x /\
  process (plain_server (d_1 d) (d_2 d) (d_3 d) (d_name d)) peer r x = process (plain_server (F := F) (d_1 d) (d_2 d) (d_3 d) (d_name d)) peer' r x.
Proof. intros. split; reflexivity. Qed.
(** A reliable switch does not know the verbs of an unreliable one. *)
Theorem C67_reliable_refuses : forall (F S0 : Type) (d : device F S0) peer id verb args (x : conf F S0),
  In verb ["get-error-rate"; "set-error-rate"; "get-delay-rate"; "set-delay-rate"]%string ->
  process (plain_server (d_1 d) (d_2 d) (d_3 d) (d_name d)) peer (ask id verb args) x =
  (x, [SSend (Spmp id (lit verb) args [] (Some (lit "Unknown request '" ++ lit verb ++ lit "' to device [" ++ d_name d ++ lit "]")))]).
Proof. intros F S0 d peer id verb args x [<-|[<-|[<-|[<-|[]]]]]; reflexivity. Qed.

(** ** Which links get a packet *)
(** Each wire packet is dispatched to the links its destination should reach under the
    registrations of that moment; an announcement counts unless an error position cannot
    be drawn then. *)
Theorem C67_dispatch : forall (L : Type) (E : EqDec L) (F S0 : Type) (d : device F S0) err dl x (es : list (uevent L)) l w rnd,
  connected nobody (es ++ [UData l (PWire w) rnd]) ->
  exists tos g, snd (happens d (UData l (PWire w) rnd) (after d err dl x es)) = UPacket l (PWire w) tos :: g /\
    should_reach (registered (announced err es) unregistered) (w_dst w) tos /\
    forall y, In y g -> exists l' b, y = USent l' b /\ In l' tos.
Proof.
  intros L E F S0 d err dl x es l w rnd W. apply connected_app in W as [W1 W2].
  pose proof (run_inv (d_enc d) (d_read d) (d_print d) (d_1 d) (d_2 d) (d_3 d) (d_name d) es [] nobody (usw_new (err, dl, x)) (inv_new _) W1) as V.
  change (fst (u_run (d_enc d) (d_read d) (d_print d) (d_1 d) (d_2 d) (d_3 d) (d_name d) es (usw_new (err, dl, x)))) with (after d err dl x es) in V. cbn [app] in V. change (set_of (usw_new (err, dl, x))) with err in V.
  rewrite happens_step. cbn [u_step]. pose proof (dispatch _ _ _ w V) as Di. destruct (sw_outbound (w_dst w) _) as [ls|e].
  - destruct Di as (-> & R & _). pose proof (write_each_log (fst (fst (u_conf (after d err dl x es)))) (fst (snd (fst (u_conf (after d err dl x es))))) rnd (d_enc d w) ls (u_layers (after d err dl x es)) (u_pend (after d err dl x es))) as X.
    destruct (write_each _ _ _ _ _ _ _) as [[ly pe] g]. exists ls, g. split; [reflexivity|]. split; [exact R|exact X].
  - exists [], []. split; [reflexivity|]. split; [|intros y []]. unfold should_reach. split; [constructor|]. destruct Di as [->|[e2 ->]]; reflexivity.
Qed.
(** While the error setting stays as it was when the process began, and error positions
    can be drawn: of the packets dispatched to a link, each has been written to it exactly
    once or waits, with no more than single bytes complemented. *)
Theorem C67_each_once : forall (L : Type) (E : EqDec L) (F S0 : Type) (d : device F S0) err dl x (es : list (uevent L)) l,
  connected nobody es -> fair err es -> drawable err -> (forall e, In e es -> error_after e err = err) -> ~ In (ULost l) es ->
  let (s, g) := runs d es (usw_new (err, dl, x)) in same_but_errors (dispatched (d_enc d) l g) (got l g ++ waiting l s).
Proof.
  intros L E F S0 d err dl x es l W Fa D K N. apply can_drawable in D.
  pose proof (run_rel (d_enc d) (d_read d) (d_print d) (d_1 d) (d_2 d) (d_3 d) (d_name d) l es [] nobody (usw_new (err, dl, x)) (inv_new _) W) as R.
  change (runs d es (usw_new (err, dl, x))) with (u_run (d_enc d) (d_read d) (d_print d) (d_1 d) (d_2 d) (d_3 d) (d_name d) es (usw_new (err, dl, x))). destruct (u_run _ _ _ _ _ _ _ es _) as [s g].
  apply R; auto; [intros l'; constructor|]. apply Forall_forall. exact K.
Qed.
(** After a setting from which no error position can be drawn (errors in a negative number
    of bytes) no packet reaches any link until the error setting is made anew. *)
Theorem C67_silent : forall (L : Type) (E : EqDec L) (F S0 : Type) (d : device F S0) err dl x (es es2 : list (uevent L)) l b,
  connected nobody (es ++ es2) -> ~ drawable (error_setting err es) -> (forall e, In e es2 -> error_after e (error_setting err es) = error_setting err es) ->
  ~ In (USent l b) (snd (runs d es2 (after d err dl x es))).
Proof.
  intros L E F S0 d err dl x es es2 l b W D K. apply connected_app in W as [W1 W2].
  pose proof (run_inv (d_enc d) (d_read d) (d_print d) (d_1 d) (d_2 d) (d_3 d) (d_name d) es [] nobody (usw_new (err, dl, x)) (inv_new _) W1) as V.
  destruct (conf_run (d_enc d) (d_read d) (d_print d) (d_1 d) (d_2 d) (d_3 d) (d_name d) es (usw_new (err, dl, x))) as [A _]. change (set_of (usw_new (err, dl, x))) with err in A.
  change (set_of (after d err dl x es) = error_setting err es) in A.
  eapply run_silent; [exact V|exact W2| |].
  - change (can_draw (set_of (after d err dl x es)) = false). rewrite A. apply not_true_iff_false. intro C. apply D. now apply can_drawable.
  - change (Forall (keeps (set_of (after d err dl x es))) es2). rewrite A. apply Forall_forall. exact K.
Qed.
(** ** Delays *)
(** Once set-delay-rate has been used, either no packet is delayed or all are: which of
    the two depends on the sign of the number given, not on its size. *)
Theorem C67_all_or_none : forall (L : Type) (E : EqDec L) (F S0 : Type) (d : device F S0) err dl x (es : list (uevent L)) l r a b n t,
  In (URequest l r) es -> m_request r = lit "set-delay-rate" -> m_args r = [a; b] -> parse_int a = Ok n -> d_read d b = Some t ->
  exists z, fst (delay_setting (d_read d) dl es) = RInt z /\
  forall l' w rnd, connected nobody (es ++ [UData l' (PWire w) rnd]) -> (forall l n, rand_ok (error_setting err es) (rnd l n)) ->
  let s := after d err dl x es in
  let (s', g) := happens d (UData l' (PWire w) rnd) s in
  (z <= 0 -> forall q, waiting q s' = waiting q s) /\
  (1 <= z -> exists tos, g = [UPacket l' (PWire w) tos] /\ forall q, In q tos -> waiting q s' = waiting q s ++ [d_enc d w]).
Proof.
  intros L E F S0 d err dl x es l r a b n t I0 R0 A0 Pa Pb.
  assert (Z0 : exists z, fst (delay_setting (d_read d) dl es) = RInt z).
  { clear -I0 R0 A0 Pa Pb. unfold delay_setting.
    assert (K : forall (e : uevent L) (v : rate * F) z, fst v = RInt z -> exists z', fst (delay_after (d_read d) e v) = RInt z').
    { intros e v z V. unfold delay_after. destruct e as [?|? ? ?|? q|? ?|?]; eauto. destruct (eqb _ _); [|eauto]. destruct (m_args q) as [|u [|k [|? ?]]]; eauto. destruct (parse_int u); [|eauto]. destruct (d_read d k); [|eauto]. eexists. reflexivity. }
    assert (K2 : forall (es : list (uevent L)) (v : rate * F) z, fst v = RInt z -> exists z', fst (fold_left (fun x e => delay_after (d_read d) e x) es v) = RInt z').
    { induction es0 as [|e es0 IH]; intros v z V; [eauto|]. cbn [fold_left]. destruct (K e v z V) as [z' V']. exact (IH _ _ V'). }
    revert dl. induction es as [|e es IH]; intro dl; [destruct I0|]. cbn [fold_left]. destruct I0 as [->|I0]; [|now apply IH]. apply (K2 es _ n). unfold delay_after. rewrite R0, A0, Pa, Pb. reflexivity. }
  destruct Z0 as [z Z0]. exists z. split; [exact Z0|]. intros l' w rnd W Rn. apply connected_app in W as [W1 W2].
  pose proof (run_inv (d_enc d) (d_read d) (d_print d) (d_1 d) (d_2 d) (d_3 d) (d_name d) es [] nobody (usw_new (err, dl, x)) (inv_new _) W1) as V.
  destruct (conf_run (d_enc d) (d_read d) (d_print d) (d_1 d) (d_2 d) (d_3 d) (d_name d) es (usw_new (err, dl, x))) as [_ B].
  change (fst (u_run (d_enc d) (d_read d) (d_print d) (d_1 d) (d_2 d) (d_3 d) (d_name d) es (usw_new (err, dl, x)))) with (after d err dl x es) in *. change (delay_of (usw_new (err, dl, x))) with dl in B.
  cbv zeta. rewrite happens_step. cbn [u_step]. set (s := after d err dl x es) in *. assert (RT : fst (snd (fst (u_conf s))) = RInt z) by (unfold delay_of in B; now rewrite B). rewrite RT.
  pose proof (dispatch _ _ _ w V) as Di. destruct (sw_outbound (w_dst w) _) as [ls|e].
  - destruct Di as (-> & (ND & _) & R). destruct (write_each (fst (fst (u_conf s))) (RInt z) rnd (d_enc d w) ls (u_layers s) (u_pend s)) as [[ly pe] g] eqn:We. split.
    + intros Zn q. pose proof (each_prompt (fst (fst (u_conf s))) z rnd (d_enc d w) Zn (fun l n => proj1 (proj1 (Rn l n))) ls (u_layers s) (u_pend s)) as P. rewrite We in P. unfold waiting. cbn [u_pend]. now rewrite P.
    + intros Zp. pose proof (each_held (fst (fst (u_conf s))) z rnd (d_enc d w) Zp (fun l n => proj2 (proj1 (Rn l n))) ls (u_layers s) (u_pend s)) as P. rewrite We in P. destruct P as [-> ->].
      { intros q Q. destruct (R q Q) as [m M]. exact (v_one _ _ _ V q m M). }
      exists ls. split; [reflexivity|]. intros q Q. unfold waiting. cbn [u_pend]. rewrite filter_app, map_app. f_equal. clear -ND Q.
      induction ls as [|y ls IH]; [destruct Q|]. inversion ND as [|? ? N1 N2]; subst. cbn [map filter fst]. destruct Q as [->|Q].
      * replace (eqb q q) with true by (unfold eqb; destruct (eq_dec q q); congruence). cbn [map snd]. f_equal. clear -N1. induction ls as [|y ls IH]; [reflexivity|]. cbn [map filter fst].
        replace (eqb y q) with false; [apply IH; intro; apply N1; now right|]. symmetry. unfold eqb. destruct (eq_dec y q); [|reflexivity]. subst. exfalso. apply N1. now left.
      * replace (eqb y q) with false; [now apply IH|]. symmetry. unfold eqb. destruct (eq_dec y q); [|reflexivity]. subst. contradiction.
  - split; [reflexivity|]. intros _. exists []. split; [reflexivity|]. intros q [].
Qed.
(** ** After a change of the error setting *)
(** However a transport was left by earlier settings: after at most as many non-empty
    writes as it has positions, old or new, and the horizon bytes, it is as good as new:
    from then on it passes everything on, complementing exactly the bytes drawn. *)
Theorem C67_recovers : forall set c ws, drawable set -> Forall (fun w => draws_ok set (fst (snd w)) /\ draws_ok set (snd (snd w))) ws -> Forall (fun w => fst w <> []) ws ->
  (List.length (c_bad c) + Z.to_nat (fst set) + Z.to_nat (snd set + 1 - c_index c) < List.length ws)%nat ->
  exists n data d1 d2, (n <= List.length (c_bad c) + Z.to_nat (fst set) + Z.to_nat (snd set + 1 - c_index c))%nat /\ nth_error ws n = Some (data, (d1, d2)) /\
    skipn (S n) (snd (ce_writes2 set ws c)) = map Some (windows (snd set) d2 0 (map (fun w => (fst w, snd (snd w))) (skipn (S n) ws))).
Proof.
  intros set c ws D Fo N Lg. apply can_drawable in D. destruct ws as [|[data [d1 d2]] ws]; [cbn in Lg; lia|].
  destruct (ce2_sync set d1 d2 data c D) as (c1 & E1 & E2 & E3 & _); [inversion Fo; subst; tauto|].
  assert (Lq : (lag set c1 < List.length ((data, (d1, d2)) :: ws))%nat) by (eapply Nat.le_lt_trans; [exact E3|exact Lg]).
  destruct (recovers set ((data, (d1, d2)) :: ws) c1 D E1 Fo N Lq) as (n & da & e1 & e2 & A & B & C). exists n, da, e1, e2. split; [lia|]. split; [exact B|]. etransitivity; [|exact C]. cbn [ce_writes2]. now rewrite E2.
Qed.

(** ** Concrete cases and what does not hold *)
Definition ex_device : device pystr unit := Device pystr unit w_data (fun a => Some a) (fun a => a) (fun x _ => (x, OpValue [])) (fun x _ => (x, OpValue [])) (fun x _ => (x, OpValue [])) (lit "switch").
Definition quiet (draws : list Z) : Z -> nat -> rand := fun _ _ => Rand (1 # 2) draws draws.
Definition to_two (data : bytes) : pkt := PWire (Wire (lit "1.1.1.1") 1 (lit "2.2.2.2") 2 None data).
(** two links; one error in ten bytes; the third byte sent to link 2 is hit *)
Example C67_ex : exists s,
  let es := [UMade 1; UMade 2; UData 1 (PAnnounce (lit "1.1.1.1")) (quiet [9]); UData 2 (PAnnounce (lit "2.2.2.2")) (quiet [2]);
             UData 1 (to_two [5; 6; 7]) (quiet [0]); UData 1 (to_two [8]) (fun _ _ => Rand (1 # 1000) [0] [0]); UData 1 (to_two [9]) (quiet [0])] in
  runs ex_device es (usw_new ((1, 10), (RDefault, lit "1.0"), tt)) =
    (s, [UPacket 1 (PAnnounce (lit "1.1.1.1")) []; UPacket 2 (PAnnounce (lit "2.2.2.2")) []; UPacket 1 (to_two [5; 6; 7]) [2]; USent 2 [5; 6; 248];
         UPacket 1 (to_two [8]) [2]; UPacket 1 (to_two [9]) [2]; USent 2 [9]]) /\
  waiting 2 s = [[8]] /\ connected nobody es /\ fair (1, 10) es.
Proof.
  eexists. cbv zeta. split; [vm_compute; reflexivity|]. split; [vm_compute; reflexivity|]. split; [cbn; tauto|].
  assert (Q : forall r k, (0 <= r)%Q -> (r < 1)%Q -> 0 <= k <= 10 -> rand_ok (1, 10) (Rand r [k] [k])).
  { intros r k A B C. unfold rand_ok, draws_ok, zlen. cbn. split; [auto|]. intros _. repeat split; repeat constructor; lia. }
  cbn [fair event_fair]. repeat match goal with |- _ /\ _ => split end; try exact Logic.I; intros; apply Q; unfold Qle, Qlt; cbn; lia.
Qed.
(** set-delay-rate 100 is reported as every hundredth packet; every packet is delayed. *)
Theorem C67_refuted_delay_meaning : exists (es : list (uevent Z)) s g, 
  es = [UMade 1; UMade 2; UData 2 (PAnnounce (lit "2.2.2.2")) (quiet [2]); URequest 1 (ask 7 "set-delay-rate" [lit "100"; lit "1"]); URequest 1 (ask 8 "get-delay-rate" []);
        UData 1 (to_two [5]) (quiet [0]); UData 1 (to_two [6]) (quiet [0]); UData 1 (to_two [7]) (quiet [0])] /\
  runs ex_device es (usw_new ((1, 10), (RDefault, lit "1.0"), tt)) = (s, g) /\
  In (UReply 1 (SSend (Spmp 8 (lit "get-delay-rate") [] (lit "Every 100 packets, delay 1 second") None))) g /\
  got 2 g = [] /\ waiting 2 s = [[5]; [6]; [7]].
Proof. eexists _, _, _. split; [reflexivity|]. split; [vm_compute; reflexivity|]. split; [cbn; tauto|]. split; vm_compute; reflexivity. Qed.
(** A change of the error setting can make a packet vanish. *)
Theorem C67_refuted_change_drops : exists (es : list (uevent Z)) s g,
  es = [UMade 1; UMade 2; UData 2 (PAnnounce (lit "2.2.2.2")) (quiet [10]); UData 1 (to_two [7; 8; 9; 10]) (quiet [0]); URequest 1 (ask 7 "set-error-rate" [lit "1"; lit "20"]);
        UData 1 (to_two [1; 2; 3]) (quiet [0]); UData 1 (to_two [4; 5; 6]) (quiet [0])] /\
  runs ex_device es (usw_new ((1, 10), (RDefault, lit "1.0"), tt)) = (s, g) /\
  dispatched (d_enc ex_device) 2 g = [[7; 8; 9; 10]; [1; 2; 3]; [4; 5; 6]] /\ got 2 g = [[7; 8; 9; 10]; [4; 5; 6]] /\ waiting 2 s = [].
Proof. eexists _, _, _. split; [reflexivity|]. split; [vm_compute; reflexivity|]. split; [vm_compute; reflexivity|]. split; vm_compute; reflexivity. Qed.
(** After set-error-rate 1 -1 nothing arrives and an announcement does not register; with
    a good setting packets arrive again. *)
Example C67_ex_silent : exists s g,
  let es := [UMade 1; UMade 2; UMade 3; UData 2 (PAnnounce (lit "2.2.2.2")) (quiet [10]); URequest 1 (ask 7 "set-error-rate" [lit "1"; lit "-1"])] in
  let es2 := [UData 3 (PAnnounce (lit "2.2.2.2")) (quiet [10]); UData 1 (to_two [5]) (quiet [])] in
  let es3 := [URequest 1 (ask 7 "set-error-rate" [lit "1"; lit "20"]); UData 1 (to_two [6]) (quiet [20])] in
  ~ drawable (error_setting (1, 10) es) /\ connected nobody (es ++ es2 ++ es3) /\
  runs ex_device (es2 ++ es3) (after ex_device (1, 10) (RDefault, lit "1.0") tt es) = (s, g) /\
  got 2 g = [[6]] /\ got 3 g = [] /\ announced (1, 10) (es ++ es2 ++ es3) = [SReg (lit "2.2.2.2") 2].
Proof.
  eexists _, _. cbv zeta. split; [intros [X|X]; vm_compute in X; contradiction X; reflexivity|]. split; [cbn; tauto|]. split; [vm_compute; reflexivity|]. split; [vm_compute; reflexivity|]. split; vm_compute; reflexivity.
Qed.
Example C67_ex_recovers : exists c, snd (ce_writes2 (1, 3) [([7; 8; 9], ([0], [0])); ([1; 2], ([0], [1])); ([3; 4], ([0], [0]))] (Cet 4 [10] (1, 10))) = c /\ c = [None; Some [1; 2]; Some [3; 251]].
Proof. eexists. split; [reflexivity|]. vm_compute. reflexivity. Qed.
Print Assumptions C67_settings_reported.
Print Assumptions C67_dispatch.
Print Assumptions C67_each_once.
Print Assumptions C67_silent.
Print Assumptions C67_all_or_none.
Print Assumptions C67_recovers.
