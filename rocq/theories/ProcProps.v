(** * C64, C65: the VNIC process and what the manager reads of it *)
From Coq Require Import String.
From Coq Require Import List ZArith Bool Lia.
From Verif Require Import PyBase PyLemmas PnmsModel ConnSvcModel ProcModel ProcSpec ProcProofs ProcProofs2 ProcProofs3.
Import ListNotations.
Open Scope Z_scope.

(** the process after a history *)
Definition after (port : Z) (ip : pystr) (sp : Z) (status_first : bool) (t : Z) (es : list pevent) : proc := prun port ip sp status_first (start port ip sp t) es.

(** Whatever attempts fail and links are lost, the process is doing exactly one of:
    waiting at most 30 seconds for its next attempt, attempting, opening a link,
    having its one link up; provided the connector is told first or a loss can be written. *)
Theorem C64_one_chain port ip sp sf t es : sf = false \/ Forall losses_written es ->
  exists x, x <> Gone /\ at_phase (after port ip sp sf t es) x /\ (forall t', x = Waits t' -> t' <= p_now (after port ip sp sf t es) + 30).
Proof.
  intro H. destruct (run_gone port ip sp sf es H _ Connects ltac:(discriminate) (start_inv port ip sp t)) as (y & N & I0). exists y. split; [exact N|]. split; [exact (v_phase _ _ _ _ _ I0)|exact (v_timer _ _ _ _ _ I0)].
Qed.

(** In any history at most one of these at a time; "switch-live" is answered
    "Connected" exactly while the link is up. *)
Theorem C64_at_most_one port ip sp sf t es :
  let p := after port ip sp sf t es in
  exists x, at_phase p x /\ (switch_live p = lit "Connected" <-> p_links p <> []) /\ (p_connected p = true <-> p_links p <> []) /\ (p_links p <> [] -> p_link p = hd_error (p_links p)) /\ p_closing p = [].
Proof.
  intro p. destruct (run_inv port ip sp sf es _ _ (start_inv port ip sp t)) as [x I0]. change (prun port ip sp sf (start port ip sp t) es) with p in I0. exists x. destruct I0 as [Ph T L C K V F]. split; [exact Ph|]. destruct x; injection Ph as A B D E; unfold switch_live; rewrite V, K, L, E; cbn [is_up linked hd_error]; repeat split; try exact C; try reflexivity; try discriminate; intro X; try contradiction; try discriminate; exfalso; now apply X.
Qed.

(** While every write succeeds the file says what is: port, switch and whether the link is up. *)
Theorem C64_status port ip sp sf t es : Forall writes_ok es ->
  let p := after port ip sp sf t es in
  p_file p = print_int port ++ [10] ++ ip ++ [58] ++ print_int sp ++ [10] ++ lit (match p_links p with [] => "Disconnected" | _ => "Connected" end).
Proof.
  intros O p. destruct (run_file port ip sp sf es O _ _ (start_inv port ip sp t) eq_refl) as (y & I0 & F). change (prun port ip sp sf (start port ip sp t) es) with p in I0, F. destruct I0 as [Ph _ _ _ _ _ _]. rewrite F. unfold status_text. destruct y; injection Ph as A B D E; rewrite E; cbn [is_up status_word]; now rewrite <- !app_assoc.
Qed.

(** ... and the manager reports the device Live exactly while its link is up, Failed
    otherwise, and finds its port; provided the switch's name lacks the word "connected". *)
Theorem C64_reported port ip sp sf t es : Forall writes_ok es -> without "connected" ip ->
  let p := after port ip sp sf t es in
  connection_status (p_file p) = (match p_links p with [] => lit "Failed" | _ => lit "Live" end) /\ tcp_port (p_file p) = Ok port.
Proof.
  intros O W p. destruct (run_file port ip sp sf es O _ _ (start_inv port ip sp t) eq_refl) as (y & I0 & F). change (prun port ip sp sf (start port ip sp t) es) with p in I0, F. destruct I0 as [Ph _ _ _ _ _ _]. rewrite F. split.
  - rewrite whole by exact W. destruct y; injection Ph as A B D E; now rewrite E.
  - apply port_read.
Qed.

(** A file the manager reads while it is being written, or that was cut by a full disk,
    is never read as the status that is not being written; the port is right once its line is there. *)
Theorem C64_torn port ip sp s k : without "connected" ip ->
  (connection_status (firstn k (status_text port ip sp s)) = lit "Unknown" \/
   connection_status (firstn k (status_text port ip sp s)) = match s with Connected => lit "Live" | Disconnected => lit "Failed" end) /\
  ((List.length (print_int port) < k)%nat -> tcp_port (firstn k (status_text port ip sp s)) = Ok port).
Proof.
  intro W. split; [now apply torn|]. intro L. unfold status_text. rewrite firstn_app, firstn_all2 by lia. destruct (k - List.length (print_int port))%nat as [|j] eqn:J; [lia|]. cbn [app firstn]. apply port_read.
Qed.

(** ... so after any history whatever the device is reported Live, Failed or Unknown,
    and Live only when the last status that reached the file was "Connected". *)
Theorem C64_any_file port ip sp sf t es : without "connected" ip ->
  exists s k, p_file (after port ip sp sf t es) = firstn k (status_text port ip sp s) /\
  (connection_status (p_file (after port ip sp sf t es)) = lit "Live" -> s = Connected) /\ (connection_status (p_file (after port ip sp sf t es)) = lit "Failed" -> s = Disconnected).
Proof.
  intro W. destruct (run_inv port ip sp sf es _ _ (start_inv port ip sp t)) as [x I0]. change (prun port ip sp sf (start port ip sp t) es) with (after port ip sp sf t es) in I0. destruct (v_file _ _ _ _ _ I0) as (s & k & F). exists s, k. split; [exact F|]. rewrite F. destruct (torn port ip sp W s k) as [-> | ->]; destruct s; split; auto; vm_compute; discriminate.
Qed.

(** From any state it can reach the process needs at most 30 seconds to be connected again,
    once attempts succeed. *)
Theorem C64_reconnect port ip sp sf t es : sf = false \/ Forall losses_written es ->
  exists more, Forall no_trouble more /\ ticks more <= 30 /\ p_links (after port ip sp sf t (es ++ more)) <> [] /\
    (p_links (after port ip sp sf t es) = [] -> p_file (after port ip sp sf t (es ++ more)) = status_text port ip sp Connected).
Proof.
  intro H. destruct (run_gone port ip sp sf es H _ Connects ltac:(discriminate) (start_inv port ip sp t)) as (y & N & I0). change (prun port ip sp sf (start port ip sp t) es) with (after port ip sp sf t es) in I0. destruct (comes_up port ip sp sf _ _ N I0) as (more & l & A & B & C & D). exists more. split; [exact A|]. split; [exact B|].
  unfold after, prun in *. rewrite fold_left_app. split.
  - destruct C as [Ph _ _ _ _ _ _]. injection Ph as _ _ _ E. rewrite E. discriminate.
  - intro E. apply D. destruct I0 as [Ph _ _ _ _ _ _]. destruct y; try reflexivity. injection Ph as _ _ _ E'. congruence.
Qed.

(** Refuted in full: told first, the status listener's failed write at a loss keeps the
    connector from being told. The VNIC never connects again, and is reported Live for ever. *)
Theorem C64_stuck_refuted : exists es, forall more,
  let p := after 40123 (lit "10.0.0.7") 9090 true 0 (es ++ more) in
  p_links p = [] /\ p_timers p = [] /\ p_attempts p = 0%nat /\ switch_live p = lit "Not Connected" /\ connection_status (p_file p) = lit "Live".
Proof.
  exists [POpen; PUp 0 WOk; PTick 5; PLost 0 WOpenFails]. intros more p.
  assert (G : inv 40123 (lit "10.0.0.7") 9090 (after 40123 (lit "10.0.0.7") 9090 true 0 [POpen; PUp 0 WOk; PTick 5; PLost 0 WOpenFails]) Gone).
  { split; try reflexivity; try discriminate. exists Connected, 100%nat. vm_compute. reflexivity. }
  destruct (gone_stays _ _ _ true more _ G) as [X F]. assert (P : p = prun 40123 (lit "10.0.0.7") 9090 true (after 40123 (lit "10.0.0.7") 9090 true 0 [POpen; PUp 0 WOk; PTick 5; PLost 0 WOpenFails]) more) by (unfold p, after, prun; now rewrite fold_left_app).
  rewrite <- P in X, F. destruct X as [Ph _ _ _ _ V _]. injection Ph as A B D E. rewrite A, B, E, F. unfold switch_live. rewrite V. repeat split; vm_compute; reflexivity.
Qed.

(** Refuted for a switch whose name has the word: up, and reported Failed; down, and ... *)
Theorem C64_name_refuted : exists ip es, let p := after 40123 ip 9090 false 0 es in
  Forall writes_ok es /\ p_links p <> [] /\ switch_live p = lit "Connected" /\ connection_status (p_file p) = lit "Failed".
Proof. exists (lit "disconnected.example"), [POpen; PUp 0 WOk]. repeat split; try (vm_compute; reflexivity); [repeat constructor|discriminate]. Qed.

(** Refuted for a port number that is cut: the manager connects elsewhere. *)
Theorem C64_cut_port_refuted : exists k, tcp_port (firstn k (status_text 40123 (lit "10.0.0.7") 9090 Connected)) = Ok 401.
Proof. exists 3%nat. vm_compute. reflexivity. Qed.

(** Non-vacuity: a lost link, a failed attempt, a second link. *)
Example C64_example : let es := [POpen; PUp 0 WOk; PTick 7; PLost 0 WOk; PTick 30; PFire 0; PFail; PTick 30; PFire 0; POpen; PUp 1 WOk] in
  Forall writes_ok es /\ Forall losses_written es /\ without "connected" (lit "10.0.0.7") /\ p_links (after 40123 (lit "10.0.0.7") 9090 true 0 es) = [1%nat] /\ p_now (after 40123 (lit "10.0.0.7") 9090 true 0 es) = 67 /\
  connection_status (p_file (after 40123 (lit "10.0.0.7") 9090 true 0 es)) = lit "Live".
Proof.
  split; [repeat constructor|]. split; [repeat constructor|]. split; [|repeat split; vm_compute; reflexivity].
  intros a b E. assert (X : In 99 (map ascii_lower (lit "10.0.0.7"))) by (rewrite E; apply in_or_app; right; now left). cbn in X. repeat (destruct X as [X|X]; [discriminate|]). exact X.
Qed.
(** a failed write, the other order: the attempt is still made *)
Example C64_example_order : p_timers (after 40123 (lit "10.0.0.7") 9090 false 0 [POpen; PUp 0 WOk; PTick 5; PLost 0 WOpenFails]) = [35]. Proof. reflexivity. Qed.

(** ** C65: is a process alive? *)

(** Of ps's output (its header, a line for each process it found, blank lines)
    the answer is yes exactly when one process is listed. *)
Theorem C65_alive head rows blanks :
  header head -> Forall line rows -> Forall line blanks -> Forall blank blanks -> (forall r last, rows = r ++ [last] -> ~ blank last) ->
  is_pid_alive (unlines (head :: rows ++ blanks)) = true <-> List.length rows = 1%nat.
Proof.
  intros Hd R BL B N. unfold is_pid_alive. rewrite split_unlines by (constructor; [exact (proj1 Hd)|apply Forall_app; now split]). cbn [app drop_header]. rewrite (header_found _ Hd). rewrite <- app_assoc.
  rewrite drop_end.
  - destruct rows as [|a [|b r]]; cbn; split; intro X; try discriminate; reflexivity.
  - apply Forall_app. split; [exact B|]. repeat constructor.
  - destruct rows as [|a r]; [now left|right]. destruct (exists_last (l := a :: r) ltac:(discriminate)) as (r' & z & E). exists r', z. split; [exact E|exact (N _ _ E)].
Qed.

(** The last line need not be ended. *)
Theorem C65_unended head row : header head -> line row -> ~ blank row -> is_pid_alive (head ++ 10 :: row) = true.
Proof.
  intros Hd R N. unfold is_pid_alive. assert (S1 : split_on 10 row = [row]).
  { pose proof (split_unlines [row] ltac:(now constructor)) as X. cbn in X. clear - R. induction row as [|c r IH]; [reflexivity|]. cbn. destruct (Z.eq_dec c 10) as [E|E]; [subst; exfalso; apply R; now left|]. rewrite IH; [reflexivity|]. intro X. apply R. now right. }
  rewrite split_on_app by exact (proj1 Hd). rewrite S1. cbn [drop_header]. rewrite (header_found _ Hd). cbn [rev app]. rewrite drop_blank_stop by exact N. reflexivity.
Qed.

(** Refuted for other outputs: a message of one line counts as a living process,
    and a dead process's ps that prints no header at all does not. *)
Theorem C65_message_refuted : is_pid_alive (lit "error: process ID out of range" ++ [10]) = true /\ is_pid_alive [] = false.
Proof. split; vm_compute; reflexivity. Qed.

Example C65_example : header (lit "  PID TTY          TIME CMD") /\ is_pid_alive (unlines [lit "  PID TTY          TIME CMD"; lit " 4711 pts/0    00:00:00 python3"]) = true /\ is_pid_alive (unlines [lit "  PID TTY          TIME CMD"]) = false.
Proof.
  split; [|split; vm_compute; reflexivity]. split; [intro X; cbn in X; repeat (destruct X as [X|X]; [discriminate|]); exact X|]. exists (lit "  "), (lit " TTY          TIME CMD"). split; [|reflexivity]. repeat constructor; right; reflexivity.
Qed.

Print Assumptions C64_one_chain. Print Assumptions C64_at_most_one. Print Assumptions C64_status. Print Assumptions C64_reported. Print Assumptions C64_torn. Print Assumptions C64_any_file. Print Assumptions C64_reconnect. Print Assumptions C64_stuck_refuted. Print Assumptions C64_name_refuted. Print Assumptions C64_cut_port_refuted.
Print Assumptions C65_alive. Print Assumptions C65_unended. Print Assumptions C65_message_refuted.

(** Attempts are 30 seconds apart: however often connecting fails, a process that has
    run for s seconds has begun at most 1 + s/30 attempts (the first one at its start). *)
Theorem C64_paced port ip sp sf t es :
  30 * begun port ip sp sf (start port ip sp t) es <= p_now (after port ip sp sf t es) - t.
Proof.
  pose proof (run_paced port ip sp sf t es _ Connects 0 (start_inv port ip sp t)) as H. rewrite Z.add_0_l in H. apply H. split; [cbn; lia|discriminate].
Qed.
Example C64_paced_example : begun 40123 (lit "10.0.0.7") 9090 true (start 40123 (lit "10.0.0.7") 9090 0) [PFail; PTick 30; PFire 0; PFail; PTick 29; PFire 0; PTick 1; PFire 0] = 2. Proof. vm_compute. reflexivity. Qed.
Print Assumptions C64_paced.
