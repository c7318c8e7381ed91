(** * The VNIC process does not hammer the switch *)
From Coq Require Import String.
From Coq Require Import List ZArith Bool Lia.
From Verif Require Import PyBase PyLemmas PnmsModel ConnSvcModel ProcModel ProcSpec ProcProofs.
Import ListNotations.
Open Scope Z_scope.

Section P.
Variables (port : Z) (ip : pystr) (sp : Z) (sf : bool) (t0 : Z).
Notation step := (pstep port ip sp sf).
Notation inv := (inv port ip sp).
Notation begun := (begun port ip sp sf).
Definition paced (p : proc) (x : phase) (n : Z) : Prop :=
  30 * n <= p_now p - t0 /\ forall t, x = Waits t -> 30 * (n + 1) <= t - t0.
Lemma now_step p e : p_now p <= p_now (step p e).
Proof. destruct e as [d|k| | |l r|l r]; cbn [pstep]; try (cbn; lia).
  - destruct (nth_error _ _); [destruct (_ <=? _)|]; cbn; lia.
  - destruct (p_attempts p); cbn; lia.
  - destruct (p_attempts p); cbn; lia.
  - destruct (mem _ _); [|lia]. unfold alert. destruct sf; destruct r; cbn; lia.
  - destruct (mem _ _); [|lia]. unfold alert. destruct sf; destruct r; cbn; lia.
Qed.
Lemma attempts_phase p x : inv p x -> p_attempts p = match x with Connects => 1%nat | _ => 0%nat end.
Proof. intros [Ph _ _ _ _ _ _]. destruct x; injection Ph as A B C D; exact B. Qed.
Lemma paced_step p x n e : inv p x -> paced p x n -> paced (step p e) (next_phase sf x p e) (n + (if Nat.ltb (p_attempts p) (p_attempts (step p e)) then 1 else 0)).
Proof.
  intros I0 [A B]. pose proof (step_inv port ip sp sf p x e I0) as I1. rewrite (attempts_phase _ _ I0), (attempts_phase _ _ I1). pose proof (now_step p e) as N.
  destruct e as [d|k| | |l r|l r]; cbn [next_phase] in *; destruct x as [t| |m|m|]; try (split; [cbn [Nat.ltb Nat.leb] in *; lia|]; intros t' X; try discriminate X; injection X as <-; specialize (B t eq_refl); cbn [Nat.ltb Nat.leb] in *; lia).
  - destruct k; [|split; [cbn [Nat.ltb Nat.leb] in *; lia|]; intros t' X; injection X as <-; specialize (B t eq_refl); cbn [Nat.ltb Nat.leb] in *; lia]. destruct (t <=? p_now p) eqn:Q.
    + apply Z.leb_le in Q. specialize (B t eq_refl). split; [cbn [Nat.ltb Nat.leb] in *; lia|discriminate].
    + split; [cbn [Nat.ltb Nat.leb] in *; lia|]. intros t' X. injection X as <-. specialize (B t eq_refl). cbn [Nat.ltb Nat.leb] in *. lia.
  - destruct k; split; try discriminate; cbn [Nat.ltb Nat.leb] in *; lia.
  - destruct k; split; try discriminate; cbn [Nat.ltb Nat.leb] in *; lia.
  - destruct k; split; try discriminate; cbn [Nat.ltb Nat.leb] in *; lia.
  - destruct k; split; try discriminate; cbn [Nat.ltb Nat.leb] in *; lia.
  - split; [cbn [Nat.ltb Nat.leb] in *; lia|]. intros t' X. injection X as <-. cbn [Nat.ltb Nat.leb] in *. lia.
  - destruct (Nat.eqb l m); (split; [cbn [Nat.ltb Nat.leb] in *; lia|discriminate]).
  - destruct (Nat.eqb l m); [|split; [cbn [Nat.ltb Nat.leb] in *; lia|discriminate]]. destruct sf; [destruct r|]; (split; [cbn [Nat.ltb Nat.leb] in *; lia|]; intros t' X; try discriminate X; injection X as <-; cbn [Nat.ltb Nat.leb] in *; lia).
Qed.
Lemma run_paced es : forall p x n, inv p x -> paced p x n -> 30 * (n + begun p es) <= p_now (prun port ip sp sf p es) - t0.
Proof.
  induction es as [|e es IH]; intros p x n I0 P.
  - destruct P as [A _]. unfold prun. cbn [ProcSpec.begun fold_left]. lia.
  - cbn [ProcSpec.begun]. cbv zeta. rewrite Z.add_assoc. apply (IH (step p e) (next_phase sf x p e)); [now apply step_inv|now apply paced_step].
Qed.
End P.
