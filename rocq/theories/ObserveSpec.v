(** * Specification of protocol observation: who listens to whom

    No method is replaced here: a call runs the protocol's own method, and then
    the listeners of the protocol are told.  [Misuse] marks what the
    specification gives no meaning to: a listener that changes who listens to
    the very protocol being reported, and connection_made on a protocol or with
    a transport that is already connected under observation. *)
From Coq Require Import List ZArith Bool.
From Verif Require Import PyBase ObserveModel.
Import ListNotations.
Open Scope nat_scope.

(** a session: its number, the listeners, and the transport whose writes are
    reported *)
Record sess := Sess { x_id : nat; x_ls : list nat; x_tap : option nat }.
Record ost := Ost { o_sess : nat -> option sess; o_tap : nat -> option nat;
                    o_trans : nat -> option nat; o_next : nat; o_out : list out }.
Definition ost0 : ost := Ost (fun _ => None) (fun _ => None) (fun _ => None) 0 [].
Inductive verdict := Fine | Exn (x : oexn) | Misuse.
Definition oresult : Type := ost * verdict.
Definition oThen (r : oresult) (f : ost -> oresult) : oresult :=
  match snd r with Fine => f (fst r) | _ => r end.

Definition oemit (o : out) (s : ost) : ost :=
  Ost (o_sess s) (o_tap s) (o_trans s) (o_next s) (o_out s ++ [o]).
Definition o_listen (p l : nat) (s : ost) : ost :=
  match o_sess s p with
  | Some x => Ost (fset (o_sess s) p (Some (Sess (x_id x) (set_add l (x_ls x)) (x_tap x))))
                  (o_tap s) (o_trans s) (o_next s) (o_out s)
  | None => Ost (fset (o_sess s) p (Some (Sess (o_next s) [l] None)))
                (o_tap s) (o_trans s) (S (o_next s)) (o_out s)
  end.
(** the end of a session *)
Definition o_end (p : nat) (s : ost) : ost :=
  match o_sess s p with
  | None => s
  | Some x => Ost (fset (o_sess s) p None)
                  (match x_tap x with Some t => fset (o_tap s) t None | None => o_tap s end)
                  (o_trans s) (o_next s) (o_out s)
  end.
Definition o_stop (p l : nat) (s : ost) : ost :=
  match o_sess s p with
  | None => s
  | Some x =>
      match set_remove l (x_ls x) with
      | [] => if existsb (Nat.eqb l) (x_ls x) then o_end p s else s
      | r => Ost (fset (o_sess s) p (Some (Sess (x_id x) r (x_tap x))))
                 (o_tap s) (o_trans s) (o_next s) (o_out s)
      end
  end.

Fixpoint oseq (f : op -> ost -> oresult) (ops : list op) (s : ost) : oresult :=
  match ops with [] => (s, Fine) | o :: r => oThen (f o s) (oseq f r) end.
Definition operform (f : op -> ost -> oresult) (r : react) (s : ost) : oresult :=
  oThen (oseq f (r_ops r) s) (fun s => (s, if r_throw r then Exn XApp else Fine)).

Definition same_audience (x : sess) (s : ost) (p : nat) : bool :=
  match o_sess s p with
  | Some y => (x_id y =? x_id x) && (if list_eq_dec Nat.eq_dec (x_ls y) (x_ls x) then true else false)
  | None => false
  end.
Fixpoint otell (E : env) (f : op -> ost -> oresult) (x : sess) (p : nat) (e : ev) (ls : list nat) (s : ost) : oresult :=
  match ls with
  | [] => (s, Fine)
  | l :: r => oThen (operform f (lst E (o_out s) l p e) (oemit (ONote l p e) s)) (fun s1 =>
                if same_audience x s1 p then otell E f x p e r s1 else (s1, Misuse))
  end.
(** the writes of transport [t] are reported from now on *)
Definition o_tapping (p t : nat) (s : ost) : oresult :=
  match o_sess s p with
  | None => (s, Fine)
  | Some x =>
      match x_tap x, o_tap s t with
      | None, None => (Ost (fset (o_sess s) p (Some (Sess (x_id x) (x_ls x) (Some t))))
                           (fset (o_tap s) t (Some p)) (o_trans s) (o_next s) (o_out s), Fine)
      | _, _ => (s, Misuse)
      end
  end.
Definition oreport (E : env) (f : op -> ost -> oresult) (p : nat) (e : ev) (s : ost) : oresult :=
  match o_sess s p with
  | None => (s, Fine)
  | Some x =>
      oThen (otell E f x p e (order E (x_ls x)) s) (fun s1 =>
        match e with
        | EMade _ => match style E p with
                     | NoAttr => (s1, Exn XAttr)
                     | _ => match o_trans s1 p with Some t => o_tapping p t s1 | None => (s1, Fine) end
                     end
        | ELost => (o_end p s1, Fine)
        | _ => (s1, Fine)
        end)
  end.
Definition oown (E : env) (f : op -> ost -> oresult) (p : nat) (e : ev) (s : ost) : oresult :=
  let s1 := match e, style E p with
            | EMade t, Keeps => Ost (o_sess s) (o_tap s) (fset (o_trans s) p (Some t)) (o_next s) (o_out s)
            | _, _ => s end in
  operform f (app E (o_out s) p e) (oemit (OCall p e) s1).
(** the protocol's own method runs; if the protocol was listened to when the
    call came, those who listen when it returns are told *)
Definition ocall (E : env) (f : op -> ost -> oresult) (p : nat) (e : ev) (s : ost) : oresult :=
  let watched := match o_sess s p with Some _ => true | None => false end in
  oThen (oown E f p e s) (fun s1 => if watched then oreport E f p e s1 else (s1, Fine)).
Definition owrite (E : env) (f : op -> ost -> oresult) (t : nat) (d : bytes) (s : ost) : oresult :=
  let who := o_tap s t in
  oThen (operform f (peer E (o_out s) t d) (oemit (OWrite t d) s)) (fun s1 =>
    match who with Some p => oreport E f p (ESent d) s1 | None => (s1, Fine) end).

Fixpoint oexec (E : env) (n : nat) (o : op) (s : ost) : oresult :=
  match o, n with
  | Listen p l, _ => (o_listen p l s, Fine)
  | Stop p l, _ => (o_stop p l s, Fine)
  | _, 0 => (s, Exn XRecursion)
  | Made p t, S n' => ocall E (oexec E n') p (EMade t) s
  | Lost p, S n' => ocall E (oexec E n') p ELost s
  | Data p d, S n' => ocall E (oexec E n') p (EData d) s
  | Write t d, S n' => owrite E (oexec E n') t d s
  end.
(** None: somewhere in the history there was misuse *)
Fixpoint orun (E : env) (n : nat) (ops : list op) (s : ost) : option ost :=
  match ops with
  | [] => Some s
  | o :: r => match oexec E n o s with
              | (_, Misuse) => None
              | (s1, Fine) => orun E n r s1
              | (s1, Exn x) => orun E n r (oemit (OExn x) s1)
              end
  end.

(** what the protocols and transports themselves see *)
Definition is_note (o : out) : bool := match o with ONote _ _ _ => true | _ => false end.
Definition unnoted (tr : list out) : list out := filter (fun o => negb (is_note o)) tr.
(** the same program without any observation *)
Definition is_obs (o : op) : bool := match o with Listen _ _ | Stop _ _ => true | _ => false end.
Definition unobserved (ops : list op) : list op := filter (fun o => negb (is_obs o)) ops.
Definition unobserved_react (r : react) : react := React (unobserved (r_ops r)) (r_throw r).
Definition unobserved_env (E : env) : env :=
  Env (fun tr p e => unobserved_react (app E tr p e)) (fun tr t d => unobserved_react (peer E tr t d))
      (lst E) (style E) (order E).
(** listeners that only look; programs that do not see the listeners *)
Definition silent (E : env) : Prop := forall tr l p e, lst E tr l p e = React [] false.
Definition blind (E : env) : Prop :=
  (forall tr p e, app E tr p e = app E (unnoted tr) p e) /\
  (forall tr t d, peer E tr t d = peer E (unnoted tr) t d).
