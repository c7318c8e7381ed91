(** * Model of ProtocolObservation (network/common/Protocol.py 87-193)

    Protocols, transports and listeners are numbers.  A protocol object has
    three replaceable methods, a transport object has one (write).  What the
    code outside does when it is called (the protocol's own methods, the
    transport's own write, the listeners) is an arbitrary reaction that may
    depend on everything that has happened and may call back. *)
From Coq Require Import List ZArith Bool.
From Verif Require Import PyBase.
Import ListNotations.
Open Scope nat_scope.

(** the four events, 106-109, with the argument of the call *)
Inductive ev := EMade (t : nat) | ELost | EData (d : bytes) | ESent (d : bytes).
(** the methods that are replaced, 164-174 *)
Inductive kind := KMade | KLost | KData.
(** a callable: the object's own method, or one of the lambdas of adapter [a] *)
Inductive meth := MOrig | MWrap (a : nat).
(** what is called *)
Inductive op := Listen (p l : nat) | Stop (p l : nat)
  | Made (p t : nat) | Lost (p : nat) | Data (p : nat) (d : bytes) | Write (t : nat) (d : bytes).
(** what can be seen from outside: the protocol's own method ran, the
    transport's own write ran, a listener was told, a top level call raised *)
Inductive oexn := XApp | XRuntime | XRecursion | XNone | XAttr.
Inductive out := OCall (p : nat) (e : ev) | OWrite (t : nat) (d : bytes)
  | ONote (l p : nat) (e : ev) | OExn (x : oexn).

(** does the protocol's connection_made store the transport in self.transport
    (as StackingProtocol's users do), does the attribute exist but stay None, or
    is there no such attribute (asyncio.Protocol defines none)? *)
Inductive tstyle := Keeps | StaysNone | NoAttr.
Record react := React { r_ops : list op; r_throw : bool }.
Record env := Env {
  app : list out -> nat -> ev -> react;            (* the protocol's own methods *)
  peer : list out -> nat -> bytes -> react;        (* the transport's own write *)
  lst : list out -> nat -> nat -> ev -> react;     (* a listener *)
  style : nat -> tstyle;
  order : list nat -> list nat }.                  (* iteration order of a set *)

(** ProtocolAdapter, 111-118 *)
Record adapter := Ad { ad_proto : nat; ad_orig : kind -> option meth;
  ad_transport : option nat; ad_write : option meth; ad_listeners : list nat }.

Record pst := Pst {
  s_slot : nat -> kind -> option meth;   (* p.connection_made, ..., None if set to None *)
  s_write : nat -> meth;                 (* t.write *)
  s_ptrans : nat -> option nat;          (* p.transport *)
  s_ad : nat -> adapter; s_next : nat;   (* adapters made so far *)
  s_obs : nat -> option nat;             (* OBSERVED_PROTOCOLS *)
  s_out : list out }.
Definition ad0 : adapter := Ad 0 (fun _ => None) None None [].
Definition pst0 : pst :=
  Pst (fun _ _ => Some MOrig) (fun _ => MOrig) (fun _ => None) (fun _ => ad0) 0 (fun _ => None) [].

Definition fset {A} (f : nat -> A) (k : nat) (v : A) : nat -> A := fun x => if x =? k then v else f x.

Definition emit (o : out) (s : pst) : pst :=
  Pst (s_slot s) (s_write s) (s_ptrans s) (s_ad s) (s_next s) (s_obs s) (s_out s ++ [o]).
Definition set_ad (a : nat) (d : adapter) (s : pst) : pst :=
  Pst (s_slot s) (s_write s) (s_ptrans s) (fset (s_ad s) a d) (s_next s) (s_obs s) (s_out s).
Definition set_ptrans (p : nat) (t : option nat) (s : pst) : pst :=
  Pst (s_slot s) (s_write s) (fset (s_ptrans s) p t) (s_ad s) (s_next s) (s_obs s) (s_out s).

(** EnableProtocol, 159-175: a new adapter remembers the present methods and
    the methods are replaced by its lambdas *)
Definition enable (p : nat) (s : pst) : pst :=
  match s_obs s p with
  | Some _ => s
  | None =>
      let a := s_next s in
      Pst (fset (s_slot s) p (fun _ => Some (MWrap a))) (s_write s) (s_ptrans s)
          (fset (s_ad s) a (Ad p (s_slot s p) None None [])) (S a)
          (fset (s_obs s) p (Some a)) (s_out s)
  end.
(** listeners is a set *)
Definition set_add (l : nat) (ls : list nat) : list nat := if existsb (Nat.eqb l) ls then ls else ls ++ [l].
Definition set_remove (l : nat) (ls : list nat) : list nat := filter (fun x => negb (x =? l)) ls.
Definition with_listeners (f : list nat -> list nat) (d : adapter) : adapter :=
  Ad (ad_proto d) (ad_orig d) (ad_transport d) (ad_write d) (f (ad_listeners d)).
(** Listen, 177-180 *)
Definition listen (p l : nat) (s : pst) : pst :=
  let s1 := enable p s in
  match s_obs s1 p with
  | Some a => set_ad a (with_listeners (set_add l) (s_ad s1 a)) s1
  | None => s1
  end.
(** restoreProtocol, 128-141, of adapter [a] on protocol [p] *)
Definition restore (a p : nat) (s : pst) : pst :=
  let d := s_ad s a in
  Pst (fset (s_slot s) p (ad_orig d))                                   (* 129-131 *)
      (match ad_transport d, ad_write d with
       | Some t, Some w => fset (s_write s) t w                         (* 132-133 *)
       | _, _ => s_write s
       end)
      (s_ptrans s)
      (fset (s_ad s) a (Ad (ad_proto d) (fun _ => None)
          (match ad_transport d, ad_write d with Some _, Some _ => None | x, _ => x end)
          None (ad_listeners d)))                                       (* 134-138 *)
      (s_next s)
      (fset (s_obs s) p None)                                           (* 140-141 *)
      (s_out s).
(** StopListening, 182-189 *)
Definition stop (p l : nat) (s : pst) : pst :=
  match s_obs s p with
  | None => s
  | Some a =>
      if existsb (Nat.eqb l) (ad_listeners (s_ad s a)) then
        let s1 := set_ad a (with_listeners (set_remove l) (s_ad s a)) s in
        match ad_listeners (s_ad s1 a) with [] => restore a p s1 | _ => s1 end
      else s
  end.
(** transportData, 120-126 *)
Definition transportData (a t : nat) (s : pst) : pst :=
  let d := s_ad s a in
  Pst (s_slot s) (fset (s_write s) t (MWrap a)) (s_ptrans s)
      (fset (s_ad s) a (Ad (ad_proto d) (ad_orig d) (Some t) (Some (s_write s t)) (ad_listeners d)))
      (s_next s) (s_obs s) (s_out s).

(** Following lambdas down to the object's own method.  Each lambda reads the
    adapter's attribute when it is called (164-174, 123-126) and nothing happens
    between two lambdas of a chain, so the chain can be followed first: the list
    of adapters, outermost first.  An attribute that is None is not callable; a
    chain longer than the number of adapters never ends. *)
Fixpoint chain (n : nat) (attr : nat -> option meth) (m : option meth) : oexn + list nat :=
  match m with
  | None => inl XNone
  | Some MOrig => inr []
  | Some (MWrap a) =>
      match n with
      | 0 => inl XRecursion
      | S n' => match chain n' attr (attr a) with inl x => inl x | inr r => inr (a :: r) end
      end
  end.

Definition result : Type := pst * option oexn.
Definition andThen (r : result) (f : pst -> result) : result :=
  match snd r with None => f (fst r) | Some _ => r end.

Fixpoint seq (f : op -> pst -> result) (ops : list op) (s : pst) : result :=
  match ops with [] => (s, None) | o :: r => andThen (f o s) (seq f r) end.
Definition perform (f : op -> pst -> result) (r : react) (s : pst) : result :=
  andThen (seq f (r_ops r) s) (fun s => (s, if r_throw r then Some XApp else None)).

(** the loop at 150-151; Python checks at every step that the size of the set
    has not changed *)
Fixpoint notify (E : env) (f : op -> pst -> result) (a p : nat) (e : ev) (size : nat) (ls : list nat) (s : pst) : result :=
  match ls with
  | [] => (s, None)
  | l :: r =>
      andThen (perform f (lst E (s_out s) l p e) (emit (ONote l p e) s)) (fun s1 =>
        if length (ad_listeners (s_ad s1 a)) =? size then notify E f a p e size r s1
        else (s1, Some XRuntime))
  end.
(** protocolEvent, 144-157, after the method (145) has returned *)
Definition report (E : env) (f : op -> pst -> result) (p : nat) (e : ev) (s : pst) : result :=
  match s_obs s p with                                                  (* 146-148 *)
  | None => (s, None)
  | Some a =>
      let ls := ad_listeners (s_ad s a) in
      andThen (notify E f a p e (length ls) (order E ls) s) (fun s1 =>
        match e with
        | EMade _ =>                                                    (* 152-153 *)
            match style E p with
            | NoAttr => (s1, Some XAttr)
            | _ => match s_ptrans s1 p with
                   | Some t => (transportData a t s1, None)
                   | None => (s1, None)
                   end
            end
        | ELost => (restore a p s1, None)                               (* 154-155 *)
        | _ => (s1, None)
        end)
  end.
(** one protocolEvent per lambda of the chain, innermost first *)
Fixpoint reports (E : env) (f : op -> pst -> result) (ps : list nat) (e : ev) (s : pst) : result :=
  match ps with
  | [] => (s, None)
  | p :: r => andThen (reports E f r e s) (report E f p e)
  end.

Definition kind_of (e : ev) : kind := match e with EMade _ => KMade | ELost => KLost | _ => KData end.
(** the protocol's own method: for connection_made, store the transport first *)
Definition own (E : env) (f : op -> pst -> result) (p : nat) (e : ev) (s : pst) : result :=
  let s1 := match e, style E p with EMade t, Keeps => set_ptrans p (Some t) s | _, _ => s end in
  perform f (app E (s_out s) p e) (emit (OCall p e) s1).
(** calling p.connection_made(...) etc. *)
Definition call (E : env) (f : op -> pst -> result) (p : nat) (e : ev) (s : pst) : result :=
  match chain (S (s_next s)) (fun a => ad_orig (s_ad s a) (kind_of e)) (s_slot s p (kind_of e)) with
  | inl x => (s, Some x)
  | inr as_ => let ps := map (fun a => ad_proto (s_ad s a)) as_ in
               andThen (own E f p e s) (reports E f ps e)
  end.
(** calling t.write(d) *)
Definition call_write (E : env) (f : op -> pst -> result) (t : nat) (d : bytes) (s : pst) : result :=
  match chain (S (s_next s)) (fun a => ad_write (s_ad s a)) (Some (s_write s t)) with
  | inl x => (s, Some x)
  | inr as_ => let ps := map (fun a => ad_proto (s_ad s a)) as_ in
               andThen (perform f (peer E (s_out s) t d) (emit (OWrite t d) s)) (reports E f ps (ESent d))
  end.

(** [n] bounds the nesting of calls of protocols and transports, as Python's
    recursion limit does *)
Fixpoint exec (E : env) (n : nat) (o : op) (s : pst) : result :=
  match o, n with
  | Listen p l, _ => (listen p l s, None)
  | Stop p l, _ => (stop p l s, None)
  | _, 0 => (s, Some XRecursion)
  | Made p t, S n' => call E (exec E n') p (EMade t) s
  | Lost p, S n' => call E (exec E n') p ELost s
  | Data p d, S n' => call E (exec E n') p (EData d) s
  | Write t d, S n' => call_write E (exec E n') t d s
  end.
(** a history: exceptions of top level calls are seen, and the next call follows *)
Fixpoint run (E : env) (n : nat) (ops : list op) (s : pst) : pst :=
  match ops with
  | [] => s
  | o :: r => let (s1, x) := exec E n o s in
              run E n r (match x with None => s1 | Some x => emit (OExn x) s1 end)
  end.
