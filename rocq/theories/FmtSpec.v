(** * What is expected of the texts of log records (see FmtModel) *)
From Coq Require Import String.
From Coq Require Import List ZArith Bool.
From Verif Require Import PyBase.
Import ListNotations.

(** A format is written from pieces *)
Inductive piece := Plain (s : pystr) | Twice | Named (k : pystr) | Here.
Definition written (p : piece) : pystr :=
  match p with Plain s => s | Twice => lit "%%" | Named k => lit "%(" ++ k ++ lit ")s" | Here => lit "%s" end.
Definition writes (ps : list piece) : pystr := concat (map written ps).
(** no percent sign; no parenthesis *)
Definition no_percent (s : pystr) : Prop := ~ In 37%Z s.
Definition simple (k : pystr) : Prop := ~ In 40%Z k /\ ~ In 41%Z k.
Definition piece_ok (p : piece) : Prop := match p with Plain s => no_percent s | Named k => simple k | _ => True end.
(** What the reader should see, given the value of each key and of each place *)
Fixpoint reads (key : pystr -> option pystr) (places : list pystr) (ps : list piece) : option pystr :=
  match ps with
  | [] => match places with [] => Some [] | _ => None end
  | p :: r =>
      match p, places with
      | Plain s, _ => option_map (app s) (reads key places r)
      | Twice, _ => option_map (app [37%Z]) (reads key places r)
      | Named k, _ => match key k with Some v => option_map (app v) (reads key places r) | None => None end
      | Here, v :: l => option_map (app v) (reads key l r)
      | Here, [] => None
      end
  end.
(** A piece of plain text or with a key *)
Definition keyed (p : piece) : Prop := match p with Plain _ | Named _ => True | _ => False end.
Definition unnamed (p : piece) : Prop := match p with Named _ => False | _ => True end.
Definition unplaced (p : piece) : Prop := match p with Here => False | _ => True end.
(** the first of two lookups that knows the key *)
Definition either (f g : pystr -> option pystr) (k : pystr) : option pystr := match f k with Some v => Some v | None => g k end.
Definition itself (k : pystr) : option pystr := Some (written (Named k)).
(** [f] is what the converters make of the special data *)
Definition converts {X} (converters : pystr -> option (X -> res pystr)) (data : list (pystr * X)) (f : pystr -> option pystr) : Prop :=
  (forall k x, In (k, x) data -> exists g v, converters k = Some g /\ g x = Ok v /\ f k = Some v) /\
  (forall k, f k <> None -> In k (map fst data)).
