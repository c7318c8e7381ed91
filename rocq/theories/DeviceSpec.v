(** * What is expected of enabling and disabling devices *)
From Coq Require Import String.
From Coq Require Import List ZArith Bool.
From Verif Require Import PyBase DeviceModel.
Import ListNotations.

(** A configuration as C50 guarantees it: an interface is connected to an access point that is there *)
Record good_net (n : dnet) : Prop := {
  gn_nodup : NoDup (dkeys n);
  gn_conn : forall d v c, dget n d = Some v -> v_kind v = DIface (Some c) -> exists b a, dget n c = Some (Dev (DAccess b) a)
}.
(** [runs]: which devices run.  A device that can be used: remote, or running *)
Definition usable (n : dnet) (runs : pystr -> bool) (d : pystr) : bool :=
  match dget n d with Some (Dev (DAccess true) _) => true | _ => runs d end.
(** Whether what a device needs can be used *)
Definition ready (n : dnet) (runs : pystr -> bool) (d : pystr) : bool :=
  match dget n d with
  | Some (Dev (DAccess _) _) => true
  | Some (Dev (DIface (Some c)) _) => usable n runs c
  | _ => false
  end.
Definition is_iface (n : dnet) (d : pystr) : bool := match dget n d with Some (Dev (DIface _) _) => true | _ => false end.
Definition is_remote (n : dnet) (d : pystr) : bool := match dget n d with Some (Dev (DAccess true) _) => true | _ => false end.
Definition unconnected (n : dnet) (d : pystr) : bool := match dget n d with Some (Dev (DIface None) _) => true | _ => false end.
Definition autos (n : dnet) (d : pystr) : bool := match dget n d with Some v => v_auto v | None => false end.
(** what an interface is connected to *)
Definition needs (n : dnet) (d c : pystr) : Prop := exists a, dget n d = Some (Dev (DIface (Some c)) a).
(** Which processes run, before the run of pnetworking *)
Definition up (os : pystr -> osd) (d : pystr) : bool := os_running (os d).
(** An interface that runs although what it is connected to does not *)
Definition stranded (n : dnet) (os : pystr -> osd) (d : pystr) : bool := is_iface n d && up os d && negb (ready n (up os) d).
(** every process that is started comes up; every one told to stop does *)
Definition starts_work (w : world) : Prop := forall k, os_running (w_launch w k) = true.
Definition stops_work (w : world) : Prop := forall k, w_kill w k = true.
