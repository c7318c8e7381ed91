(** * What is expected of the status texts of pnetworking (see StatModel) *)
From Coq Require Import String.
From Coq Require Import List ZArith Bool.
From Verif Require Import PyBase AddrModel PnmsModel PnmsSpec DeviceModel VsvcModel VsvcSpec.
Import ListNotations.

(** [l] is the first line of [s], with its end if it has one *)
Definition first_of (s l : pystr) : Prop :=
  (exists b r, l = b ++ [10%Z] /\ s = l ++ r /\ ~ In 10%Z b) \/ (l = s /\ ~ In 10%Z s).
(** [w] occurs in [s], capitals or not *)
Definition small (z : Z) : Z := if Z.leb 65 z && Z.leb z 90 then (z + 32)%Z else z.
Definition occurs (w s : pystr) : Prop := exists a b, map small s = a ++ w ++ b.
Definition endl : pystr := [10%Z].
Definition indent : pystr := [9%Z].

Definition managed (n : net) (d : pystr) : bool := eqb (option_of n d (lit "physical_connection_type")) (Some (lit "managed")).
(** A device that works: a remote access point counts as working *)
Definition in_use (n : net) (os : pystr -> osd) (d : pystr) : bool :=
  if iface n d then works n os d else is_remote_ap n d || runs_at os d.
(** The word for it; a VNIC that runs without a working access point waits *)
Definition word (n : net) (os : pystr -> osd) (d : pystr) : pystr :=
  if in_use n os d then lit "Enabled" else if iface n d && runs_at os d then lit "Waiting" else lit "Disabled".
(** What a VNIC that works has written about its link *)
Definition link_word (s : pystr) (x : pystr) : Prop :=
  (occurs (lit "disconnected") s /\ x = lit "Failed") \/
  (~ occurs (lit "disconnected") s /\ occurs (lit "connected") s /\ x = lit "Live") \/
  (~ occurs (lit "disconnected") s /\ ~ occurs (lit "connected") s /\ x = lit "Unknown").
Definition truth (b : bool) : pystr := if b then lit "True" else lit "False".
Definition show_loc (l : location) : pystr :=
  match l_host l with Some h => h | None => lit "None" end ++ lit ":" ++ match l_port l with Some p => print_int p | None => lit "None" end.
Definition then_ {A B} (x : A + verr) (f : A -> B + verr) : B + verr := match x with inl a => f a | inr e => inr e end.

Section Text.
  (** the network; what ran before the command, and once the configuration was
      loaded; the pid files; the first lines of the status files, and what
      [link_word] says of the whole *)
  Context (n : net) (os0 os1 : pystr -> osd) (pid : pystr -> Z) (first link : pystr -> pystr).

  (** Is the process number shown?  The run files are there, unless the device
      does not work and is a managed access point of a VNIC shown before *)
  Definition pid_shown (earlier : list pystr) (d : pystr) : bool :=
    o_files (os1 d) && negb (Z.eqb (pid d) 0) &&
    (in_use n os0 d || negb (managed n d && existsb (fun x => eqb (t_conn n x) (Some d)) earlier)).
  Definition about (t : pystr) (earlier : list pystr) (d : pystr) : pystr :=
    t ++ lit " " ++ d ++ lit ":" ++ endl ++
    indent ++ lit "Status: " ++ word n os0 d ++ lit " " ++ (if pid_shown earlier d then lit "(PID: " ++ print_int (pid d) ++ lit ")" else []) ++ endl ++
    indent ++ lit "Auto-Enable: " ++ truth (eqb (option_of n d (lit "auto_enable")) (Some (lit "true"))) ++ endl.
  (** where an access point is reached *)
  Definition access_place (a : pystr) : location + verr := place_ap n a (runs_at os0 a) true (first a).
  Definition block (earlier : list pystr) (d : pystr) : pystr + verr :=
    match t_dev n d with
    | None => inr (VPy AttributeError)
    | Some (t, _) =>
        if eqb t (lit "switch") then
          then_ (access_place d) (fun l => inl (about t earlier d ++
            indent ++ lit "PNMS Managed: " ++ truth (managed n d) ++ endl ++
            indent ++ lit "TCP Location: " ++ show_loc l ++ endl))
        else if eqb t (lit "vnic") then
          then_ (match t_conn n d with
                 | None => inl (lit "None")
                 | Some a => then_ (access_place a) (fun l => inl (a ++ lit " (" ++ show_loc l ++ lit ")"))
                 end) (fun c =>
          match own_address n d with
          | None => inr (VPy KeyError)
          | Some a => inl (about t earlier d ++
              indent ++ lit "Playground Address: " ++ a ++ endl ++
              indent ++ lit "Connected To: " ++ c ++ lit " (" ++ (if works n os0 d then link d else lit "Disabled") ++ lit ")" ++ endl ++
              indent ++ lit "Routes:" ++ endl ++
              concat (map (fun p => indent ++ indent ++ fst p ++ endl) (filter (fun p => eqb (snd p) d) (t_routes n))))
          end)
        else inl (about t earlier d)
    end.
  (** the devices one after the other, each followed by an empty line *)
  Fixpoint blocks (earlier ds : list pystr) : pystr + verr :=
    match ds with
    | [] => inl []
    | d :: r => then_ (block earlier d) (fun x => then_ (blocks (earlier ++ [d]) r) (fun y => inl (x ++ endl ++ y)))
    end.
  Definition status_page (ds : list pystr) : pystr + verr :=
    then_ (blocks [] ds) (fun x => inl (endl ++ lit "Playground Networking Configuration:" ++ endl ++ lit "-------------------------------------" ++ endl ++ endl ++ x)).
End Text.
(** The devices in the order in which they were added *)
Fixpoint added (ks : list command) (n : net) (ds : list pystr) : list pystr :=
  match ks with
  | [] => ds
  | k :: r =>
      match effect k n with
      | None => added r n ds
      | Some n' => added r n' (match k with CAdd d _ _ => ds ++ [d] | CRemove d => filter (fun x => negb (eqb x d)) ds | _ => ds end)
      end
  end.
