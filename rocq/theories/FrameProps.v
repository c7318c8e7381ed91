(** * C25: framed data round-trips and corrupted frames are detected *)
From Coq Require Import List ZArith Bool Lia.
From Verif Require Import PyBase PyLemmas StreamModel StreamProofs FrameModel FrameSpec FrameProofs.
Import ListNotations.
Open Scope Z_scope.

(** Opening a stream as a frame succeeds exactly on the well-formed starts, and
    fails with a FramingError otherwise; nothing else is raised. *)
Theorem C25_accepts_exactly_well_formed : forall b, stream_ok b ->
  (snd (adapter_new b) = Ok tt <-> well_formed_start (unread b)) /\
  (snd (adapter_new b) = Ok tt \/ snd (adapter_new b) = Raise FramingError) /\
  b_data (fa_stream (fst (adapter_new b))) = b_data b.
Proof.
  intros b S. destruct (adapter_new_cases b S) as [[L E]|[(L & n & Sn & F & C)|(L & N & k & F & E)]].
  - rewrite E. cbn [fst snd]. repeat split; auto. left. exact L.
  - destruct C as [[C E]|[(C & Ft & E)|(C & Ft & f & k & Hf & _ & E)]]; rewrite E; cbn [fst snd].
    + repeat split; auto. right. exists n. auto.
    + repeat split; auto. right. exists n. auto.
    + repeat split; auto. discriminate. intros [W|(m & Sm & Fm & W)]; [lia|].
      exfalso. rewrite F in Fm. apply frame_header_inj in Fm; auto. subst m. destruct W; [lia|contradiction].
  - rewrite E. cbn [fst snd]. repeat split; auto; [discriminate|]. intros [W|(m & Sm & Fm & W)]; [lia|].
    exfalso. exact (N m Sm Fm).
Qed.

(** Writing: any non-empty sequence of writes at the end of a stream appends
    exactly one frame around the concatenation. *)
Theorem C25_write_appends_frame : forall pre d ds, bytes_ok pre -> zlen (concat (d :: ds)) < 2 ^ 32 ->
  exists a0 a1, adapter_new (Bio pre (zlen pre)) = (a0, Ok tt) /\
    write_all (d :: ds) a0 = (a1, Ok tt) /\
    exists a2, fa_write_frame a1 = (a2, Ok tt) /\
      fa_stream a2 = Bio (pre ++ frame (concat (d :: ds))) (zlen (pre ++ frame (concat (d :: ds)))).
Proof.
  intros pre d ds B L. pose proof (zlen_nonneg pre).
  assert (S : stream_ok (Bio pre (zlen pre))) by (split; [cbn [b_data b_pos]; lia|exact B]).
  destruct (adapter_new_cases _ S) as [[_ E]|[(C & _)|(C & _)]].
  2,3: unfold unread in C; cbn [b_data b_pos] in C; rewrite zlen_skipn in C; lia.
  cbn [b_pos] in E. exists (Adapter (Bio pre (zlen pre)) (zlen pre) None false false), (writing pre (concat (d :: ds))).
  split; [exact E|]. split.
  - cbn [write_all]. rewrite fa_write_first, write_all_more. reflexivity.
  - rewrite fa_write_frame_writing by exact L. eexists. split; [reflexivity|]. reflexivity.
Qed.

(** Reading: opening at the start of a frame, with anything before and after
    it, the reads deliver the written data cut into the requested pieces,
    unchanged, and closing the frame leaves the stream at the first byte after
    it. *)
Theorem C25_read_back : forall pre data post ns, bytes_ok pre -> bytes_ok data -> bytes_ok post ->
  zlen data < 2 ^ 32 -> Forall (fun n => 0 <= n) ns -> zsum ns <= zlen data ->
  exists a0 a1 a2, adapter_new (Bio (pre ++ frame data ++ post) (zlen pre)) = (a0, Ok tt) /\
    read_all ns a0 = (a1, Ok (pieces ns data)) /\
    fa_close_frame a1 = (a2, Ok tt) /\ fa_stream a2 = Bio (pre ++ frame data ++ post) (zlen (pre ++ frame data)).
Proof.
  intros pre data post ns Bp Bd Bq L F Hs.
  set (d := pre ++ frame data ++ post).
  exists (reading d (zlen pre) (zlen data) 0), (reading d (zlen pre) (zlen data) (0 + zsum ns)).
  eexists. split; [|split; [|split]].
  - unfold d. rewrite adapter_new_frame by assumption. unfold started, reading. cbn [b_data]. rewrite Z.add_0_r. reflexivity.
  - unfold d. rewrite read_all_frame by (auto; lia). reflexivity.
  - reflexivity.
  - cbn [fa_stream with_stream reading]. unfold at_pos, d. cbn [b_data fa_stream fa_start reading]. f_equal.
    unfold reading, PREFIX_SIZE, SUFFIX_SIZE, frame; cbn [fa_start]; rewrite !zlen_app, frame_header_len, frame_trailer_len; lia.
Qed.
(** In particular one read of everything *)
Corollary C25_read_back_whole : forall pre data post, bytes_ok pre -> bytes_ok data -> bytes_ok post ->
  zlen data < 2 ^ 32 ->
  exists a0 a1 a2, adapter_new (Bio (pre ++ frame data ++ post) (zlen pre)) = (a0, Ok tt) /\
    fa_read (zlen data) a0 = (a1, Ok data) /\
    fa_close_frame a1 = (a2, Ok tt) /\ fa_stream a2 = Bio (pre ++ frame data ++ post) (zlen (pre ++ frame data)).
Proof.
  intros pre data post Bp Bd Bq L. pose proof (zlen_nonneg data).
  destruct (C25_read_back pre data post [zlen data] Bp Bd Bq L) as (a0 & a1 & a2 & E0 & E1 & E2 & E3).
  - repeat constructor. lia.
  - cbn [zsum]. lia.
  - exists a0, a1, a2. split; [exact E0|]. split; [|split; [exact E2|exact E3]].
    cbn [read_all pieces] in E1. destruct (fa_read (zlen data) a0) as [a' [x|e]]; [|discriminate].
    apply pair_equal_spec in E1. destruct E1 as [-> E1]. apply Ok_inj in E1. injection E1 as ->.
    f_equal. f_equal. unfold zlen. rewrite Nat2Z.id. apply firstn_all.
Qed.

(** Corruption: a header with one byte altered, and a trailer altered in any
    way, are refused; the stream's contents are untouched. *)
Theorem C25_header_byte_detected : forall pre n h rest, bytes_ok pre -> bytes_ok h -> bytes_ok rest ->
  0 <= n < 2 ^ 32 -> one_byte_changed (frame_header n) h ->
  snd (adapter_new (Bio (pre ++ h ++ rest) (zlen pre))) = Raise FramingError.
Proof.
  intros pre n h rest Bp Bh Br Hn C. pose proof (zlen_nonneg pre). pose proof (zlen_nonneg rest).
  assert (Lh : zlen h = 12).
  { rewrite <- (frame_header_len n). destruct C as (u & x & y & v & -> & -> & _). rewrite !zlen_app, !zlen_cons. reflexivity. }
  set (b := Bio (pre ++ h ++ rest) (zlen pre)).
  assert (U : unread b = h ++ rest) by (unfold unread, b; cbn [b_data b_pos]; apply skipn_app_z).
  assert (S : stream_ok b).
  { split; [unfold b; cbn [b_data b_pos]; rewrite !zlen_app; lia|]. unfold b; cbn [b_data]. rewrite !bytes_ok_app. auto. }
  assert (F : firstn 12 (unread b) = h) by (rewrite U; apply firstn_app_z; exact Lh).
  destruct (adapter_new_cases b S) as [[L _]|[(_ & m & Sm & Fm & _)|(_ & _ & k & _ & E)]].
  - rewrite U, zlen_app in L. lia.
  - exfalso. apply (header_corrupt n m h); auto. rewrite <- F. exact Fm.
  - rewrite E. reflexivity.
Qed.
Theorem C25_trailer_change_detected : forall pre data t rest, bytes_ok pre -> bytes_ok data -> bytes_ok t -> bytes_ok rest ->
  zlen data < 2 ^ 32 -> zlen t = 12 -> t <> frame_trailer (zlen data) ->
  snd (adapter_new (Bio (pre ++ (frame_header (zlen data) ++ data ++ t) ++ rest) (zlen pre))) = Raise FramingError.
Proof.
  intros pre data t rest Bp Bd Bt Br L Lt N. pose proof (zlen_nonneg pre). pose proof (zlen_nonneg rest). pose proof (zlen_nonneg data).
  set (b := Bio (pre ++ (frame_header (zlen data) ++ data ++ t) ++ rest) (zlen pre)).
  assert (U : unread b = frame_header (zlen data) ++ data ++ t ++ rest).
  { unfold unread, b; cbn [b_data b_pos]. rewrite skipn_app_z, <- !app_assoc. reflexivity. }
  assert (S : stream_ok b).
  { split; [unfold b; cbn [b_data b_pos]; rewrite !zlen_app; pose proof (zlen_nonneg (frame_header (zlen data))); lia|].
    unfold b; cbn [b_data]. rewrite !bytes_ok_app. repeat split; auto using frame_header_ok. }
  assert (ZU : zlen (unread b) = 24 + zlen data + zlen rest) by (rewrite U, !zlen_app, frame_header_len; lia).
  assert (F : firstn 12 (unread b) = frame_header (zlen data)) by (rewrite U; apply firstn_app_z, frame_header_len).
  assert (Ft : firstn 12 (skipn (Z.to_nat (12 + zlen data)) (unread b)) = t).
  { rewrite U, (app_assoc (frame_header _)), skipn_app_exact. apply firstn_app_z; exact Lt.
    rewrite app_length. pose proof (frame_header_len (zlen data)). unfold zlen in *. lia. }
  destruct (adapter_new_cases b S) as [[C _]|[(_ & m & Sm & Fm & C)|(_ & _ & k & _ & E)]].
  - lia.
  - rewrite F in Fm. apply frame_header_inj in Fm; [|unfold is_size; lia|exact Sm]. subst m.
    destruct C as [[C _]|[(_ & C & _)|(_ & _ & f & k & _ & _ & E)]]; [lia|rewrite Ft in C; contradiction|rewrite E; reflexivity].
  - rewrite E. reflexivity.
Qed.

(** Truncation: a frame whose trailer has not fully arrived can be opened but
    not closed; closing it is refused and the contents are untouched. *)
Theorem C25_truncated_not_closed : forall b a, stream_ok b -> adapter_new b = (a, Ok tt) ->
  (zlen (unread b) < 12 \/ forall n, 0 <= n < 2 ^ 32 -> firstn 12 (unread b) = frame_header n -> zlen (unread b) < 24 + n) ->
  snd (fa_close_frame a) = Raise FramingError /\ b_data (fa_stream (fst (fa_close_frame a))) = b_data b.
Proof.
  intros b a S E T.
  assert (N : fa_endChecked a = false /\ b_data (fa_stream a) = b_data b).
  { destruct (adapter_new_cases b S) as [[L E']|[(L & n & Sn & F & C)|(L & N & k & F & E')]].
    - rewrite E' in E. injection E as <-. auto.
    - destruct T as [T|T]; [lia|]. specialize (T n Sn F). destruct C as [[C E']|[(C & _)|(C & _)]]; try lia. rewrite E' in E. injection E as <-. auto.
    - rewrite E' in E. discriminate. }
  destruct N as [N D]. unfold fa_close_frame. rewrite N. cbn [negb]. unfold fail. cbn [fst snd fa_stream with_stream]. split; [reflexivity|].
  rewrite <- D. generalize (Z.to_nat (raw_available (fa_stream a))) as n. generalize (fa_stream a) as s. clear. intros s n. revert s.
  induction n as [|n IH]; intros s; cbn [skip_to_magic]; [reflexivity|].
  destruct ((4 <=? raw_available s) && negb (eqb (ubio_peek 4 s) MAGIC))%bool; [rewrite IH; reflexivity|reflexivity].
Qed.
Print Assumptions C25_truncated_not_closed.
(** Recovery: after a refused header the stream stands at the next header
    magic (or less than four bytes from the end), searching from the refused
    position; after a refused trailer the search starts behind its size or at
    its end. *)
Theorem C25_recovery : forall b, stream_ok b -> snd (adapter_new b) = Raise FramingError ->
  exists f k, (f = b_pos b \/ exists n, 0 <= n < 2 ^ 32 /\ firstn 12 (unread b) = frame_header n /\
                  (f = b_pos b + 12 + n + 8 \/ f = b_pos b + 12 + n + 12)) /\
    first_magic (skipn (Z.to_nat f) (b_data b)) k /\
    fa_stream (fst (adapter_new b)) = Bio (b_data b) (f + Z.of_nat k).
Proof.
  intros b S R. destruct (adapter_new_cases b S) as [[L E]|[(L & n & Sn & F & C)|(L & N & k & F & E)]].
  - rewrite E in R. discriminate.
  - destruct C as [[C E]|[(C & Ft & E)|(C & Ft & f & k & Hf & Fm & E)]]; rewrite E in R |- *; try discriminate.
    exists f, k. split; [right; exists n; auto|]. split; [exact Fm|reflexivity].
  - rewrite E. exists (b_pos b), k. split; [left; reflexivity|]. split; [exact F|reflexivity].
Qed.

(** ** What is not detected *)

(** The data itself is not protected: any data of the same length is accepted. *)
Theorem C25_payload_unprotected : forall pre (data data' : bytes) post, bytes_ok pre -> bytes_ok data' -> bytes_ok post ->
  zlen data < 2 ^ 32 -> zlen data' = zlen data ->
  exists a0 a1, adapter_new (Bio (pre ++ (frame_header (zlen data) ++ data' ++ frame_trailer (zlen data)) ++ post) (zlen pre)) = (a0, Ok tt) /\
    fa_read (zlen data) a0 = (a1, Ok data').
Proof.
  intros pre data data' post Bp Bd Bq L E. rewrite <- E in *. 
  destruct (C25_read_back_whole pre data' post Bp Bd Bq L) as (a0 & a1 & a2 & A & R & _).
  exists a0, a1. unfold frame in A. split; [exact A|exact R].
Qed.
(** Two altered size bytes and a matching checksum: the header for size 512 and
    the header for size 65537 have the same checksum, so changing the size
    field alone goes unnoticed. *)
Theorem C25_size_change_undetected :
  exists h, h <> frame_header 512 /\ firstn 4 h = firstn 4 (frame_header 512) /\
    skipn 8 h = skipn 8 (frame_header 512) /\ snd (adapter_new (Bio (h ++ repeat 7 20) 0)) = Ok tt.
Proof. exists (frame_header 65537). repeat split. discriminate. Qed.
(** A refused header that starts with the magic leaves the stream where it was. *)
Theorem C25_no_progress_on_bad_checksum : exists b, stream_ok b /\
  snd (adapter_new b) = Raise FramingError /\ fa_stream (fst (adapter_new b)) = b.
Proof.
  exists (Bio (MAGIC ++ repeat 0 8) 0). split; [|split; reflexivity].
  split; [cbn; lia|]. repeat constructor; lia.
Qed.
(** A read is cut at the end of the stream, not at the end of the frame. *)
Theorem C25_read_crosses_frame_end : exists (data post : bytes) a0 a1 got,
  adapter_new (Bio (frame data ++ post) 0) = (a0, Ok tt) /\
  fa_read 100 a0 = (a1, Ok got) /\ zlen data < zlen got.
Proof.
  exists [1; 2], (frame [3]). do 3 eexists. split; [vm_compute; reflexivity|]. split; [vm_compute; reflexivity|]. vm_compute. reflexivity.
Qed.
(** Closing a frame nothing was written to is an error. *)
Theorem C25_empty_frame_not_writable : forall pre a0 a1 r, bytes_ok pre ->
  adapter_new (Bio pre (zlen pre)) = (a0, Ok tt) -> fa_write_frame a0 = (a1, r) -> r = Raise StructError.
Proof.
  intros pre a0 a1 r B E W. pose proof (zlen_nonneg pre).
  assert (S : stream_ok (Bio pre (zlen pre))) by (split; [cbn [b_data b_pos]; lia|exact B]).
  destruct (adapter_new_cases _ S) as [[_ E']|[(C & _)|(C & _)]].
  2,3: unfold unread in C; cbn [b_data b_pos] in C; rewrite zlen_skipn in C; lia.
  rewrite E' in E. injection E as <-. unfold fa_write_frame in W. cbn [fa_endChecked fa_size] in W. injection W as _ <-. reflexivity.
Qed.

(** ** The hypotheses are met *)
Example C25_ex_write : exists a0 a1 a2, adapter_new (Bio [9; 9] 2) = (a0, Ok tt) /\
  write_all [[5; 8]; []; [13; 21; 77]] a0 = (a1, Ok tt) /\ fa_write_frame a1 = (a2, Ok tt) /\
  b_data (fa_stream a2) = [9; 9] ++ frame [5; 8; 13; 21; 77].
Proof. do 3 eexists. split; [vm_compute; reflexivity|]. split; [vm_compute; reflexivity|]. split; vm_compute; reflexivity. Qed.
Example C25_ex_read : exists a0 a1, adapter_new (Bio (frame [5; 8; 13; 21; 77] ++ [1; 2]) 0) = (a0, Ok tt) /\
  read_all [2; 0; 3] a0 = (a1, Ok [[5; 8]; []; [13; 21; 77]]).
Proof. do 2 eexists. split; [vm_compute; reflexivity|]. vm_compute; reflexivity. Qed.
Example C25_ex_bad : snd (adapter_new (Bio ([5; 8; 13; 21; 0; 0; 0; 3] ++ skipn 8 (frame [1; 2])) 0)) = Raise FramingError.
Proof. vm_compute. reflexivity. Qed.
Example C25_ex_changed : one_byte_changed (frame_header 2) ([5; 8; 13; 21; 0; 0; 0; 3] ++ skipn 8 (frame_header 2)).
Proof. exists [5; 8; 13; 21; 0; 0; 0], 2, 3, (skipn 8 (frame_header 2)). repeat split; try reflexivity. lia. Qed.
Example C25_ex_trailer : snd (adapter_new (Bio ([9] ++ (frame_header 2 ++ [1; 2] ++ frame_trailer 3) ++ []) 1)) = Raise FramingError.
Proof. vm_compute. reflexivity. Qed.
Example C25_ex_recover : exists k, fa_stream (fst (adapter_new (Bio ([1; 2; 3] ++ frame [4]) 0))) = Bio ([1; 2; 3] ++ frame [4]) k /\ k = 3.
Proof. exists 3. split; [vm_compute; reflexivity|reflexivity]. Qed.

Print Assumptions C25_accepts_exactly_well_formed.
Print Assumptions C25_write_appends_frame.
Print Assumptions C25_read_back.
Print Assumptions C25_header_byte_detected.
Print Assumptions C25_trailer_change_detected.
Print Assumptions C25_recovery.
