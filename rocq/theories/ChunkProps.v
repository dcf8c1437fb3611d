(** C23, C24, C65: the chunked transfer coding. Model in ChunkModel.v, vocabulary in ChunkSpec.v. *)

From Coq Require Import List Arith Bool NArith ZArith Lia.
From Verif Require Import Bytes ReadModel ReadSpec ReadProofs ReadUntilProofs ChunkModel ChunkSpec ChunkProofs.
Import ListNotations.

(** C23. What the writer sends for any writes is a message in the chunked coding, ... *)
Theorem C23_writer_output : forall ds d,
  h_out (fold_left wstep (map HWrite ds ++ [HWriteEof d]) writer_init) = coded hex (filter nonempty (ds ++ [d])).
Proof. exact written. Qed.
Print Assumptions C23_writer_output.

(** ... with size lines that are the sizes in hexadecimal, ... *)
Theorem C23_size_line : forall n, hex_line (hex n) /\ line_value (hex n) = N.of_nat n.
Proof. exact hex_spec. Qed.
Print Assumptions C23_size_line.

(** ... and reading it gives what was written and leaves what follows. *)
Theorem C23_round_trip : forall ds d rest fuel, S (length ds) < fuel ->
  let out := h_out (fold_left wstep (map HWrite ds ++ [HWriteEof d]) writer_init) in
  exists cs o, read_chunked fuel [out ++ rest] 0 = CDone (concat (ds ++ [d])) cs o /\ unread cs o = rest.
Proof. exact round_trip. Qed.
Print Assumptions C23_round_trip.

Example C23_nonvacuous :
  let ops := map HWrite [[13; 10; 48; 13; 10]; []; [1; 2; 3; 4; 5; 6; 7; 8; 9; 10; 11; 12; 13; 14; 15; 16; 17]]%N ++ [HWriteEof [7]%N] in
  let out := h_out (fold_left wstep ops writer_init) in
  length out = 44 /\
  read_chunked 9 [out ++ [71; 69; 84]%N] 0 =
    CDone [13; 10; 48; 13; 10; 1; 2; 3; 4; 5; 6; 7; 8; 9; 10; 11; 12; 13; 14; 15; 16; 17; 7]%N [out ++ [71; 69; 84]%N] 44.
Proof. vm_compute. split; reflexivity. Qed.

(** C24. The same message in another segmentation is rejected: a segment border between CR and LF of the second size
    line. *)
Theorem C24_segmentation_refuted : exists ds s1 s2,
  Forall (fun d => d <> []) ds /\ chunks_ok s1 /\ chunks_ok s2 /\ concat s1 = coded hex ds /\ concat s2 = coded hex ds /\
  read_chunked 9 s1 0 = CDone (concat ds) [] 0 /\ read_chunked 9 s2 0 = CBad [1; 2; 3; 4; 5]%N.
Proof.
  exists [[1; 2; 3; 4; 5]; [6; 7; 8; 9; 10]]%N,
    [[53; 13; 10; 1; 2; 3; 4; 5; 13; 10; 53; 13; 10; 6; 7; 8; 9; 10; 13; 10; 48; 13; 10; 13; 10]]%N,
    [[53; 13; 10; 1; 2; 3; 4; 5; 13; 10; 53; 13]; [10; 6; 7; 8; 9; 10; 13; 10; 48; 13; 10; 13; 10]]%N.
  csplit; try (vm_compute; reflexivity); repeat constructor; discriminate.
Qed.
Print Assumptions C24_segmentation_refuted.

(** C24. Every other segmentation is decoded right: no segment that begins before a size line ends between CR and LF of
    that size line. Missing: the segmentations with such a segment; some of them are decoded wrong, see above. *)
Theorem C24_segmentation_partial : forall ds segments rest fuel, Forall (fun d => d <> []) ds -> chunks_ok segments ->
  concat segments = coded hex ds ++ rest -> no_bad_cut hex ds segments -> length ds < fuel ->
  exists cs' o', read_chunked fuel segments 0 = CDone (concat ds) cs' o' /\ unread cs' o' = rest.
Proof. exact chunked_segmented. Qed.
Print Assumptions C24_segmentation_partial.

(** C24. Resuming a suspended reader with a segment is having had that segment behind the others. *)
Theorem C24_exact_resume : forall n cs o d out k o', off_ok cs o -> exact_start n cs o = Wait out k o' ->
  prepend out (resume k d o') = exact_start n (cs ++ [d]) o.
Proof. exact exact_resume. Qed.
Print Assumptions C24_exact_resume.

Theorem C24_until_resume : forall b cs sizes held o d out k o', off_ok cs o -> chunks_ok cs ->
  until_loop b sizes held cs o = Wait out k o' ->
  prepend out (resume k d o') = until_loop b sizes held (cs ++ [d]) o.
Proof. exact until_resume_gen. Qed.
Print Assumptions C24_until_resume.

(** Byte by byte is a segmentation without a bad cut. *)
Example C24_nonvacuous :
  let ds := [[1; 2; 3; 4; 5]; [6; 7; 8; 9; 10]]%N in
  let s := map (fun x => [x]) (coded hex ds) in
  read_chunked 3 s 0 = CDone (concat ds) [] 0 /\ no_bad_cut hex ds s.
Proof.
  cbv zeta. split; [vm_compute; reflexivity|]. intros ds0 c ds1 E (xs & ys & ED & L & Q).
  assert (H : length c = 1).
  { assert (I : In c (ds0 ++ c :: ds1)) by (apply in_or_app; right; left; reflexivity). rewrite <- E in I. apply in_map_iff in I.
    destruct I as (x & <- & _). reflexivity. }
  apply (f_equal (@length _)) in Q. rewrite concat_app, !app_length in Q. cbn [concat] in Q. rewrite app_nil_r in Q.
  cbn [length] in Q.
  assert (P : 1 <= length (match ys with [] => [48%N] | d :: _ => hex (length d) end)).
  { destruct ys as [|d ys]; cbn [length]; [lia|]. destruct (hex_spec (length d)) as [[A _] _]. destruct (hex (length d)); [congruence|cbn; lia]. }
  unfold bytes, byte in *. lia.
Qed.

(** C65. Size lines that are no hexadecimal numbers are taken: a sign, 0x, blanks, underscores. *)
Theorem C65_size_lines_refuted : exists lines : list bytes,
  Forall (fun l => ~ hex_line l) lines /\ length lines = 5 /\
  Forall (fun l => exists cs o, read_chunked 9 [l ++ [13; 10; 1; 2; 3; 4; 5; 13; 10; 48; 13; 10; 13; 10]%N] 0 = CDone [1; 2; 3; 4; 5]%N cs o) lines.
Proof.
  exists [[43; 53]; [48; 120; 53]; [32; 53; 9]; [48; 95; 53]; [53; 32]]%N. csplit; [|reflexivity|].
  - repeat constructor; intros [_ F]; rewrite Forall_forall in F;
    [assert (Q := F 43%N)|assert (Q := F 120%N)|assert (Q := F 32%N)|assert (Q := F 95%N)|assert (Q := F 32%N)];
    cbn in Q; assert (Z := Q ltac:(tauto)); repeat destruct Z as [Z|Z]; try discriminate; contradiction.
  - repeat constructor; eexists; eexists; vm_compute; reflexivity.
Qed.
Print Assumptions C65_size_lines_refuted.

(** C65. Even a negative size is not rejected as malformed. *)
Theorem C65_negative_size_refuted : read_chunked 9 [[45; 53; 13; 10; 13; 10]%N] 0 = CNegative.
Proof. vm_compute. reflexivity. Qed.
Print Assumptions C65_negative_size_refuted.

(** C65. The hexadecimal size lines, with or without extension, mean their number. Missing: that nothing else is
    taken. *)
Theorem C65_size_lines_partial : forall l, hex_line l ->
  int16 (strip_extension l) = Some (Z.of_N (line_value l)) /\
  forall ext, int16 (strip_extension (l ++ 59%N :: ext)) = Some (Z.of_N (line_value l)).
Proof.
  intros l H. split; [|intro ext; apply size_line_value; assumption]. rewrite strip_extension_hex by apply H. apply int16_hex. assumption.
Qed.
Print Assumptions C65_size_lines_partial.

Example C65_nonvacuous : hex_line [49; 70; 97]%N /\ line_value [49; 70; 97]%N = 506%N.
Proof. split; [split; [discriminate|repeat constructor; cbn; tauto]|reflexivity]. Qed.
