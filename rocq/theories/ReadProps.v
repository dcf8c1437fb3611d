(** C18, C19, C63, C64: reading from a connection. Model in ReadModel.v, vocabulary in ReadSpec.v. *)

From Coq Require Import List Arith Bool NArith Lia.
From Verif Require Import Bytes ReadModel ReadSpec ReadProofs ReadUntilProofs.
Import ListNotations.

(** C18. Whatever the segmentation and the timing of the data and of the reads: the answers are right answers for the
    stream of all bytes received so far, whatever follows, and what they leave unread is what is buffered. *)
Theorem C18_reads_serve_stream : forall ops, plain ops ->
  let '(w, l) := exec init ops in
  forall more, (w_eof w = true -> more = []) ->
  serves (received ops ++ more) (accepted l) (w_acc w ++ unread (w_chunks w) (w_offset w) ++ more).
Proof. exact served. Qed.
Print Assumptions C18_reads_serve_stream.

(** C18. Two histories with the same bytes and the same reads but another segmentation and another timing give the same
    answers. *)
Theorem C18_segmentation_independent : forall ops1 ops2, plain ops1 -> plain ops2 -> received ops1 = received ops2 ->
  let l1 := accepted (snd (exec init ops1)) in let l2 := accepted (snd (exec init ops2)) in
  map fst l1 = map fst l2 -> Forall (fun r => r <> ROnce) (map fst l1) -> l1 = l2.
Proof. exact segmentation_independent. Qed.
Print Assumptions C18_segmentation_independent.

(** C18. A read that waits lacks bytes. *)
Theorem C18_no_needless_wait : forall ops, plain ops -> let w := fst (exec init ops) in
  forall r k, w_reader w = Some (r, k) ->
  w_chunks w = [] /\ w_eof w = false /\
  match r with RExact n | RUpTo n => length (w_acc w) < n | ROnce => w_acc w = [] | _ => True end.
Proof. exact no_needless_wait. Qed.
Print Assumptions C18_no_needless_wait.

Definition seg_a : list op :=
  [ORead (RExact 3); OData [1; 2]%N; OData [3; 4; 5; 6]%N; ORead (RExact 1); ORead (RUpTo 4); OData [7; 8; 9]%N; ORead RAll; OEof; ORead (RExact 1)].
Definition seg_b : list op :=
  [OData [1; 2; 3; 4]%N; ORead (RExact 3); ORead (RExact 1); OData [5; 6; 7]%N; ORead (RUpTo 4); ORead (RExact 7); OData [8; 9]%N; ORead RAll; OEof; ORead (RExact 1)].

Example C18_nonvacuous :
  plain seg_a /\ plain seg_b /\ received seg_a = received seg_b /\
  accepted (snd (exec init seg_a)) =
    [(RExact 3, AData [1; 2; 3]%N); (RExact 1, AData [4]%N); (RUpTo 4, AData [5; 6; 7; 8]%N); (RAll, AData [9]%N); (RExact 1, AError)] /\
  accepted (snd (exec init seg_b)) = accepted (snd (exec init seg_a)) /\
  snd (exec init seg_b) <> accepted (snd (exec init seg_b)).
Proof. unfold plain. csplit; try reflexivity. discriminate. Qed.

Example C18_nonvacuous_waiting :
  exists r k, w_reader (fst (exec init [OData [1; 2]%N; ORead (RExact 1); ORead (RExact 4); OData [3; 4]%N])) = Some (r, k).
Proof. eexists _, _. reflexivity. Qed.

Ltac fsplit := csplit; [split|..].

Definition CR : byte := 13%N.
Definition LF : byte := 10%N.

(** C19, false: bytes held back for a possible delimiter are dropped when the match dies in a short segment. *)
Theorem C19_loses_bytes_refuted :
  exists b ds pre post out, first_split b (concat ds) pre post /\
  snd (exec init (ORead (RUntil b) :: map OData ds)) = [(RUntil b, AData out)] /\ length out < length pre.
Proof.
  exists [CR; LF; CR; LF], [[97; 98; CR]; [120]; [121; 122; CR; LF; CR; LF]]%N,
    [97; 98; CR; 120; 121; 122]%N, [], [97; 98; 121; 122]%N.
  fsplit.
  - reflexivity.
  - intros p s E. cbn [length]. do 6 (destruct p as [|? p]; [discriminate E|cbn in E; injection E as _ E]).
    cbn [length]. lia.
  - reflexivity.
  - cbn. lia.
Qed.
Print Assumptions C19_loses_bytes_refuted.

(** C19, false: a delimiter that overlaps itself and ends exactly at a segment border swallows a byte in front of it. *)
Theorem C19_overlap_refuted :
  exists b ds pre post out, first_split b (concat ds) pre post /\
  snd (exec init (ORead (RUntil b) :: map OData ds)) = [(RUntil b, AData out)] /\ length out < length pre.
Proof.
  exists [97; 97; 98]%N, [[97; 97]; [97; 98]]%N, [97]%N, [], []. fsplit.
  - reflexivity.
  - intros p s E. cbn [length]. destruct p as [|? p]; [discriminate E|]. cbn [length]. lia.
  - reflexivity.
  - cbn. lia.
Qed.
Print Assumptions C19_overlap_refuted.

(** C19, false: a delimiter over a segment border is missed when the first segment is already partly read, and the next
    delimiter is taken instead. *)
Theorem C19_misses_delimiter_refuted :
  exists b first ds pre post out,
  let ops := [OData first; ORead (RUntil b)] in let w := fst (exec init ops) in
  snd (exec init ops) = [(RUntil b, AData [104]%N)] /\
  first_split b (unread (w_chunks w) (w_offset w) ++ concat ds) pre post /\
  snd (exec w (ORead (RUntil b) :: map OData ds)) = [(RUntil b, AData out)] /\ length pre < length out.
Proof.
  exists [CR; LF], [104; CR; LF; 97; CR]%N, [[LF; 98; CR; LF]]%N, [97]%N, [98; CR; LF]%N, [97; CR; LF; 98]%N. cbv zeta. csplit; [|split|..].
  - reflexivity.
  - reflexivity.
  - intros p s E. cbn [length]. destruct p as [|? p]; [discriminate E|]. cbn [length]. lia.
  - reflexivity.
  - cbn. lia.
Qed.
Print Assumptions C19_misses_delimiter_refuted.

(** C19, the true part. Provided the consumed part of the first buffered segment is harmless ([offset_ok]: nothing
    consumed, or a one byte delimiter, or enough left): for EVERY segmentation read_until waits exactly as long as there
    is no delimiter and stops exactly behind the first one; the data it returns is the data before it with possibly some
    bytes missing, and exactly that data when the later segments are at least as long as the delimiter, or the delimiter
    has at most two bytes. *)
Theorem C19_read_until_partial : forall w b (ds : list bytes), b <> [] -> idle w -> offset_ok b w ->
  Forall (fun d => d <> []) ds ->
  let '(w', l) := exec w (ORead (RUntil b) :: map OData ds) in
  let D := unread (w_chunks w) (w_offset w) ++ concat ds in
  (lacks b D /\ l = [] /\ w_reader w' <> None) \/
  (exists pre post out, first_split b D pre post /\ l = [(RUntil b, AData out)] /\ w_reader w' = None /\
     unread (w_chunks w') (w_offset w') = post /\ subseq out pre /\
     (Forall (big_enough b) (tl (w_chunks w) ++ ds) -> out = pre)).
Proof. exact read_until_general. Qed.
Print Assumptions C19_read_until_partial.

Example C19_nonvacuous :
  let w := fst (exec init [OData [1; 2; 3; 4; 5; CR]; OData [LF; CR; 6; 7]; ORead (RExact 1)]%N) in
  let b := [CR; LF; CR; LF]%N in let ds := [[CR; LF; CR; 8]; [9; CR; LF; CR]; [LF; 11; 12; 13]]%N in
  idle w /\ offset_ok b w /\ w_offset w = 1 /\ Forall (big_enough b) (tl (w_chunks w) ++ ds) /\
  snd (exec w (ORead (RUntil b) :: map OData ds)) =
    [(RUntil b, AData [2; 3; 4; 5; CR; LF; CR; 6; 7; CR; LF; CR; 8; 9]%N)].
Proof.
  cbv zeta. csplit.
  - repeat constructor; discriminate.
  - right. right. cbn. lia.
  - reflexivity.
  - repeat constructor; try discriminate; cbn; lia.
  - reflexivity.
Qed.

(** C63, false: after a read is cancelled, bytes that arrive later are skipped. *)
Theorem C63_cancelled_reader_skips_refuted :
  exists ops d n, let w := fst (exec init ops) in
  w_reader w = None /\ unread (w_chunks w) (w_offset w) = [] /\ n <= length d /\
  snd (exec w [OData d; ORead (RExact n)]) <> [(RExact n, AData (firstn n d))].
Proof.
  exists [OData [1; 2; 3; 4]; ORead (RExact 2); ORead (RExact 5); OCancelReader]%N, [21; 22; 23; 24; 25]%N, 3. cbv zeta. csplit; cbn; auto; try lia.
  discriminate.
Qed.
Print Assumptions C63_cancelled_reader_skips_refuted.

(** C64, false: after the task that awaits a read is cancelled (a timeout) the next read fails with an AssertionError, and
    the bytes that arrive go to the abandoned read. *)
Theorem C64_abandoned_read_blocks_refuted :
  exists ops d, let w := fst (exec init ops) in
  snd (exec w [ORead (RExact (length d))]) = [(RExact (length d), AAssertion)] /\
  snd (exec w [OData d; ORead (RExact (length d)); OData d; ORead (RUpTo 1); OEof; ORead RAll]) =
    [(RExact (length d), AAssertion); (RUpTo 1, AAssertion); (RAll, AData [])].
Proof. exists [ORead (RExact 5); OAbort], [1; 2]%N. split; reflexivity. Qed.
Print Assumptions C64_abandoned_read_blocks_refuted.
