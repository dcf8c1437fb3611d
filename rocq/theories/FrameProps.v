(** C20, C21, C22, C58, C66, C67: web socket frames and messages. Model in FrameModel.v, vocabulary in FrameSpec.v. *)

From Coq Require Import List Arith Bool NArith Lia.
From Verif Require Import Bytes ReadModel ReadSpec ReadProofs FrameModel FrameSpec FrameProofs.
Import ListNotations.

(** C20. What is written is a frame of RFC 6455 with these fields, ... *)
Theorem C20_written_frame : forall client mask final op data, (op < 16)%N -> (N.of_nat (length data) < 2 ^ 64)%N ->
  wire client mask final op data (write_frame client mask (new_frame final op data)).
Proof. exact write_wire. Qed.
Print Assumptions C20_written_frame.

(** ... and the other side reads the same frame, however the bytes are segmented, and nothing behind it. *)
Theorem C20_round_trip : forall client mask final op data max_size segments rest,
  (op < 16)%N -> length mask = 4 -> all_byte mask -> all_byte data -> all_byte rest ->
  (N.of_nat (length data) < 2 ^ 64)%N -> ~ over max_size (N.of_nat (length data)) -> chunks_ok segments ->
  concat segments = write_frame client mask (new_frame final op data) ++ rest ->
  exists cs o, read_frame (negb client) max_size segments 0 = FFrame (new_frame final op data) cs o /\ unread cs o = rest.
Proof. exact frame_round_trip. Qed.
Print Assumptions C20_round_trip.

(** C20. The fields of a frame are the ones it was made with. *)
Theorem C20_fields : forall final op data, (op < 16)%N ->
  let f := new_frame final op data in f_final f = final /\ f_op f = op /\ f_data f = data.
Proof. intros final op data H f. unfold f. destruct (head_0_spec final op data H) as (A & B & ->). auto. Qed.
Print Assumptions C20_fields.

Example C20_nonvacuous :
  let w := write_frame true [1; 2; 3; 4]%N (new_frame true 2 (repeat 7%N 300)) in
  firstn 10 w = [130; 254; 1; 44; 1; 2; 3; 4; 6; 5]%N /\ length w = 308 /\
  read_frame false (Some 300%N) [firstn 3 w; skipn 3 w ++ [9; 9]%N] 0 = FFrame (new_frame true 2 (repeat 7%N 300)) [skipn 3 w ++ [9; 9]%N] 305.
Proof. vm_compute. auto. Qed.

(** C21. *)
Theorem C21_mask : forall mask data, xored mask data (apply_mask mask data).
Proof. exact apply_mask_xored. Qed.
Print Assumptions C21_mask.

Theorem C21_involution : forall mask data, apply_mask mask (apply_mask mask data) = data /\ length (apply_mask mask data) = length data.
Proof. intros mask data. split; [apply apply_mask_involutive|apply apply_mask_length]. Qed.
Print Assumptions C21_involution.

Example C21_nonvacuous : apply_mask [1; 2; 4; 8]%N [0; 0; 0; 0; 255; 255]%N = [1; 2; 4; 8; 254; 253]%N.
Proof. reflexivity. Qed.

(** C22. The check accepts exactly the valid frames. *)
Theorem C22_check : forall f, is_byte (f_head f) -> check f = true <-> valid (f_head f) (length (f_data f)).
Proof. exact check_valid. Qed.
Print Assumptions C22_check.

(** C22. Whatever the peer sends and however it is segmented: a frame comes out only of a whole frame with the right
    masking within the limit; an error comes out only of a header that is wrong, and a wrong header is an error as soon as
    it is there. *)
Theorem C22_read : forall client max_size cs o, chunks_ok cs -> off_ok cs o -> all_byte (unread cs o) ->
  frame_result client max_size (unread cs o) (read_frame client max_size cs o).
Proof. exact read_frame_spec. Qed.
Print Assumptions C22_read.

Example C22_nonvacuous :
  read_frame true (Some 9%N) [[130; 126; 0; 10]%N] 0 = FTooBig /\ read_frame true None [[130; 133]%N] 0 = FMask /\
  read_frame true (Some 10%N) [[130; 126; 0]; [10; 1; 2]]%N 0 = FWait /\
  check (mk_frame 9 []) = false /\ check (mk_frame 137 (repeat 0%N 125)) = true /\ check (mk_frame 137 (repeat 0%N 126)) = false.
Proof. vm_compute. csplit; reflexivity. Qed.

(** C58. A ping between the fragments is held against what is left of the limit of the message: the message of 10 bytes is
    within the limit of 10 and every frame is valid, but the message is rejected. *)
Theorem C58_control_frames_refuted : exists pings l w,
  fragments pings 2 l /\ Forall sent_ok (frames_of l) /\ on_wire false (frames_of l) w /\ length (payload l) = 10 /\
  fst (read_message 9 true pings 10 [w] 0) = MError ETooBig.
Proof.
  set (d := fun n => repeat 7%N n).
  set (k := [0; 0; 0; 0]%N).
  set (s1 := mk_sent k false 2 (d 8)). set (s2 := mk_sent k true 9 (d 3)). set (s3 := mk_sent k true 0 (d 2)).
  exists [], [([], s1); ([s2], s3)],
    (write_frame false k (new_frame false 2 (d 8)) ++ write_frame false k (new_frame true 9 (d 3)) ++ write_frame false k (new_frame true 0 (d 2)) ++ []).
  csplit.
  - apply frag_more; auto. apply frag_last; auto. constructor; [|constructor]. unfold harmless. cbn. auto with arith.
  - repeat constructor; try reflexivity.
  - repeat (apply on_wire_cons; [apply write_wire; reflexivity|]). constructor.
  - reflexivity.
  - vm_compute. reflexivity.
Qed.
Print Assumptions C58_control_frames_refuted.

(** C58. Otherwise: the fragments of a message with pings and unasked pongs anywhere between them give the whole payload,
    every ping is answered in order, and nothing behind the message is taken. Missing: control frames that are larger than
    what is left of the limit; see above. *)
Theorem C58_message_partial : forall client pings op l fuel m w cs o rest, all_byte rest -> In op [1; 2]%N -> fragments pings op l ->
  S (length (frames_of l)) < fuel -> Forall sent_ok (frames_of l) -> (N.of_nat (length (payload l)) <= m)%N -> control_fits m l ->
  on_wire (negb client) (frames_of l) w -> unread cs o = w ++ rest -> chunks_ok cs -> off_ok cs o ->
  exists cs' o', read_message fuel client pings m cs o = (MMessage (N.eqb op 1) (payload l) cs' o', pongs_for l) /\ unread cs' o' = rest.
Proof. exact message_ok. Qed.
Print Assumptions C58_message_partial.

(** C58. The limit is a limit on the whole message. *)
Theorem C58_limit : forall client pings op l fuel m w cs o rest, all_byte rest -> In op [1; 2]%N -> fragments pings op l ->
  S (length (frames_of l)) < fuel -> Forall sent_ok (frames_of l) -> (m < N.of_nat (length (payload l)))%N ->
  on_wire (negb client) (frames_of l) w -> unread cs o = w ++ rest -> chunks_ok cs -> off_ok cs o ->
  fst (read_message fuel client pings m cs o) = MError ETooBig.
Proof. exact message_over. Qed.
Print Assumptions C58_limit.

Example C58_nonvacuous :
  let k := [1; 2; 3; 4]%N in
  let w := concat (map (write_frame true k) [new_frame true 9 [65]%N; new_frame false 1 [1; 2]%N; new_frame true 10 []; new_frame true 9 [66]%N; new_frame true 0 [3]%N]) in
  read_message 9 false [] 3 [w ++ [129]%N] 0 = (MMessage true [1; 2; 3]%N [w ++ [129]%N] 35, [Pong [65]%N; Pong [66]%N]) /\
  read_message 9 false [] 2 [w] 0 = (MError ETooBig, [Pong [65]%N]).
Proof. vm_compute. auto. Qed.

(** C66. The pong that answers an outstanding ping breaks the connection instead of finishing the ping. *)
Theorem C66_pong_refuted : forall pings d client key w, In d pings -> length d <= 125 -> all_byte d -> length key = 4 -> all_byte key ->
  wire (negb client) key true 10 d w -> fst (read_message 1 client pings 125 [w] 0) = MError EAttribute.
Proof.
  intros pings d client key w I L B LK BK W.
  assert (HB : all_byte w) by (apply (wire_bytes (negb client) key true 10 d); auto; reflexivity).
  assert (NE : w <> []) by (destruct W as (s & e & b & -> & _); discriminate).
  assert (HC : chunks_ok [w]) by (constructor; [exact NE|constructor]).
  assert (HU : unread [w] 0 = w ++ []) by reflexivity.
  destruct (read_wire client (Some 125%N) key true 10 d w [w] 0 [] HC (off_ok_zero _ HC) ltac:(rewrite HU, app_nil_r; exact HB) LK W HU) as [_ Q].
  destruct Q as (cs & o & Q & _); [cbn; lia|]. unfold read_message. cbn [read_data_frame]. rewrite Q.
  destruct (head_0_spec true 10 d ltac:(reflexivity)) as (_ & OP & _). cbv iota zeta in OP.
  assert (CK : check (mk_frame (128 + 10) d) = true).
  { apply check_valid; [reflexivity|]. exists true, 10%N. split; [reflexivity|]. right. csplit; auto. cbn. auto. }
  rewrite CK, OP. cbn [is_data existsb N.eqb orb]. unfold process_control. rewrite OP. cbn [N.eqb f_data].
  assert (X : existsb (beqb d) pings = true) by (apply existsb_exists; exists d; split; [exact I|apply beqb_refl]).
  rewrite X. reflexivity.
Qed.
Print Assumptions C66_pong_refuted.

Example C66_nonvacuous : fst (read_message 9 true [[65; 66]%N] 1000 [write_frame false [] (new_frame true 10 [65; 66]%N)] 0) = MError EAttribute.
Proof. vm_compute. reflexivity. Qed.

(** C67. A close reason of more than 123 bytes is sent, but the other side rejects the frame and does not see the code. *)
Theorem C67_long_reason_refuted : exists code reason d, serialize_close code reason = Some d /\ all_byte reason /\
  read_message 9 true [] 100000 [send false [] 8 d] 0 = (MError ECheck, []).
Proof.
  exists 1000%N, (repeat 65%N 124), (be 2 1000 ++ repeat 65%N 124). csplit; [reflexivity| |vm_compute; reflexivity].
  apply Forall_forall. intros x H. apply repeat_spec in H. subst. reflexivity.
Qed.
Print Assumptions C67_long_reason_refuted.

(** C67. Up to 123 bytes the other side gets the code and the reason. Missing: longer reasons, see above. *)
Theorem C67_close_partial : forall client mask code reason d pings m segments rest fuel,
  serialize_close code reason = Some d -> all_byte reason -> length reason <= 123 -> (125 <= m)%N ->
  length mask = 4 -> all_byte mask -> all_byte rest -> chunks_ok segments ->
  concat segments = send client mask 8 d ++ rest -> 0 < fuel ->
  read_message fuel (negb client) pings m segments 0 = (MClose, [Closed code reason]).
Proof. exact close_received. Qed.
Print Assumptions C67_close_partial.

Example C67_nonvacuous :
  serialize_close 4000 [98; 121; 101]%N = Some [15; 160; 98; 121; 101]%N /\ serialize_close 1005 [] = None /\
  read_message 9 false [] 1000 [send true [9; 8; 7; 6]%N 8 [15; 160; 98; 121; 101]%N] 0 = (MClose, [Closed 4000 [98; 121; 101]%N]).
Proof. vm_compute. auto. Qed.
