(** C42, C43: the write half of a socket transport. *)

From Coq Require Import List Arith Bool Lia NArith.
From Verif Require Import Bytes TransModel TransSpec TransProofs.
Import ListNotations.

(** C42: what the socket took and what is buffered is what was written, in order: all of it until the transport closes, and all of it whenever
    something is buffered, in which case the loop watches the socket. *)
Theorem C42_order : forall limit os, Forall plain os -> let '(s, rs) := run limit initial os in
  prefix (sent s ++ buffered s) (accepted os rs) /\ (closing s = false -> sent s ++ buffered s = accepted os rs) /\
  (buffered s <> [] -> writer s = true /\ sent s ++ buffered s = accepted os rs).
Proof. exact order. Qed.
Print Assumptions C42_order.

(** What was written before [close] is sent before [connection_lost] is called, which gets no error. *)
Theorem C42_flushed : forall limit os os', Forall plain (os ++ os') -> Forall graceful os' ->
  let '(s0, rs) := run limit initial os in
  let '(s, _) := run limit s0 (Close :: os') in
  closing s0 = false -> forall e, In (Connection_lost e) (calls s) -> e = false /\ prefix (accepted os rs) (sent s).
Proof. exact flushed. Qed.
Print Assumptions C42_flushed.

(** It is all sent once the socket took something often enough, and a closing transport then tells the protocol. *)
Theorem C42_progress : forall limit os os', Forall plain os -> Forall takes os' ->
  let s := fst (run limit initial os) in
  let s1 := fst (run limit s os') in
  let s2 := fst (step limit s1 Run_soon) in
  length (buffered s) <= length os' ->
  buffered s1 = [] /\ (closing s1 = true -> exists e, In (Connection_lost e) (calls s2)).
Proof. exact progress. Qed.
Print Assumptions C42_progress.

(** The socket is shut down for writing when [write_eof] was called and nothing remains; nothing is sent after. *)
Theorem C42_eof : forall limit os os', Forall plain (os ++ os') -> let s := fst (run limit initial os) in
  shut s = true -> buffered s = [] /\ at_eof s = true /\ sent (fst (run limit s os')) = sent s.
Proof. exact eof. Qed.
Print Assumptions C42_eof.

(** False for a memoryview of items wider than a byte: what the socket did not take is lost. *)
Theorem C42_wide_refuted : exists os, let '(s, rs) := run 1 initial os in closing s = false /\ sent s ++ buffered s <> accepted os rs.
Proof. exists [Write {| width := 2; content := [1; 2; 3; 4]%N |} (Took 3)]. vm_compute. split; [reflexivity|discriminate]. Qed.
Print Assumptions C42_wide_refuted.

(** C43: pause and resume come by turns, and nothing comes after [connection_lost]; a protocol which is not paused has at most the high mark
    buffered; one which is paused waits for the socket or for [connection_lost]. *)
Theorem C43_flow : forall limit os, Forall plain os -> let s := fst (run limit initial os) in
  alternate false (rev (calls s)) /\
  (protocol s = true -> lost s = false -> told (calls s) = false -> size (buffer s) <= high s) /\
  (protocol s = true -> told (calls s) = true -> (buffered s <> [] /\ writer s = true) \/ (lost s = true /\ soon s <> [])).
Proof. exact flow. Qed.
Print Assumptions C43_flow.

(** When the socket took something and no more than the low mark is left, the protocol is not paused. *)
Theorem C43_resumes : forall limit os n, Forall plain os -> let s := fst (run limit initial os) in
  let s' := fst (step limit s (Writable (Took n))) in
  protocol s' = true -> lost s = false -> buffered s <> [] -> told (calls s') = true -> low s' < size (buffer s').
Proof. exact resumes. Qed.
Print Assumptions C43_resumes.

(** False: that no protocol is paused below the low mark. Raising the marks resumes nothing by itself. *)
Theorem C43_raise_refuted : exists os, let s := fst (run 1 initial os) in told (calls s) = true /\ size (buffer s) < low s.
Proof.
  exists [Set_limits (Some 2) None; Write {| width := 1; content := [1; 2; 3]%N |} Again; Set_limits (Some 20) (Some 10)].
  vm_compute. split; [reflexivity|lia].
Qed.
Print Assumptions C43_raise_refuted.

Definition example_ops : list op :=
  [Set_limits (Some 4) (Some 2); Write {| width := 1; content := [1; 2; 3]%N |} (Took 1); Write {| width := 1; content := [4; 5; 6]%N |} Again;
   Writable (Took 3); Write {| width := 1; content := [7; 8; 9]%N |} (Took 9); Writable Again; Close; Writable (Took 4)].

Example C42_nonvacuous :
  let '(s, rs) := run 16 initial example_ops in
  sent s = [1; 2; 3; 4; 5; 6; 7; 8]%N /\ buffered s = [9]%N /\ closing s = true /\ accepted example_ops rs = [1; 2; 3; 4; 5; 6; 7; 8; 9]%N /\
  calls (fst (step 16 s (Writable (Took 5)))) = [Connection_lost false; Resume_writing; Pause_writing; Resume_writing; Pause_writing] /\ Forall plain example_ops.
Proof. vm_compute. repeat split; repeat constructor. Qed.

Example C42_one_at_a_time : let s := fst (run 0 initial example_ops) in sent s = [1; 2; 3; 4; 5; 6]%N /\ buffered s = [7; 8; 9]%N.
Proof. vm_compute. repeat split. Qed.

Example C42_eof_nonvacuous :
  let s := fst (run 16 initial (firstn 4 example_ops ++ [Write_eof; Write {| width := 1; content := [7]%N |} (Took 9); Writable (Took 9)])) in
  shut s = true /\ sent s = [1; 2; 3; 4; 5; 6]%N.
Proof. vm_compute. repeat split. Qed.

Example C43_nonvacuous : map (fun n => told (calls (fst (run 16 initial (firstn n example_ops))))) [1; 2; 3; 4; 5; 6; 7; 8] =
  [false; false; true; false; true; true; true; false].
Proof. vm_compute. reflexivity. Qed.
