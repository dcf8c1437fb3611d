(** C82, C83: the flow control of a protocol. *)

From Coq Require Import List Arith Bool Lia.
From Verif Require Import DrainModel DrainSpec DrainProofs.
Import ListNotations.

(** C82: a task which is the only one to write, while the received data stays small, waits in [drain] exactly while writing is paused; it is
    woken when writing resumes or the connection is lost. *)
Theorem C82_single_partial : forall os, calm initial os -> let s := run initial os in
  (forall i, waiting s i -> told s = true) /\
  (exception s = false -> snd (step s Drain) = Returns <-> told s = false) /\
  (forall i, waiting s i -> lost s = false -> nth_error (waiters (fst (step s Resume_writing))) i = Some Woken /\
     forall e, nth_error (waiters (fst (step s (Lost e)))) i = Some (if e then Failed else Woken)).
Proof. exact single. Qed.
Print Assumptions C82_single_partial.

(** After a failure of the connection [drain] raises. *)
Theorem C82_failed : forall s, lost s = false -> forall os, snd (step (run (fst (step s (Lost true))) os) Drain) = Raises.
Proof. exact failed. Qed.
Print Assumptions C82_failed.

(** What a task which waited was told does not change. *)
Theorem C82_final : forall os s i w, nth_error (waiters s) i = Some w -> w <> Pending -> nth_error (waiters (run s os)) i = Some w.
Proof. exact final. Qed.
Print Assumptions C82_final.

(** False with two tasks: the one which waited first is never woken, whatever happens. *)
Theorem C82_two_refuted : exists os i, let s := run initial os in waiting s i /\ forall os', ~ In (Cancel i) os' -> waiting (run s os') i.
Proof.
  exists [Pause_writing; Drain; Drain], 0. cbv zeta. split; [reflexivity|]. intros os'. apply forgotten; [reflexivity|discriminate].
Qed.
Print Assumptions C82_two_refuted.

(** False after [connection_lost]: a task which then calls [drain] waits for ever. *)
Theorem C82_lost_refuted : exists os i, let s := run initial os in snd (step s Drain) = Waits i /\
  forall os', ~ In (Cancel i) os' -> waiting (run (fst (step s Drain)) os') i.
Proof.
  exists [Pause_writing; Lost false], 0. cbv zeta. split; [reflexivity|]. intros os'. apply lost_forever; reflexivity.
Qed.
Print Assumptions C82_lost_refuted.

(** False when reading is paused too: [drain] waits though writing is not paused, and returns though it is. *)
Theorem C82_reading_refuted : (exists os, let s := run initial os in told s = false /\ lost s = false /\ snd (step s Drain) = Waits 0) /\
  (exists os, let s := run initial os in told s = true /\ lost s = false /\ snd (step s Drain) = Returns).
Proof. split; [exists [Received true]|exists [Pause_writing; Want_data]]; repeat split. Qed.
Print Assumptions C82_reading_refuted.

(** C83: as long as writing is never paused, too much data pauses reading and a reader which waits resumes it. *)
Theorem C83_reader_partial : forall os, Forall read_only os -> let s := run initial os in
  reading (fst (step s Want_data)) = true /\ (reading s = true -> lost s = false -> reading (fst (step s (Received true))) = false).
Proof. exact reader. Qed.
Print Assumptions C83_reader_partial.

(** False otherwise: reading stays paused whatever the reader does, until writing is paused again. *)
Theorem C83_stuck_refuted : exists os, let s := run initial os in lost s = false /\
  forall os', Forall (fun o => o <> Pause_writing) os' -> reading (run s os') = false.
Proof.
  exists [Received true; Pause_writing; Resume_writing]. cbv zeta. split; [reflexivity|]. apply stuck_reader; reflexivity.
Qed.
Print Assumptions C83_stuck_refuted.

(** ... and however much arrives while writing is paused, reading is not. *)
Theorem C83_unbounded_refuted : forall n, let s := run initial (Pause_writing :: repeat (Received true) n) in lost s = false /\ reading s = true.
Proof.
  intros n. cbv zeta. cbn [run]. set (s := fst (step initial Pause_writing)).
  assert (V : lost s = false /\ reading s = true /\ paused s = true) by (repeat split). clearbody s.
  revert s V. induction n as [|n IH]; intros s (L & R & P); [now split|]. cbn [repeat run]. apply IH.
  cbn [step fst]. rewrite R, L. cbn. unfold pause_reading. rewrite P. cbn. repeat split; assumption.
Qed.
Print Assumptions C83_unbounded_refuted.

Example C82_nonvacuous : calm initial [Drain; Pause_writing; Drain; Resume_writing; Drain; Pause_writing; Drain; Cancel 1; Drain; Lost true] /\
  waiters (run initial [Drain; Pause_writing; Drain; Resume_writing; Drain; Pause_writing; Drain; Cancel 1; Drain; Lost true]) = [Woken; Cancelled; Failed].
Proof.
  split; [|reflexivity]. repeat (constructor; [try exact Logic.I; intros [|[|[|i]]] H; discriminate H|]). all: repeat (apply calm_cons; [try exact Logic.I; intros [|[|[|i]]] H; discriminate H|]). constructor.
Qed.

Example C83_nonvacuous : map (fun n => reading (run initial (firstn n [Received false; Received true; Received true; Want_data; Received true]))) [1; 2; 3; 4; 5] =
  [true; false; false; true; false].
Proof. reflexivity. Qed.
