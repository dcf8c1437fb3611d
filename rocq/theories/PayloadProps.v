(** C44: a payload stream. *)

From Coq Require Import List Arith Bool NArith Lia Permutation.
From Verif Require Import Bytes PayloadModel PayloadSpec PayloadProofs.
Import ListNotations.

(** Chunks come out in the order in which they went in, each once, while one consumer waits at a time and none is cancelled after it was woken. *)
Theorem C44_order_partial : forall os, orderly initial os -> let rs := snd (run initial os) in
  prefix (delivered rs) (accepted os rs) /\ prefix (data rs) (concat (accepted os rs)).
Proof. exact in_order. Qed.
Print Assumptions C44_order_partial.

(** A consumer which ends without an exception ends a stream which succeeded, all of whose data came out. *)
Theorem C44_complete_partial : forall os, orderly initial os -> let '(s, rs) := run initial os in
  Exists normal_end rs -> done s = Some Success /\ data rs = concat (accepted os rs).
Proof. exact complete. Qed.
Print Assumptions C44_complete_partial.

(** An iteration which cannot go on got all which came. *)
Theorem C44_waits_partial : forall os, orderly initial os -> let '(s, rs) := run initial os in
  forall k i, nth_error (consumers s) k = Some (Iterates i) -> snd (step s (Wake k false)) = Nothing -> done s = None /\ delivered rs = accepted os rs.
Proof. exact starved. Qed.
Print Assumptions C44_waits_partial.

(** The first outcome which is set stays. *)
Theorem C44_first : forall s d, step s (Set_done d) = (fst (step s (Set_done d)), Bool (match done s with None => true | Some _ => false end)) /\
  done (fst (step s (Set_done d))) = match done s with None => Some d | x => x end.
Proof. exact set_done_spec. Qed.
Print Assumptions C44_first.

Theorem C44_final : forall os s d, done s = Some d -> done (fst (run s os)) = Some d.
Proof. exact done_final. Qed.
Print Assumptions C44_final.

(** Each consumer of a stream which is done goes on. *)
Theorem C44_woken : forall os, let s := fst (run initial os) in
  done s <> None -> forall k c, nth_error (consumers s) k = Some c -> waits c -> snd (step s (Wake k false)) <> Nothing.
Proof. exact woken. Qed.
Print Assumptions C44_woken.

(** Each callback runs once when the stream is done, and none before. *)
Theorem C44_callbacks : forall os, let s := fst (run initial os) in
  match done s with
  | None => ran s = []
  | Some _ => Permutation (registered os) (ran s)
  end.
Proof. exact callbacks_once. Qed.
Print Assumptions C44_callbacks.

(** False with two iterations at once: both get the same chunk. *)
Theorem C44_two_refuted : exists os c, let rs := snd (run initial os) in accepted os rs = [c] /\ delivered rs = [c; c].
Proof. exists [Iter; Iter; Add [1]%N; Wake 0 false; Wake 1 false], [1]%N. vm_compute. split; reflexivity. Qed.
Print Assumptions C44_two_refuted.

(** False when the stream is awaited by two: the second gets nothing, as if the payload was empty. *)
Theorem C44_await_refuted : exists os, let '(s, rs) := run initial os in
  accepted os rs = [[1; 2]]%N /\ last rs Nothing = Data [] /\ done s = Some Success.
Proof. exists [Await; Await; Add [1; 2]%N; Set_done Success; Wake 0 false; Wake 1 false]. vm_compute. repeat split. Qed.
Print Assumptions C44_await_refuted.

(** False when a consumer is cancelled after it was woken: the next one ends without an exception, and without the chunk. *)
Theorem C44_lost_refuted : exists os, let rs := snd (run initial os) in accepted os rs = [[1]; [2]]%N /\ delivered rs = [[2]]%N /\ last rs Nothing = Stops.
Proof. exists [Iter; Add [1]%N; Add [2]%N; Set_done Success; Wake 0 true; Iter; Next 1]. vm_compute. repeat split. Qed.
Print Assumptions C44_lost_refuted.

Definition example_ops : list op :=
  [Callback 7; Add [1]%N; Iter; Next 0; Add [2; 3]%N; Callback 8; Wake 0 false; Add [4]%N; Add [5]%N; Next 0; Next 0; Next 0; Set_done Success; Add [6]%N;
   Set_done Exception; Wake 0 false; Callback 9].

Example C44_nonvacuous : snd (run initial example_ops) =
  [Nothing; Bool true; Yields [1]%N; Waits; Bool true; Nothing; Yields [2; 3]%N; Bool true; Bool true; Yields [4]%N; Yields [5]%N; Waits; Bool true; Bool false;
   Bool false; Stops; Nothing] /\ ran (fst (run initial example_ops)) = [8; 7; 9].
Proof. vm_compute. split; reflexivity. Qed.

Lemma quiet_check s : forallb (fun c => match c with Awaits _ | Iterates _ => false | _ => true end) (consumers s) = true ->
  forall k c, nth_error (consumers s) k = Some c -> ~ waits c.
Proof. intros H k c K W. rewrite forallb_forall in H. specialize (H c (nth_error_In _ _ K)). now destruct c. Qed.

Example C44_orderly : orderly initial example_ops.
Proof. unfold example_ops. repeat (apply orderly_cons; [first [exact Logic.I|reflexivity|apply quiet_check; vm_compute; reflexivity]|]). constructor. Qed.

Example C44_await_nonvacuous : snd (run initial [Await; Add [1]%N; Add [2]%N; Set_done Success; Wake 0 false]) = [Waits; Bool true; Bool true; Bool true; Data [1; 2]%N] /\
  orderly initial [Await; Add [1]%N; Add [2]%N; Set_done Success; Wake 0 false].
Proof.
  split; [vm_compute; reflexivity|]. repeat (apply orderly_cons; [first [exact Logic.I|reflexivity|apply quiet_check; vm_compute; reflexivity]|]). constructor.
Qed.
