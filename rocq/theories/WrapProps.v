From Coq Require Import List Arith Bool.
From Verif Require Import WrapModel WrapSpec WrapProofs.
Import ListNotations.

(** * C160: a waiting thread gets a result only when there is one *)

Theorem C160_returned : forall l i, at_ (run init l) i = Returned -> done (run init l) = true.
Proof. exact returned_done. Qed.
Print Assumptions C160_returned.

Example C160_nonvacuous : at_ (run init [Step 0; Step 0; Step 0; Step 0; Complete; Sched; Sched; Run; Step 0]) 0 = Returned /\
  at_ (run init [Step 0; Step 0; Step 0; Step 0; Complete; Sched; Sched; Step 0]) 0 = Waiting.
Proof. split; reflexivity. Qed.

(** * C161: a waiting thread goes on when the future is done *)

(** When the loop has done all it does for the future no thread is left waiting. *)
Theorem C161_settled_partial : forall l i, coarse l -> settled (run init l) -> ~ blocked (run init l) i.
Proof. exact not_blocked. Qed.
Print Assumptions C161_settled_partial.

(** The loop gets there, and the thread returns, whatever happened before. *)
Theorem C161_wakes_partial : forall l i, coarse l -> done (run init l) = true -> at_ (run init l) i = Waiting ->
  exists n m, at_ (run init (l ++ repeat Sched n ++ repeat Run m ++ [Step i])) i = Returned.
Proof. exact wakes. Qed.
Print Assumptions C161_wakes_partial.


Example C161_nonvacuous : let l := [Step 0; Step 0; Step 0; Step 1; Step 1; Step 1; Timeout 0; Complete; Step 0; Step 0; Step 0; Step 0; Sched; Sched; Sched] in
  coarse l /\ at_ (run init l) 0 = TimedOut /\ blocked (run init l) 1 /\ done (run init l) = true /\
  at_ (run init (l ++ [Run; Step 1])) 1 = Returned.
Proof. split; [apply (follows_coarse 2); vm_compute; reflexivity|]. vm_compute. repeat split. Qed.

(** The future is completed between the test of its state and the addition of the callback: the callback is added to a list
    which nobody looks at any more, and the thread waits for ever. *)
Theorem C161_add_refuted : exists l i, settled (run init l) /\ forall k, Forall of_loop k -> blocked (run init (l ++ k)) i.
Proof.
  exists [Step 0; Step 0; Complete; Sched; Step 0], 0. split; [repeat split|]. intros k F. rewrite run_app.
  assert (G : forall k w, loop w = Idle -> ready w = [] -> Forall of_loop k -> run w k = w).
  { clear. induction k as [|a k IH]; intros w L R F; [reflexivity|]. inversion F as [|? ? [-> | ->] F2]; subst; cbn; rewrite ?L, ?R; apply IH; assumption. }
  rewrite G by (try exact F; reflexivity). split; reflexivity.
Qed.
Print Assumptions C161_add_refuted.

(** Two threads give up at the same time: after one of them has found its callback the other one deletes an earlier one, and the
    first deletes the callback of a third thread, which waits for ever. *)
Theorem C161_timeouts_refuted : exists l i, settled (run init l) /\ at_ (run init l) 0 = TimedOut /\ at_ (run init l) 1 = TimedOut /\
  forall k, Forall of_loop k -> blocked (run init (l ++ k)) i.
Proof.
  exists (repeat (Step 0) 3 ++ repeat (Step 1) 3 ++ repeat (Step 2) 3 ++ [Timeout 1; Step 1; Step 1; Timeout 0; Step 0; Step 0; Step 0; Step 0; Step 1; Step 0; Step 1; Step 1] ++
          [Step 1; Step 1; Complete; Sched; Sched; Sched; Run]), 2.
  split; [vm_compute; repeat split|]. split; [vm_compute; reflexivity|]. split; [vm_compute; reflexivity|]. intros k F. rewrite run_app. apply lost_forever; try exact F.
  - vm_compute. split; reflexivity.
  - vm_compute. tauto.
  - vm_compute. tauto.
Qed.
Print Assumptions C161_timeouts_refuted.

(** * C162: a timeout is a timeout *)

(** Undisturbed it is, takes away the callback of the thread and nothing else. *)
Theorem C162_timeout_partial : forall l i, blocked (run init l) i -> let w := run init l in
  let w' := run w (Timeout i :: alone i (2 * length (callbacks w) + 1)) in
  at_ w' i = TimedOut /\ callbacks w' = filter (fun j => negb (j =? i)) (callbacks w) /\ (forall j, j <> i -> at_ w' j = at_ w j) /\
  ready w' = ready w /\ event w' = event w /\ done w' = done w /\ loop w' = loop w.
Proof. exact times_out. Qed.
Print Assumptions C162_timeout_partial.

(** Completing the future does not fail because threads give up meanwhile. *)
Theorem C162_complete_partial : forall l, coarse l -> loop (run init l) <> Broken.
Proof. exact never_broken. Qed.
Print Assumptions C162_complete_partial.

Example C162_nonvacuous : let l := repeat (Step 0) 3 ++ repeat (Step 1) 3 ++ repeat (Step 2) 3 in
  blocked (run init l) 1 /\ callbacks (run init l) = [0; 1; 2] /\ callbacks (run init (l ++ Timeout 1 :: alone 1 7)) = [0; 2].
Proof. vm_compute. repeat split. Qed.

(** The future is completed after the thread has looked at the number of callbacks: [wait] raises an IndexError, neither a
    TimeoutError nor the result. Tests and what follows them are not torn apart here. *)
Theorem C162_index_refuted : exists l i, coarse l /\ at_ (run init l) i = Failed.
Proof.
  exists [Step 0; Step 0; Step 0; Timeout 0; Complete; Sched; Sched; Step 0], 0. split; [|reflexivity].
  apply (follows_coarse 1). vm_compute. reflexivity.
Qed.
Print Assumptions C162_index_refuted.

(** A thread deletes its callback after the loop has seen that there is one: [set_result] raises an IndexError. *)
Theorem C162_complete_refuted : exists l, loop (run init l) = Broken.
Proof. exists [Step 0; Step 0; Step 0; Timeout 0; Step 0; Complete; Sched; Step 0; Sched]. reflexivity. Qed.
Print Assumptions C162_complete_refuted.
