(** C04-C06: tasks. Model in TaskModel.v, vocabulary in TaskSpec.v. *)

From Coq Require Import List Arith Bool.
From Verif Require Import TaskModel TaskSpec TaskProofs.
Import ListNotations.

(** C04. In every history, a pending task that is not executing has exactly one thing that is going to resume it - one
    queued step or one registration on a future - and an executing, finished or unknown task has none. *)
Theorem C04_one_resumption : forall ops t,
  let w := run world_init ops in
  reasons w t = if live w t && negb (running w t) then 1 else 0.
Proof. exact one_reason. Qed.
Print Assumptions C04_one_resumption.

(** C04. No history steps a task that is already done (the InvalidStateError of the step function never occurs). *)
Theorem C04_never_stepped_when_done : forall ops t, ~ In (EvInvalidState t) (events world_init ops).
Proof. exact never_stepped_again. Qed.
Print Assumptions C04_never_stepped_when_done.

(** C04. A coroutine is resumed only while its task is pending and suspended, and is executing right after. *)
Theorem C04_resumed_only_when_suspended : forall ops t k,
  let w := run world_init ops in
  In (EvResume t k) (snd (step w OBegin)) ->
  live w t = true /\ running w t = false /\ running (fst (step w OBegin)) t = true.
Proof. exact (fun ops t k => resume_live _ t k (inv_run ops _ inv_init)). Qed.
Print Assumptions C04_resumed_only_when_suspended.

Example C04_nonvacuous :
  let w := run world_init [ONewFuture; ONewTask; ONewTask; OBegin; OEnd (RAwait 0); OBegin; OEnd (RAwait 0); OSetResult 0] in
  w_ready w = [HWake 2; HWake 1] /\ reasons w 1 = 1 /\ reasons w 2 = 1 /\ reasons w 0 = 0 /\
  snd (step w OBegin) = [EvResume 2 (KAwaited 0 false (Some OutResult))].
Proof. repeat split. Qed.

(** C05. After [task.cancel()] returned true, whatever happens afterwards, the next time the coroutine of the task
    runs it is interrupted: CancelledError is thrown into it, the future it awaits ended cancelled, or it awaited
    another task. *)
Theorem C05_cancel_reaches : forall ops t ops',
  let w := run world_init ops in
  x_task (w_ent w t) = true -> snd (step w (OCancel t)) = [EvCancel t true] ->
  match next_resume t (events (fst (step w (OCancel t))) ops') with Some k => interrupting k | None => True end.
Proof. exact cancel_reaches. Qed.
Print Assumptions C05_cancel_reaches.

(** C05. ... and in the last case that other task, and so on down the chain, is interrupted in the same way. *)
Theorem C05_cancel_reaches_chain : forall ops t g ops',
  let w := run world_init ops in
  chain w t g -> snd (step w (OCancel t)) = [EvCancel t true] ->
  match next_resume g (events (fst (step w (OCancel t))) ops') with Some k => interrupting k | None => True end.
Proof. exact cancel_reaches_chain. Qed.
Print Assumptions C05_cancel_reaches_chain.

(** C05. A task that is cancelled while its coroutine executes, and whose coroutine then returns without another await,
    ends cancelled. *)
Theorem C05_cancel_beats_return : forall ops t ops',
  let w := run world_init ops in
  w_running w = Some t -> (forall o, In o ops' -> inner o) ->
  exists e, snd (step (run (fst (step w (OCancel t))) ops') (OEnd RReturn)) = [EvFinish t (OutCancelled e)].
Proof. exact cancel_beats_return. Qed.
Print Assumptions C05_cancel_beats_return.

(** Task 2 waits for task 1, which waits for future 0; then a task waiting for a done future. *)
Example C05_nonvacuous :
  let w := run world_init [ONewFuture; ONewTask; ONewTask; OBegin; OEnd (RAwait 0); OBegin; OEnd (RAwait 1)] in
  chain w 2 1 /\ snd (step w (OCancel 2)) = [EvCancel 2 true] /\
  next_resume 1 (events (fst (step w (OCancel 2))) [OBegin]) = Some (KAwaited 0 false (Some (OutCancelled None))).
Proof.
  split; [|split; reflexivity].
  eapply chain_next; try reflexivity. apply chain_self; reflexivity.
Qed.

Example C05_nonvacuous_done :
  let w := run world_init [ONewFuture; ONewTask; OBegin; OEnd (RAwait 0); OSetResult 0] in
  snd (step w (OCancel 1)) = [EvCancel 1 true] /\
  next_resume 1 (events (fst (step w (OCancel 1))) [OBegin]) = Some KThrow.
Proof. split; reflexivity. Qed.

Example C05_nonvacuous_running :
  let w := run world_init [ONewTask; OBegin] in
  w_running w = Some 0 /\
  snd (step (run (fst (step w (OCancel 0))) [ONewTask]) (OEnd RReturn)) = [EvFinish 0 (OutCancelled None)].
Proof. split; reflexivity. Qed.

(** C06, false: [cancel_with] returned true on a pending task, yet the coroutine goes on as if nothing happened and the
    task ends with its ordinary result. *)
Theorem C06_cancel_with_reaches_refuted :
  exists ops t e ops',
    let w := run world_init ops in
    live w t = true /\ snd (step w (OCancelWith t e)) = [EvCancel t true] /\
    next_resume t (events (fst (step w (OCancelWith t e))) ops') = Some (KAwaited 0 false (Some OutResult)) /\
    In (EvFinish t OutResult) (events (fst (step w (OCancelWith t e))) ops').
Proof.
  exists lost_history, 1, 7, [OBegin; OEnd RReturn]. repeat split. right. left. reflexivity.
Qed.
Print Assumptions C06_cancel_with_reaches_refuted.

(** C06, the part that holds: unless the awaited future is already done, [cancel_with] reaches the coroutine. *)
Theorem C06_cancel_with_reaches_partial : forall ops t e ops',
  let w := run world_init ops in
  x_task (w_ent w t) = true -> snd (step w (OCancelWith t e)) = [EvCancel t true] ->
  (forall f, x_waited (w_ent w t) = Some f -> x_done (w_ent w f) = None) ->
  match next_resume t (events (fst (step w (OCancelWith t e))) ops') with Some k => interrupting k | None => True end.
Proof. exact cancel_with_reaches. Qed.
Print Assumptions C06_cancel_with_reaches_partial.

Example C06_nonvacuous :
  let w := run world_init [ONewFuture; ONewTask; OBegin; OEnd (RAwait 0)] in
  x_task (w_ent w 1) = true /\ snd (step w (OCancelWith 1 7)) = [EvCancel 1 true] /\
  x_waited (w_ent w 1) = Some 0 /\ x_done (w_ent w 0) = None /\
  next_resume 1 (events (fst (step w (OCancelWith 1 7))) [OBegin]) = Some KThrow.
Proof. repeat split. Qed.
