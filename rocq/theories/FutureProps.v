(** Properties C01, C02, C03. *)
From Coq Require Import List Arith Bool.
From Verif Require Import FutureModel FutureSpec FutureProofs.
Import ListNotations.

Definition example_exc : exc := mk_exc false 7.
Definition example_history : list op :=
  [OpAddCallback 1; OpAddCallback 2; OpAddCallback 1; OpRemoveCallback 2; OpGetResult;
   OpSetException (ArgClass (mk_exc true 3)); OpCancelWith (ArgInstance example_exc);
   OpSetResultIfPending 5; OpCancel; OpAddCallback 3].

(** C01: done is for ever, and the outcome never changes. *)
Theorem C01_write_once : forall alive h1 h2,
  output_after alive h1 OpIsDone = OutBool true ->
  output_after alive (h1 ++ h2) OpIsDone = OutBool true /\
  output_after alive (h1 ++ h2) OpGetResult = output_after alive h1 OpGetResult.
Proof. exact write_once. Qed.
Print Assumptions C01_write_once.

(** C01: what get_result once gave (anything but "not done yet"), it gives for ever. *)
Theorem C01_outcome_final : forall alive h1 h2,
  output_after alive h1 OpGetResult <> OutError ErrInvalidState ->
  output_after alive (h1 ++ h2) OpGetResult = output_after alive h1 OpGetResult.
Proof. exact outcome_final. Qed.
Print Assumptions C01_outcome_final.

Example C01_nonvacuous :
  output_after true (firstn 7 example_history) OpIsDone = OutBool true /\
  output_after true example_history OpGetResult = OutError (ErrUser example_exc).
Proof. split; reflexivity. Qed.

(** C02: at most one completing call wins; done exactly if one did; get_result reports its outcome. *)
Theorem C02_one_winner : forall alive h,
  (winners (run_trace (future_init alive) h) = [] /\
   output_after alive h OpIsDone = OutBool false /\
   output_after alive h OpGetResult = OutError ErrInvalidState) \/
  (exists o, winners (run_trace (future_init alive) h) = [o] /\
   output_after alive h OpIsDone = OutBool true /\
   output_after alive h OpGetResult = outcome_of o).
Proof. exact one_winner. Qed.
Print Assumptions C02_one_winner.

(** C02: a completing call on a pending future is never refused (unless its argument is a StopIteration). *)
Theorem C02_pending_call_wins : forall alive h o,
  output_after alive h OpIsDone = OutBool false ->
  completing o = true -> stop_iteration_arg o = false ->
  wins (o, output_after alive h o) = true.
Proof. exact completing_wins. Qed.
Print Assumptions C02_pending_call_wins.

Example C02_nonvacuous :
  winners (run_trace (future_init true) example_history) = [OpCancelWith (ArgInstance example_exc)] /\
  output_after true (firstn 6 example_history) OpIsDone = OutBool false.
Proof. split; reflexivity. Qed.

(** C03: the number of times a callback has been handed to the loop is exactly the number prescribed by the calls. *)
Theorem C03_callbacks_exactly_once : forall h c,
  count_occ Nat.eq_dec (f_ready (run_state (future_init true) h)) c =
  due c 0 false (run_trace (future_init true) h).
Proof. exact callbacks_exactly_once. Qed.
Print Assumptions C03_callbacks_exactly_once.

(** C03: with order: the schedule is the one of the reference bookkeeping, removal reports the number of outstanding
    registrations. *)
Theorem C03_callbacks_refine : forall h,
  let s := cb_run (run_trace (future_init true) h) in
  f_ready (run_state (future_init true) h) = cb_sched s /\
  output_after true h OpIsDone = OutBool (cb_done s) /\
  forall c, output_after true h (OpRemoveCallback c) = OutInt (count_occ Nat.eq_dec (cb_out s) c).
Proof. exact callbacks_refine. Qed.
Print Assumptions C03_callbacks_refine.

Example C03_nonvacuous :
  f_ready (run_state (future_init true) example_history) = [1; 1; 3] /\
  due 1 0 false (run_trace (future_init true) example_history) = 2 /\
  due 2 0 false (run_trace (future_init true) example_history) = 0.
Proof. repeat split; reflexivity. Qed.
