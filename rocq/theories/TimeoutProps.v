(** C101 - C103: timeouts. *)
From Coq Require Import List Bool Arith Lia.
From Verif Require Import TimeoutModel TimeoutSpec TimeoutProofs.
Import ListNotations.

(** ** Timeout *)

(** When the time was not over, the block ends as its body does, whatever that is. *)
Theorem C101_in_time res now d os e : ~ t_expired res d os -> t_then res now d os (TExit e) = [EvExit e (Through e)].
Proof. exact (t_exit_in_time res now d os e). Qed.
Print Assumptions C101_in_time.

(** When it was over, a cancellation becomes a TimeoutError, and any other exception of the body is kept. *)
Theorem C101_late res now d os : t_expired res d os -> ~ t_closed os ->
  t_then res now d os (TExit (Some XCancelled)) = [EvExit (Some XCancelled) TimedOut] /\
  forall n, t_then res now d os (TExit (Some (XOther n))) = [EvExit (Some (XOther n)) (Through (Some (XOther n)))].
Proof. exact (t_exit_late res now d os). Qed.
Print Assumptions C101_late.

(** The task is cancelled by the running timer only: inside the block, once the time is over. *)
Theorem C101_cancel_only res now d os o : In EvCancelTask (t_then res now d os o) ->
  o = TRun /\ t_entered os /\ ~ t_closed os /\ ~ t_expired res d os /\ d < t_elapsed os + res.
Proof. exact (t_cancel_only res now d os o). Qed.
Print Assumptions C101_cancel_only.

Theorem C101_cancel_once res now d os : t_cancels res now d os <= 1.
Proof. exact (proj1 (t_cancel_once res now d os)). Qed.
Print Assumptions C101_cancel_once.

(** The first cycle of the event loop after the time is over cancels the task. *)
Theorem C101_prompt res now d os : t_entered os -> ~ t_closed os -> ~ t_expired res d os -> d < t_elapsed os + res ->
  t_then res now d (os ++ [TCycle]) TRun = [EvCancelTask].
Proof. exact (t_prompt res now d os). Qed.
Print Assumptions C101_prompt.

(** The time counts from the creation: a block which is entered too late does not start. *)
Theorem C101_enter res now d os : ~ t_closed os ->
  (t_expired res d os -> t_then res now d os (TEnter true) = [EvEnter AlreadyTimedOut]) /\
  (~ t_expired res d os -> t_then res now d os (TEnter true) = [EvEnter Entered]).
Proof. exact (t_enter_after res now d os). Qed.
Print Assumptions C101_enter.

(** A cancelled timeout, or one which was left before, changes nothing. *)
Theorem C101_cancelled res now d os e : t_closed os -> t_then res now d os (TExit e) = [EvExit e (Through e)].
Proof. exact (t_exit_closed res now d os e). Qed.
Print Assumptions C101_cancelled.

(** "A body which finishes normally lets the block finish normally": if the time was over (the body caught the
    CancelledError and came to its end), [issubclass(None, CancelledError)] raises TypeError (helpers.py:312). *)
Theorem C101_normal_exit_refuted : exists res now d os,
  t_entered os /\ ~ t_closed os /\ t_then res now d os (TExit None) = [EvExit None TypeErrored].
Proof.
  exists 1, 10, 3, [TEnter true; TTick 5; TCycle; TRun]. split; [left; reflexivity|]. split; [|reflexivity].
  intros [H|[e H]]; cbn in H; intuition discriminate.
Qed.
Print Assumptions C101_normal_exit_refuted.

(** The above is so every time. *)
Theorem C101_late_normal res now d os : t_expired res d os -> ~ t_closed os ->
  t_then res now d os (TExit None) = [EvExit None TypeErrored].
Proof. exact (t_exit_late_normal res now d os). Qed.
Print Assumptions C101_late_normal.

Example C101_nonvacuous :
  let os := [TTick 1; TEnter true; TTick 4; TCycle; TRun; TTick 1] in
  t_expired 1 3 os /\ ~ t_closed os /\ t_entered os /\ t_cancels 1 10 3 os = 1 /\
  t_events 1 (t_new 10 3) (os ++ [TExit (Some XCancelled)]) = [EvEnter Entered; EvCancelTask; EvExit (Some XCancelled) TimedOut] /\
  t_events 1 (t_new 10 9) (os ++ [TExit None; TTick 9; TCycle; TRun]) = [EvEnter Entered; EvExit None (Through None)].
Proof.
  cbv zeta. split.
  { exists [TTick 1; TEnter true; TTick 4], [], [TTick 1]. split; [reflexivity|]. split; [cbn; lia|]. intros [H|[e H]]; cbn in H; intuition discriminate. }
  split. { intros [H|[e H]]; cbn in H; intuition discriminate. }
  split; [right; left; reflexivity|]. repeat split; reflexivity.
Qed.

(** ** repeat_timeout *)

(** The task is cancelled only when the current iteration took too long. *)
Theorem C102_never_early res now d os o : 0 < now -> In EvCancelTask (r_then res now d os o) ->
  o = RRun /\ ~ r_left os /\ d < r_age os + res /\ r_cancels res now d os = 0.
Proof. exact (r_never_early res now d os o). Qed.
Print Assumptions C102_never_early.

(** When an iteration takes too long, two cycles of the event loop are enough to cancel the task. *)
Theorem C102_prompt res now d os : 0 < now -> ~ r_left os -> d < r_age os + res ->
  r_cancels res now d (os ++ [RCycle; RRun; RCycle; RRun]) = 1.
Proof. exact (r_prompt res now d os). Qed.
Print Assumptions C102_prompt.

(** The block ends as its body does; but if its task was cancelled by it, CancelledError becomes TimeoutError. *)
Theorem C102_outcome res now d os e : 0 < now ->
  r_then res now d os (RExit e) =
  [EvExit e (match e with Some XCancelled => if r_cancels res now d os =? 0 then Through e else TimedOut | _ => Through e end)].
Proof. exact (r_exit_outcome res now d os e). Qed.
Print Assumptions C102_outcome.

Theorem C102_once res now d os : 0 < now -> r_cancels res now d os <= 1.
Proof. exact (r_once res now d os). Qed.
Print Assumptions C102_once.

(** "An iteration which takes too long is cancelled": not when an earlier one was and its body went on. The block is not
    watched any more, and a cancellation by somebody else in a fresh iteration is taken for a timeout. *)
Theorem C102_each_iteration_refuted : exists res now d os, 0 < now /\ ~ r_left os /\ r_age os = 0 /\
  (forall t, r_cancels res now d (os ++ [RTick t; RCycle; RRun; RCycle; RRun]) = r_cancels res now d os) /\
  r_then res now d os (RExit (Some XCancelled)) = [EvExit (Some XCancelled) TimedOut].
Proof.
  exists 1, 10, 3, [RNext; RTick 4; RCycle; RRun; RCycle; RRun; RNext]. split; [lia|].
  split; [intros [e H]; cbn in H; intuition discriminate|]. split; [reflexivity|]. split; [|reflexivity].
  intros t. vm_compute. reflexivity.
Qed.
Print Assumptions C102_each_iteration_refuted.

Example C102_nonvacuous :
  let os := [RTick 2; RNext; RTick 2; RCycle; RRun; RNext; RTick 2; RCycle; RRun; RTick 1; RNext; RTick 4] in
  ~ r_left os /\ r_age os = 4 /\ r_cancels 1 10 3 os = 0 /\ r_cancels 1 10 3 (os ++ [RCycle; RRun; RCycle; RRun]) = 1.
Proof. cbv zeta. split; [intros [e H]; cbn in H; intuition discriminate|]. repeat split; reflexivity. Qed.

(** ** sleep and apply_timeout *)

Theorem C103_sleep_not_early res now sl os : f_out (f_after res now sl os) = Some FSlept ->
  exists d, sl = Some d /\ (d = 0 \/ d < f_elapsed os + res).
Proof. exact (f_slept_not_early res now sl os). Qed.
Print Assumptions C103_sleep_not_early.

Theorem C103_timeout_not_early res now sl os : f_out (f_after res now sl os) = Some FTimeout ->
  exists a d, f_applied os a d /\ (d = 0 \/ a + d < f_elapsed os + res).
Proof. exact (f_timeout_not_early res now sl os). Qed.
Print Assumptions C103_timeout_not_early.

(** A sleep is over as soon as the event loop saw that the time is over and ran the timers which were due. *)
Theorem C103_sleep_wakes res now d os rs : only_runs rs -> d < f_elapsed os + res ->
  f_quiet (f_after res now (Some d) (os ++ FCycle :: rs)) -> f_out (f_after res now (Some d) (os ++ FCycle :: rs)) <> None.
Proof. exact (f_wakes res now d os rs). Qed.
Print Assumptions C103_sleep_wakes.

(** A future with a timeout does not stay pending after it. *)
Theorem C103_times_out res now sl a d os rs : only_runs rs -> f_applied os a d -> a + d < f_elapsed os + res ->
  f_quiet (f_after res now sl (os ++ FCycle :: rs)) -> f_out (f_after res now sl (os ++ FCycle :: rs)) <> None.
Proof. exact (f_times_out res now sl a d os rs). Qed.
Print Assumptions C103_times_out.

(** The first outcome stays: a timer which runs later does not change it. *)
Theorem C103_stable res now sl os os' x : f_out (f_after res now sl os) = Some x -> f_out (f_after res now sl (os ++ os')) = Some x.
Proof. exact (f_stable res now sl os os' x). Qed.
Print Assumptions C103_stable.

(** A future which is done leaves no timer in the event loop. *)
Theorem C103_released res now sl os : f_out (f_after res now sl os) <> None ->
  f_timers (f_after res now sl (os ++ [FCallbacks])) = [].
Proof. exact (f_released res now sl os). Qed.
Print Assumptions C103_released.

(** [apply_timeout] tells whether the future was pending. *)
Theorem C103_apply_reply res now sl os d : snd (f_step res (f_after res now sl os) (FApply d)) =
  Some (match f_out (f_after res now sl os) with None => true | Some _ => false end).
Proof. exact (f_apply_reply res now sl os d). Qed.
Print Assumptions C103_apply_reply.

Example C103_nonvacuous :
  let os := [FTick 1; FApply 4; FTick 1; FApply 2; FTick 4] in
  f_out (f_after 1 10 (Some 20) os) = None /\ f_applied os 2 2 /\
  f_out (f_after 1 10 (Some 20) (os ++ [FCycle; FRun 1; FRun 2])) = Some FTimeout /\
  f_out (f_after 1 10 (Some 5) ([FTick 6; FCycle; FRun 0])) = Some FSlept /\
  f_quiet (f_after 1 10 (Some 5) ([FTick 6] ++ FCycle :: [FRun 0])) /\ only_runs [FRun 0].
Proof.
  cbv zeta. split; [reflexivity|]. split; [exists [FTick 1; FApply 4; FTick 1], [FTick 4]; split; reflexivity|].
  split; [reflexivity|]. split; [reflexivity|]. split; [intros k w q []|]. intros o [<-|[]]; eauto.
Qed.
