From Coq Require Import List Arith Bool.
From Verif Require Import SwitchModel SwitchSpec SwitchProofs.
Import ListNotations.

(** * C168: the block is done in the executor, what follows in the loop *)

(** The block is never done elsewhere, cancelled or not. *)
Theorem C168_block : forall l n m th, In (true, th) (trace (run l (init n) m)) -> th = Executor.
Proof. intros l n m. apply block_executor. intros th []. Qed.
Print Assumptions C168_block.

(** Undisturbed, what follows is never done elsewhere than in the loop. *)
Theorem C168_rest_partial : forall l n m, undisturbed m -> let w := run l (init n) m in
  (forall th, In (false, th) (trace w) -> th = TheLoop) /\ (stuck l w -> woken w = true) /\ (ended w <> None -> woken w = true).
Proof. exact no_cancel_rest. Qed.
Print Assumptions C168_rest_partial.

(** Undisturbed, all of it is done, in order, when everyone has had their turns; then the task has returned and who waits for it knows. *)
Theorem C168_all_partial : forall l n m, undisturbed m -> let w := run l (init n) (m ++ rounds (4 * length l + 21)) in
  ended w = Some Returns /\ woken w = true /\ trace w = block_part l ++ rest_part n.
Proof. exact no_cancel_finished. Qed.
Print Assumptions C168_all_partial.

Example C168_nonvacuous : let l := [Work; Await; Work] in let m := [Enter; Start; Exec; Exec; Exec; Exec; InnerDone; InLoop; Exec; Exec; Exec] in
  undisturbed m /\ trace (run l (init 2) m) = [(true, Executor); (true, Executor)] /\
  trace (run l (init 2) (m ++ [Exec; Exec; Exec; InLoop])) = [(true, Executor); (true, Executor); (false, TheLoop); (false, TheLoop)].
Proof. vm_compute. split; [intros H; repeat destruct H as [H|H]; try discriminate; contradiction|split; reflexivity]. Qed.

(** The task is cancelled while the block works: what follows the block is done in the thread of the executor. *)
Theorem C168_cancelled_refuted : exists l n m, In (false, Executor) (trace (run l (init n) m)) /\ ~ In (false, TheLoop) (trace (run l (init n) m)).
Proof.
  exists [Work; Work], 1, [Enter; Start; Exec; Exec; Cancel; Exec; Exec; Exec; Exec]. split; [vm_compute; tauto|]. vm_compute. intros H. repeat destruct H as [H|H]; try discriminate; contradiction.
Qed.
Print Assumptions C168_cancelled_refuted.

(** * C169: a cancelled task ends, and who waits for it is woken *)

(** Cancelled while it awaits something in the block the task ends with CancelledError, what follows is done in the loop, and who
    waits for it is woken. *)
Theorem C169_awaiting_partial : forall l n m m2, undisturbed m -> awaiting (run l (init n) m) -> undisturbed m2 ->
  let w := run l (init n) (m ++ Cancel :: m2) in
  (forall th, In (false, th) (trace w) -> th = TheLoop) /\ (stuck l w -> woken w = true) /\
  (let v := run l w (rounds (4 * length l + 21)) in ended v = Some CancelledError /\ woken v = true /\ exists d k, l = d ++ k /\ trace v = block_part d ++ rest_part n).
Proof. exact await_cancel. Qed.
Print Assumptions C169_awaiting_partial.

Example C169_nonvacuous : let l := [Work; Await; Work] in let m := [Enter; Start; Exec; Exec; Exec] in
  awaiting (run l (init 1) m) /\ trace (run l (init 1) (m ++ Cancel :: rounds 40)) = [(true, Executor); (false, TheLoop)] /\
  ended (run l (init 1) (m ++ Cancel :: rounds 40)) = Some CancelledError.
Proof. vm_compute. repeat split. Qed.

(** Cancelled while the block works the task is done, but its callbacks are never scheduled: who waits for it waits for ever. *)
Theorem C169_working_refuted : exists l n m, let w := run l (init n) m in ended w = Some CancelledError /\ forall k, woken (run l w k) = false.
Proof.
  exists [Work; Work], 1, [Enter; Start; Exec; Exec; Cancel; Exec; Exec; Exec; Exec; Exec]. split; [vm_compute; reflexivity|]. intros k.
  match goal with |- woken (run ?l ?w k) = _ => destruct (dead_forever l k w) as (W & _ & _); [vm_compute; reflexivity|vm_compute; reflexivity|]; rewrite W end. vm_compute. reflexivity.
Qed.
Print Assumptions C169_working_refuted.

(** Cancelled before a thread has begun with it the task is never run again and never done. *)
Theorem C169_entering_refuted : forall l n, let w := run l (init n) [Enter; Cancel; Start] in forall k, ended (run l w k) = None /\ woken (run l w k) = false /\ trace (run l w k) = [].
Proof. intros l n w k. destruct (dead_forever l k w eq_refl eq_refl) as (W & E & T). rewrite W, E, T. auto. Qed.
Print Assumptions C169_entering_refuted.

(** So it is when it is cancelled while the block works after it has awaited something. *)
Theorem C169_awaited_refuted : exists l n m, let w := run l (init n) m in forall k, ended (run l w k) = None /\ woken (run l w k) = false.
Proof.
  exists [Await; Work], 1, [Enter; Start; Exec; Exec; InnerDone; Exec; Exec; Cancel; Exec; Exec; Exec; Exec]. intros w k.
  destruct (dead_forever [Await; Work] k w) as (W & E & _); [vm_compute; reflexivity|vm_compute; reflexivity|]. rewrite W, E. vm_compute. split; reflexivity.
Qed.
Print Assumptions C169_awaited_refuted.
