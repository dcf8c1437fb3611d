(** C51, C97 and C98: task groups. *)
From Coq Require Import List Bool Arith Lia.
From Verif Require Import GroupModel GroupSpec GroupProofs.
Import ListNotations.

(** Each future which is added once is in exactly one place: pending, done, or given to one of the
    operations which remove it; unless a wait which would remove one was cancelled. *)
Theorem C51_tracked_partial os f : NoDup (added os) -> In f (added os) ->
  (in_pending os f /\ ~ in_done os f /\ ~ given os f) \/
  (in_done os f /\ ~ in_pending os f /\ ~ given os f) \/
  (~ in_pending os f /\ ~ in_done os f /\ (given os f \/ pop_cancelled os)).
Proof. exact (tracked os f). Qed.
Print Assumptions C51_tracked_partial.

(** Once the event loop ran the callbacks, no finished future is pending; what is done or given is finished. *)
Theorem C51_moved os f : NoDup (added os) -> ready (g_after os) = [] -> In f (added os) -> finished os f -> ~ in_pending os f.
Proof. exact (idle_moved os f). Qed.
Print Assumptions C51_moved.
Theorem C51_done os f : in_done os f -> In f (added os) /\ finished os f.
Proof. exact (done_finished os f). Qed.
Print Assumptions C51_done.
Theorem C51_given os f : NoDup (added os) -> given os f -> In f (added os) /\ finished os f /\ ~ in_pending os f /\ ~ in_done os f.
Proof. exact (given_gone os f). Qed.
Print Assumptions C51_given.

(** The future finishes while a wait_first_and_pop waits, which is cancelled before the callback runs: the
    future is in neither set and nobody got it. *)
Theorem C51_lost_refuted : exists os f, NoDup (added os) /\ In f (added os) /\ ready (g_after os) = [] /\
  ~ in_pending os f /\ ~ in_done os f /\ ~ given os f.
Proof.
  exists [TAdd 0; TWait KFirstPop 0; TFinish 0 false false; TCancel 0; TRun; TRun], 0.
  split; [repeat constructor; cbn; tauto|]. split; [cbn; auto|]. split; [vm_compute; reflexivity|]. split; [vm_compute; tauto|]. split; [vm_compute; tauto|].
  intros [H|(w & k & _ & _ & H)].
  - vm_compute in H. intuition discriminate.
  - destruct w as [|[|w]]; vm_compute in H; discriminate.
Qed.
Print Assumptions C51_lost_refuted.

(** Two waiters of wait_first_and_pop both get the future. *)
Theorem C51_once_refuted : exists os f v w, NoDup (added os) /\ v <> w /\
  waiter os v KFirstPop (GRes (Some f)) /\ waiter os w KFirstPop (GRes (Some f)).
Proof.
  exists [TAdd 0; TWait KFirstPop 0; TWait KFirstPop 0; TFinish 0 false false; TRun], 0, 0, 1.
  split; [repeat constructor; cbn; tauto|]. split; [discriminate|]. split; split; vm_compute; reflexivity.
Qed.
Print Assumptions C51_once_refuted.

(** A pending future added twice comes back after it was given away. *)
Theorem C51_twice_refuted : exists os f, given os f /\ in_done os f.
Proof.
  exists [TAdd 0; TAdd 0; TFinish 0 false false; TRun; TPop 0; TRun], 0.
  split; [left; vm_compute; tauto|]. vm_compute; tauto.
Qed.
Print Assumptions C51_twice_refuted.

Example C51_nonvacuous :
  let os := [TAdd 3; TAdd 5; TAdd 7; TWait KAll 0; TFinish 5 false false; TRun; TPop 0; TFinish 7 true false] in
  NoDup (added os) /\ in_pending os 3 /\ given os 5 /\ in_pending os 7 /\ in_done (os ++ [TRun]) 7 /\ waiter (os ++ [TRun]) 0 KAll GWait.
Proof.
  cbv zeta. split; [repeat constructor; cbn; intuition discriminate|]. split; [vm_compute; tauto|]. split; [left; vm_compute; tauto|]. split; [vm_compute; tauto|]. split; [vm_compute; tauto|]. split; vm_compute; reflexivity.
Qed.

(** A wait goes on only while what it waits for did not happen. *)
Theorem C97_not_missed os w k : waiter os w k GWait -> nothing_yet os k.
Proof. exact (no_missed os w k). Qed.
Print Assumptions C97_not_missed.

(** A wait ends only with what it waits for. *)
Theorem C97_not_early os o w k x : ends os o w k x -> awaited (os ++ [o]) k x.
Proof. exact (not_early os o w k x). Qed.
Print Assumptions C97_not_early.

(** wait_first_n of more futures than there are goes on after all of them finished and were run. *)
Theorem C97_count_refuted : exists os w n, waiter os w (KN n) GWait /\ ready (g_after os) = [] /\ (forall f, ~ in_pending os f) /\ n = 2.
Proof.
  exists [TAdd 0; TWait (KN 2) 0; TFinish 0 false false; TRun], 0, 2.
  split; [split; vm_compute; reflexivity|]. split; [vm_compute; reflexivity|]. split; [vm_compute; tauto|reflexivity].
Qed.
Print Assumptions C97_count_refuted.

Example C97_nonvacuous :
  let os := [TAdd 3; TAdd 5; TWait KAll 0; TWait (KExc true false) 0; TFinish 5 false true; TRun; TFinish 3 false false] in
  waiter os 0 KAll GWait /\ waiter os 1 (KExc true false) (GRes (Some 5)) /\ nothing_yet os KAll /\
  ends (os ++ [TRun]) TRun 0 KAll (GRes None) /\ ~ nothing_yet (os ++ [TRun; TRun]) KAll.
Proof.
  cbv zeta. split; [split; vm_compute; reflexivity|]. split; [split; vm_compute; reflexivity|]. split; [exists 3; vm_compute; auto|].
  split.
  - split; [split; vm_compute; reflexivity|]. split; [discriminate|]. split; [discriminate|]. right. vm_compute. reflexivity.
  - intros (f & F). vm_compute in F. exact F.
Qed.

(** wait_next, which is documented to give the future, never gives one. *)
Theorem C98_next_refuted : (exists os o w, ends os o w KNext (GRes None) /\ exists f, ~ in_done os f /\ in_done (os ++ [o]) f) /\
  forall os o w x, ends os o w KNext x -> forall f, x <> GRes (Some f).
Proof.
  split.
  - exists [TAdd 0; TWait KNext 0; TFinish 0 false false], TRun, 0. split.
    + split; [split; vm_compute; reflexivity|]. split; [discriminate|]. split; [discriminate|]. right. vm_compute. reflexivity.
    + exists 0. split; vm_compute; tauto.
  - intros os o w x H f. apply not_early in H. cbn in H. congruence.
Qed.
Print Assumptions C98_next_refuted.

(** ... and it ends for a future which was never pending in the group. *)
Theorem C98_pending_refuted : exists os o w f, ends os o w KNext (GRes None) /\ o = TAdd f /\ finished os f /\
  forall p, (exists q, p ++ q = os ++ [o]) -> forall g, ~ in_pending p g.
Proof.
  exists [TWait KNext 0; TFinish 0 false false], (TAdd 0), 0, 0.
  split; [split; [split; vm_compute; reflexivity|]; split; [discriminate|]; split; [discriminate|]; right; vm_compute; reflexivity|].
  split; [reflexivity|]. split; [exists false, false; cbn; auto|].
  intros p (q & E) g. destruct p as [|a [|b [|c p]]]; cbn in E; [|injection E as -> E|injection E as -> -> E|injection E as -> -> -> E].
  - vm_compute. tauto.
  - vm_compute. tauto.
  - vm_compute. tauto.
  - apply app_eq_nil in E. destruct E as (-> & _). vm_compute. tauto.
Qed.
Print Assumptions C98_pending_refuted.
