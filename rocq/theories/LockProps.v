(** C10-C12: locks. *)

From Coq Require Import List Arith Bool Lia Sorted.
From Verif Require Import LockModel LockSpec LockProofs.
Import ListNotations.

(** C10: in every history no more calls of [acquire] own a slot than the lock has, and no more calls hold the lock. *)
Theorem C10_mutual_exclusion : forall size ops,
  let s := run (lock_init size) ops in
  length (owners s) <= size /\ length (holders s) <= size.
Proof. exact mutual_exclusion. Qed.
Print Assumptions C10_mutual_exclusion.

(** C10: a holder can always release. *)
Theorem C10_release_never_fails : forall size ops t,
  snd (release (run (lock_init size) ops) t) <> EvIndexError.
Proof. exact release_never_fails. Qed.
Print Assumptions C10_release_never_fails.

Example C10_nonvacuous :
  let s := run (lock_init 2) [OpAcquire; OpAcquire; OpAcquire; OpRelease 0; OpResume 2] in
  length (holders s) = 2 /\ map c_ticket (holders s) = [1; 2] /\ snd (release s 2) = EvDone.
Proof. repeat split. Qed.

(** C11: nobody overtakes a blocked call: whoever owns a slot called [acquire] before every call that is still
    blocked. *)
Theorem C11_no_overtaking : forall size ops c1 c2,
  let s := run (lock_init size) ops in
  In c1 (l_calls s) -> In c2 (l_calls s) -> blocked s c1 = true -> owns s c2 = true ->
  c_ticket c2 < c_ticket c1.
Proof. exact no_overtaking. Qed.
Print Assumptions C11_no_overtaking.

(** C11: a lock (with one slot) is acquired in the order in which [acquire] was called, whoever gets cancelled. *)
Theorem C11_acquired_in_order : forall ops, StronglySorted lt (acquired (events (lock_init 1) ops)).
Proof. exact acquired_in_order. Qed.
Print Assumptions C11_acquired_in_order.

Example C11_nonvacuous_order :
  acquired (events (lock_init 1) [OpAcquire; OpAcquire; OpAcquire; OpAcquire; OpCancel 1; OpResume 1; OpRelease 0; OpResume 2; OpRelease 2; OpResume 3]) = [0; 2; 3].
Proof. reflexivity. Qed.

Example C11_nonvacuous :
  let s := run (lock_init 1) [OpAcquire; OpAcquire; OpAcquire; OpAcquire; OpCancel 1; OpResume 1; OpRelease 0] in
  In (mk_call 3 (Waiting 2 false)) (l_calls s) /\ In (mk_call 2 (Waiting 1 false)) (l_calls s) /\
  blocked s (mk_call 3 (Waiting 2 false)) = true /\ owns s (mk_call 2 (Waiting 1 false)) = true.
Proof. cbn. repeat split; auto. Qed.

(** C12 is false: after the two short histories below no call is in progress and nobody holds the lock, but no later
    call of [acquire] ever returns, whatever happens next. *)
Theorem C12_cancel_never_leaks_refuted : exists ops,
  l_calls (run (lock_init 1) ops) = [] /\
  is_locked (run (lock_init 1) ops) = true /\
  forall ops' t, ~ In (EvAcquired t) (events (run (lock_init 1) ops) ops').
Proof.
  exists leak_history. destruct (lock_leak leak_history (or_introl eq_refl)) as [H1 H2].
  split; [exact H1|]. split; [reflexivity | exact H2].
Qed.
Print Assumptions C12_cancel_never_leaks_refuted.

Theorem C12_cancel_before_release_leaks_refuted : exists ops,
  ops = [OpAcquire; OpAcquire; OpCancel 1; OpRelease 0; OpResume 1] /\
  l_calls (run (lock_init 1) ops) = [] /\
  is_locked (run (lock_init 1) ops) = true /\
  forall ops' t, ~ In (EvAcquired t) (events (run (lock_init 1) ops) ops').
Proof.
  exists leak_history'. split; [reflexivity|].
  destruct (lock_leak leak_history' (or_intror eq_refl)) as [H1 H2].
  split; [exact H1|]. split; [reflexivity | exact H2].
Qed.
Print Assumptions C12_cancel_before_release_leaks_refuted.

(** C12 where it holds: if a cancelled task always runs before the lock is touched again and only blocked tasks get
    cancelled, then the lock is locked exactly if all its slots are owned, nobody is blocked unless they are, and
    the reported number of waiting tasks is true. *)
Theorem C12_no_leak_partial : forall size ops, calm (lock_init size) ops ->
  let s := run (lock_init size) ops in
  (is_locked s = true <-> length (owners s) = size) /\
  (forall c, In c (l_calls s) -> blocked s c = true -> length (owners s) = size) /\
  get_waiting s = length (filter (blocked s) (l_calls s)).
Proof. exact calm_no_leak. Qed.
Print Assumptions C12_no_leak_partial.

Example C12_nonvacuous :
  let h := [OpAcquire; OpAcquire; OpAcquire; OpCancel 1; OpResume 1; OpRelease 0; OpResume 2] in
  calm (lock_init 1) h /\ map c_ticket (holders (run (lock_init 1) h)) = [2].
Proof.
  split; [|reflexivity].
  do 3 (apply calm_other; [discriminate|]).
  eapply calm_cancel with (c := mk_call 1 (Waiting 0 false)); [cbn; auto | reflexivity | reflexivity|].
  do 2 (apply calm_other; [discriminate|]). apply calm_nil.
Qed.
