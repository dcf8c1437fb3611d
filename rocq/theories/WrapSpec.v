(** What a thread which waits for a future relies on. *)

From Coq Require Import List Arith Bool.
From Verif Require Import WrapModel.
Import ListNotations.

(** The thread is in [wait] and nothing has told it to go on. *)
Definition blocked (w : world) (i : nat) : Prop := at_ w i = Waiting /\ event w i = false.

(** The future is done and the loop has nothing left to do for it. *)
Definition settled (w : world) : Prop := done w = true /\ loop w = Idle /\ ready w = [].

(** What the thread of the loop does, and no other. *)
Definition of_loop (a : op) : Prop := a = Sched \/ a = Run.

(** Executions in which a test and what is done because of it are not torn apart: reading the state and adding the callback,
    finding the callback and deleting it, seeing that there are callbacks and taking one. *)
Definition must_follow (w : world) (a : op) : Prop :=
  (forall i, at_ w i = Append \/ (exists k, at_ w i = Deleting k) -> a = Step i) /\ (loop w = Popping -> a = Sched).
Definition coarse (l : list op) : Prop := forall before a rest, l = before ++ a :: rest -> must_follow (run init before) a.

(** The thread [i] waits undisturbed: its next [n] accesses come at once. *)
Definition alone (i n : nat) : list op := repeat (Step i) n.
