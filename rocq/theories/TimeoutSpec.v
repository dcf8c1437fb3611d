(** What the users of the timeouts see, in terms of the clock and of what happened so far. *)
From Coq Require Import List Bool Arith Lia.
From Verif Require Import TimeoutModel.
Import ListNotations.

(** ** Timeout *)
Fixpoint t_elapsed (os : list t_op) : nat :=
  match os with [] => 0 | TTick d :: r => d + t_elapsed r | _ :: r => t_elapsed r end.

(** The block was left, or the timeout was cancelled. *)
Definition t_closed (os : list t_op) : Prop := In TCancel os \/ exists e, In (TExit e) os.

(** The event loop saw that the time is over, and got to run the timer, before the block was left. *)
Definition t_expired (res delay : nat) (os : list t_op) : Prop :=
  exists h1 h2 h3, os = h1 ++ TCycle :: h2 ++ TRun :: h3 /\ delay < t_elapsed h1 + res /\ ~ t_closed (h1 ++ h2).

(** The block was entered in a task. *)
Definition t_entered (os : list t_op) : Prop := In (TEnter true) os.

Definition t_after (res now delay : nat) (os : list t_op) : tmo := t_run res (t_new now delay) os.
(** What happens when [o] comes after [os]. *)
Definition t_then (res now delay : nat) (os : list t_op) (o : t_op) : list event := snd (t_step res (t_after res now delay os) o).
Definition t_cancels (res now delay : nat) (os : list t_op) : nat :=
  length (filter (fun e => match e with EvCancelTask => true | _ => false end) (t_events res (t_new now delay) os)).

(** ** repeat_timeout *)
Fixpoint r_elapsed (os : list r_op) : nat :=
  match os with [] => 0 | RTick d :: r => d + r_elapsed r | _ :: r => r_elapsed r end.
(** For how long the current iteration (before the first one: the block) goes on. *)
Fixpoint r_age_from (a : nat) (os : list r_op) : nat :=
  match os with [] => a | RTick d :: r => r_age_from (a + d) r | RNext :: r => r_age_from 0 r | _ :: r => r_age_from a r end.
Definition r_age (os : list r_op) : nat := r_age_from 0 os.

Definition r_left (os : list r_op) : Prop := exists e, In (RExit e) os.
Definition r_after (res now delay : nat) (os : list r_op) : rep := r_run res delay (r_new now delay) os.
Definition r_then (res now delay : nat) (os : list r_op) (o : r_op) : list event := snd (r_step res delay (r_after res now delay os) o).
Definition r_cancels (res now delay : nat) (os : list r_op) : nat :=
  length (filter (fun e => match e with EvCancelTask => true | _ => false end) (r_events res delay (r_new now delay) os)).

(** ** sleep and apply_timeout *)
Fixpoint f_elapsed (os : list f_op) : nat :=
  match os with [] => 0 | FTick d :: r => d + f_elapsed r | _ :: r => f_elapsed r end.
(** [apply_timeout(delay)] was called when [at] ticks passed. *)
Definition f_applied (os : list f_op) (at_ delay : nat) : Prop :=
  exists h1 h2, os = h1 ++ FApply delay :: h2 /\ f_elapsed h1 = at_.

(** A future made by [sleep(d)] or another one. *)
Definition f_start now (slept : option nat) : slp := match slept with Some d => f_sleep now d | None => f_plain now end.
Definition f_after res now slept os := f_run res (f_start now slept) os.
(** The event loop has no timer of the future in its ready queue. *)
Definition f_quiet (s : slp) : Prop := forall k w q, In (k, (w, q)) (f_timers s) -> q = false.
(** The event loop does nothing but run timers of this future. *)
Definition only_runs (rs : list f_op) : Prop := forall o, In o rs -> exists i, o = FRun i.
