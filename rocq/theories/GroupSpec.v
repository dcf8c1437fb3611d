(** What the users of a task group see: the sets [pending] and [done], the results of the waiters and of pop_done. *)
From Coq Require Import List Bool Arith Lia.
From Verif Require Import GroupModel.
Import ListNotations.

(** The futures added, in order. *)
Fixpoint added (os : list g_op) : list nat :=
  match os with [] => [] | TAdd f :: r => f :: added r | _ :: r => added r end.

(** The waits, in order: the number of a wait is its waiter's number. *)
Fixpoint waits (os : list g_op) : list kind :=
  match os with [] => [] | TWait k _ :: r => k :: waits r | _ :: r => waits r end.

Definition finished (os : list g_op) (f : nat) : Prop := exists r c, In (TFinish f r c) os.

Definition is_pop (k : kind) : bool := match k with KFirstPop => true | KExc _ p => p | _ => false end.

Definition waiter (os : list g_op) (w : nat) (k : kind) (x : wstate) : Prop :=
  nth_error (waits os) w = Some k /\ nth_error (wst (g_after os)) w = Some x.

(** [f] was given to someone by an operation which removes it from the group. *)
Definition given (os : list g_op) (f : nat) : Prop :=
  In (OGot f) (g_outs os) \/ exists w k, is_pop k = true /\ waiter os w k (GRes (Some f)).

(** A waiter which would have removed a future from the group was cancelled. *)
Definition pop_cancelled (os : list g_op) : Prop := exists w k, is_pop k = true /\ waiter os w k GCancelled.

Definition in_pending os f := In f (pending (g_after os)).
Definition in_done os f := In f (done (g_after os)).

(** [f] was added to the group and is done. *)
Definition member_done os f : Prop := In f (added os) /\ exists r c, futs (g_after os) f = FD r c /\ In (TFinish f r c) os.
(** [f] failed: with an exception, or, if these count, with a cancellation. *)
Definition failed os (cancellation : bool) f : Prop := exists r c, futs (g_after os) f = FD r c /\ (r = true \/ cancellation = true /\ c = true).

(** The wait number [w] of kind [k] ends with [x] in the step [o]. *)
Definition ends os o w k x : Prop :=
  waiter (os ++ [o]) w k x /\ x <> GWait /\ x <> GCancelled /\
  (nth_error (wst (g_after os)) w = None \/ nth_error (wst (g_after os)) w = Some GWait).

(** What a wait of each kind waits for. *)
Definition awaited os (k : kind) (x : wstate) : Prop :=
  match k with
  | KNext => x = GRes None
  | KFirst | KFirstPop =>
      (exists f, x = GRes (Some f) /\ member_done os f) \/
      x = GRes None /\ (forall f, ~ in_pending os f) /\ (forall f, ~ in_done os f)
  | KExc c _ =>
      (exists f, x = GRes (Some f) /\ member_done os f /\ failed os c f) \/
      x = GRes None /\ (forall f, ~ in_pending os f) /\ (forall f, in_done os f -> ~ failed os c f)
  | KN n => exists m, x = GCount m /\ n <= m
  | KAll => x = GRes None /\ forall f, ~ in_pending os f
  end.

(** A wait of the kind [k] has nothing to end for. *)
Definition nothing_yet os (k : kind) : Prop :=
  match k with
  | KNext => True
  | KFirst | KFirstPop => (exists f, in_pending os f) /\ forall f, ~ in_done os f
  | KExc c _ => (exists f, in_pending os f) /\ forall f, in_done os f -> ~ failed os c f
  | KN n => length (done (g_after os)) < n
  | KAll => exists f, in_pending os f
  end.
