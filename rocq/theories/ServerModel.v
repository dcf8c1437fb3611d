(** Model of [Server], the object behind [create_server]
    (scarletio/core/event_loop/server.py).

    Simplified: the sockets are only "given" or "None"; [start] and the
    listening itself are not modelled.  A task awaiting [wait_closed] is
    represented by the future it waits for; cancelling the task cancels that
    future (core/traps/task.py 116-130). *)
From Coq Require Import List ZArith Bool Arith Lia.
Import ListNotations.

(** State of a waiter's future (core/traps/future.py 390-410: [set_result]
    raises on a future which is done). *)
Inductive wstate := WPending | WWoken | WCancelled.

(** Server.__init__ 34-58: [sockets], [active_count], [close_waiters]; and the
    futures created so far, the [i]-th being the future of the [i]-th waiter. *)
Record server := {
  sv_open : bool;                 (* sockets is not None *)
  sv_active : Z;                  (* active_count *)
  sv_waiters : option (list nat); (* close_waiters *)
  sv_futures : list wstate
}.

Definition sv_init : server :=
  {| sv_open := true; sv_active := 0%Z; sv_waiters := Some []; sv_futures := [] |}.

Inductive sv_op :=
| SAttach             (* a connection is made: _attach *)
| SDetach             (* a connection is lost: _detach *)
| SClose              (* close() *)
| SWait               (* a task calls wait_closed() *)
| SCancel (w : nat).  (* the w-th waiting task is cancelled *)

Inductive sv_out :=
| SDone              (* the call returned *)
| SReturned          (* wait_closed() returned at once *)
| SWaiting (w : nat) (* wait_closed() waits as waiter number w *)
| SInvalidState.     (* InvalidStateError was raised *)

Fixpoint set_nth (i : nat) (v : wstate) (l : list wstate) : list wstate :=
  match l, i with
  | [], _ => []
  | _ :: r, O => v :: r
  | x :: r, S j => x :: set_nth j v r
  end.

(** The loop of _wake_up_close_waiters, 106-107: [set_result] raises at the
    first future which is done, which ends the loop. *)
Fixpoint wake_loop (ws : list nat) (fs : list wstate) : list wstate * bool :=
  match ws with
  | [] => (fs, true)
  | w :: r =>
      match nth_error fs w with
      | Some WPending => wake_loop r (set_nth w WWoken fs)
      | _ => (fs, false)
      end
  end.

(** _wake_up_close_waiters, 97-107. *)
Definition wake_up (s : server) : server * sv_out :=
  match sv_waiters s with
  | None => (s, SDone)
  | Some ws =>
      let (fs, ok) := wake_loop ws (sv_futures s) in
      ({| sv_open := sv_open s; sv_active := sv_active s;
          sv_waiters := None; sv_futures := fs |},
       if ok then SDone else SInvalidState)
  end.

(** _attach 77-81; _detach 84-94; close 110-127; wait_closed 154-169; and the
    cancellation of a waiting task. *)
Definition sv_step (s : server) (o : sv_op) : server * sv_out :=
  match o with
  | SAttach =>
      ({| sv_open := sv_open s; sv_active := (sv_active s + 1)%Z;
          sv_waiters := sv_waiters s; sv_futures := sv_futures s |}, SDone)
  | SDetach =>
      let a := (sv_active s - 1)%Z in
      let s1 := {| sv_open := sv_open s; sv_active := a;
                   sv_waiters := sv_waiters s; sv_futures := sv_futures s |} in
      if negb (a =? 0)%Z then (s1, SDone)
      else if negb (sv_open s) then wake_up s1 else (s1, SDone)
  | SClose =>
      if negb (sv_open s) then (s, SDone)
      else
        let s1 := {| sv_open := false; sv_active := sv_active s;
                     sv_waiters := sv_waiters s; sv_futures := sv_futures s |} in
        if (sv_active s =? 0)%Z then wake_up s1 else (s1, SDone)
  | SWait =>
      if negb (sv_open s) then (s, SReturned)
      else
        match sv_waiters s with
        | None => (s, SReturned)
        | Some ws =>
            let w := length (sv_futures s) in
            ({| sv_open := sv_open s; sv_active := sv_active s;
                sv_waiters := Some (ws ++ [w]);
                sv_futures := sv_futures s ++ [WPending] |}, SWaiting w)
        end
  | SCancel w =>
      match nth_error (sv_futures s) w with
      | Some WPending =>
          ({| sv_open := sv_open s; sv_active := sv_active s;
              sv_waiters := sv_waiters s;
              sv_futures := set_nth w WCancelled (sv_futures s) |}, SDone)
      | _ => (s, SDone)
      end
  end.

Fixpoint sv_run (s : server) (os : list sv_op) : server * list sv_out :=
  match os with
  | [] => (s, [])
  | o :: r => let (s1, x) := sv_step s o in
              let (s2, xs) := sv_run s1 r in (s2, x :: xs)
  end.

Definition sv_after (os : list sv_op) : server := fst (sv_run sv_init os).
