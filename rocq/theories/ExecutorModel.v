(** Model of the executor (scarletio/core/event_loop/executor.py): [Executor], [ExecutorThread], [SyncQueue] as the
    queue of a thread, [ClaimedExecutor].

    The event loop's thread and the worker threads interleave at the granularity of the steps below: each step of
    a worker does one access to its queue (under the queue's lock) or starts or ends one function.  The futures are
    used in the event loop's thread only, but for [is_done] (382).  Functions and their futures are numbered by
    submission; the result (or the exception, 391-399) of the function [j] is the number [j].

    Simplified: when an idle executor is released by the timer (1147-1232) is not modelled, only that it may be:
    [EShrink].  ExecutorThread.cancel (460-470) is one step: the queue does not change within its loop. *)
From Coq Require Import List Bool Arith Lia.
Import ListNotations.

(** What is put into a worker's queue: ExecutionPair (661-687), or None. *)
Inductive item := IPair (func future : nat) | INone.

(** Where a worker thread is, 364-420: before the loop's condition; in [queue.get_result()], waiting, 176; there, with
    the waiter's result set, 133; with the item got, 377; within [func()], 390; ended. *)
Inductive phase := PTop | PWait | PHanded (i : item) | PGot (i : item) | PBusy (func future : nat) | PEnd.

(** ExecutorThread, 351-361; [stopped]: its state is EXECUTOR_THREAD_STOPPED. *)
Record worker := { ph : phase; queue : list item; stopped : bool }.

(** A future of the executor: its outcome and the executor of its ExecutionEndedCallback, 836-861. *)
Inductive outcome := Result (func : nat) | Cancelled.
Record fut := { out : option outcome; ended_cb : option nat }.

(** What is in the queue of the event loop: set_result_if_pending (or set_exception_if_pending), Future.cancel,
    ExecutionEndedCallback.__call__, Executor._execution_ended. *)
Inductive handle := LSet (future func : nat) | LCancel (future : nat) | LCallback (future w : nat) | LEnded (w : nat).

(** Executor, 900-909, with all threads and futures made. [log]: the functions which were started, last first. *)
Record exec := {
  ws : nat -> worker; nw : nat;
  futs : list fut;
  free : list nat; (* the last is popped first *)
  running : list nat;
  claimed : list nat;
  claims : list (option nat); (* ClaimedExecutor objects, 751-765 *)
  loop : list handle;
  log : list nat
}.

Definition e_init : exec :=
  {| ws := fun _ => {| ph := PTop; queue := []; stopped := false |}; nw := 0; futs := []; free := []; running := []; claimed := []; claims := []; loop := []; log := [] |}.

Definition upd {A} (m : nat -> A) (k : nat) (v : A) : nat -> A := fun x => if x =? k then v else m x.
Fixpoint set_nth {A} (i : nat) (v : A) (l : list A) : list A :=
  match l, i with [], _ => [] | _ :: r, O => v :: r | x :: r, S j => x :: set_nth j v r end.
Definition del (x : nat) (l : list nat) : list nat := filter (fun y => negb (y =? x)) l.
Definition mem (x : nat) (l : list nat) : bool := existsb (Nat.eqb x) l.

Definition with_ws (s : exec) f := {| ws := f; nw := nw s; futs := futs s; free := free s; running := running s; claimed := claimed s; claims := claims s; loop := loop s; log := log s |}.
Definition with_futs (s : exec) f := {| ws := ws s; nw := nw s; futs := f; free := free s; running := running s; claimed := claimed s; claims := claims s; loop := loop s; log := log s |}.
Definition with_loop (s : exec) l := {| ws := ws s; nw := nw s; futs := futs s; free := free s; running := running s; claimed := claimed s; claims := claims s; loop := l; log := log s |}.
Definition with_sets (s : exec) f r c := {| ws := ws s; nw := nw s; futs := futs s; free := f; running := r; claimed := c; claims := claims s; loop := loop s; log := log s |}.
Definition with_claims (s : exec) c := {| ws := ws s; nw := nw s; futs := futs s; free := free s; running := running s; claimed := claimed s; claims := c; loop := loop s; log := log s |}.
Definition with_log (s : exec) l := {| ws := ws s; nw := nw s; futs := futs s; free := free s; running := running s; claimed := claimed s; claims := claims s; loop := loop s; log := l |}.

(** SyncQueue.set_result, 118-134: to the waiter if there is one, else into the deque. *)
Definition put (i : item) (k : worker) : worker :=
  match ph k with
  | PWait => {| ph := PHanded i; queue := queue k; stopped := stopped k |}
  | _ => {| ph := ph k; queue := queue k ++ [i]; stopped := stopped k |}
  end.
Definition put_to (w : nat) (i : item) (s : exec) : exec := with_ws s (upd (ws s) w (put i (ws s w))).

Definition is_done (j : nat) (s : exec) : bool := match nth_error (futs s) j with Some f => match out f with Some _ => true | None => false end | None => false end.

(** A step of the thread of the worker [w]. *)
Definition work (w : nat) (s : exec) : exec :=
  let k := ws s w in
  let go p q := with_ws s (upd (ws s) w {| ph := p; queue := q; stopped := stopped k |}) in
  match ph k with
  | PTop => (* 375; SyncQueue.get_result 154-174 *)
      if stopped k then go PEnd (queue k)
      else match queue k with i :: q => go (PGot i) q | [] => go PWait [] end
  | PWait => s
  | PHanded i => go (PGot i) (queue k)
  | PGot INone => go PEnd (queue k)                     (* 378-379 *)
  | PGot (IPair f j) =>
      if is_done j s then go PTop (queue k)             (* 382-384 *)
      else with_log (go (PBusy f j) (queue k)) (f :: log s)
  | PBusy f j => with_loop (go PTop (queue k)) (loop s ++ [LSet j f]) (* 399, 404 *)
  | PEnd => s
  end.

(** A future gets done; its callback, if any, is scheduled. *)
Definition settle (j : nat) (x : outcome) (s : exec) : exec :=
  match nth_error (futs s) j with
  | Some f =>
      match out f with
      | Some _ => s
      | None =>
          let s1 := with_futs s (set_nth j {| out := Some x; ended_cb := None |} (futs s)) in
          with_loop s1 (loop s ++ match ended_cb f with Some w => [LCallback j w] | None => [] end)
      end
  | None => s
  end.

(** _execution_ended 1062-1077 with the part of _sync_keep (1156) which matters. *)
Definition execution_ended (w : nat) (s : exec) : exec :=
  if mem w (running s) then with_sets s (free s ++ [w]) (del w (running s)) (claimed s) else s.

(** A handle of the event loop. *)
Definition run_handle (h : handle) (s : exec) : exec :=
  match h with
  | LSet j f => settle j (Result f) s
  | LCancel j => settle j Cancelled s
  | LCallback _ w => with_loop s (loop s ++ [LEnded w]) (* 863-866 *)
  | LEnded w => execution_ended w s
  end.

(** _get_free_executor, 1112-1126; a new thread starts at once, 361. *)
Definition get_free (s : exec) : exec * nat :=
  match rev (free s) with
  | w :: r => (with_sets s (rev r) (running s) (claimed s), w)
  | [] => ({| ws := ws s; nw := S (nw s); futs := futs s; free := free s; running := running s; claimed := claimed s; claims := claims s; loop := loop s; log := log s |}, nw s)
  end.

(** run_in_executor, 1037-1059. *)
Definition submit (s : exec) : exec :=
  let j := length (futs s) in
  let (s1, w) := get_free s in
  let s2 := with_sets s1 (free s1) (if mem w (running s1) then running s1 else w :: running s1) (claimed s1) in
  put_to w (IPair j j) (with_futs s2 (futs s ++ [{| out := None; ended_cb := Some w |}])).

(** claim_executor, 1080-1091. *)
Definition claim (s : exec) : exec :=
  let (s1, w) := get_free s in
  with_claims (with_sets s1 (free s1) (running s1) (if mem w (claimed s1) then claimed s1 else w :: claimed s1)) (claims s ++ [Some w]).

(** ClaimedExecutor.execute, 767-797; [None]: RuntimeError. *)
Definition claim_execute (c : nat) (s : exec) : option exec :=
  match nth_error (claims s) c with
  | Some (Some w) =>
      let j := length (futs s) in
      Some (put_to w (IPair j j) (with_futs s (futs s ++ [{| out := None; ended_cb := None |}])))
  | _ => None
  end.

Inductive e_out := EoNone | EoJob (j : nat) | EoRuntimeError | EoAttributeError.

(** ClaimedExecutor.release, 799-822. If the deque is not empty, _shrink_queue (480-493) calls [is_done] of an
    ExecutionPair, which has none. *)
Definition claim_release (c : nat) (s : exec) : exec * e_out :=
  match nth_error (claims s) c with
  | Some (Some w) =>
      match queue (ws s w) with
      | _ :: _ => (s, EoAttributeError)
      | [] =>
          let s1 := with_claims s (set_nth c None (claims s)) in
          (if mem w (claimed s) then with_sets s1 (free s ++ [w]) (running s) (del w (claimed s)) else s1, EoNone) (* _claim_ended 1094-1109 *)
      end
  | _ => (s, EoNone)
  end.

(** ExecutorThread.release, 473-477. *)
Fixpoint release_all (l : list nat) (s : exec) : exec := match l with [] => s | w :: r => release_all r (put_to w INone s) end.

(** ExecutorThread.cancel, 460-470. *)
Definition cancel_handles (q : list item) : list handle := flat_map (fun i => match i with IPair _ j => [LCancel j] | INone => [] end) q.
Definition cancel_worker (w : nat) (s : exec) : exec :=
  let k := ws s w in
  let s1 := with_loop (with_ws s (upd (ws s) w {| ph := ph k; queue := []; stopped := true |})) (loop s ++ cancel_handles (queue k)) in
  put_to w INone s1.
Fixpoint cancel_all (l : list nat) (s : exec) : exec := match l with [] => s | w :: r => cancel_all r (cancel_worker w s) end.

Inductive e_op :=
| ESubmit             (* run_in_executor *)
| ECancel (j : nat)   (* future.cancel() *)
| EWork (w : nat)     (* a step of a worker thread *)
| ELoop               (* the event loop runs a handle *)
| EClaim              (* claim_executor *)
| EExecute (c : nat)  (* ClaimedExecutor.execute *)
| ERelease (c : nat)  (* ClaimedExecutor.release *)
| EShrink             (* _release_executor_step, 1215-1217 *)
| EReleaseAll         (* release_executors, 974-995 *)
| ECancelAll.         (* cancel_executors, 950-971 *)

Definition e_step (s : exec) (o : e_op) : exec * e_out :=
  match o with
  | ESubmit => (submit s, EoJob (length (futs s)))
  | ECancel j => (settle j Cancelled s, EoNone)
  | EWork w => (if w <? nw s then work w s else s, EoNone)
  | ELoop => (match loop s with [] => s | h :: r => run_handle h (with_loop s r) end, EoNone)
  | EClaim => (claim s, EoNone)
  | EExecute c => match claim_execute c s with Some s1 => (s1, EoJob (length (futs s))) | None => (s, EoRuntimeError) end
  | ERelease c => claim_release c s
  | EShrink => (match rev (free s) with [] => s | w :: r => put_to w INone (with_sets s (rev r) (running s) (claimed s)) end, EoNone)
  | EReleaseAll => (with_sets (release_all (claimed s) (release_all (running s) (release_all (rev (free s)) s))) [] [] [], EoNone)
  | ECancelAll => (with_sets (cancel_all (claimed s) (cancel_all (running s) (release_all (rev (free s)) s))) [] [] [], EoNone)
  end.

Fixpoint e_run (s : exec) (os : list e_op) : exec * list e_out :=
  match os with
  | [] => (s, [])
  | o :: r => let (s1, x) := e_step s o in let (s2, xs) := e_run s1 r in (s2, x :: xs)
  end.
Definition e_after (os : list e_op) : exec := fst (e_run e_init os).
Definition e_outs (os : list e_op) : list e_out := snd (e_run e_init os).
