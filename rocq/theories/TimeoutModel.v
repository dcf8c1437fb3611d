(** Model of the timeouts: the context manager [Timeout] of the http client (/repo/scarletio/web_common/helpers.py
    173-315, used by http_client.py:218 and 480), [repeat_timeout] (/repo/scarletio/core/traps/timeouting.py), [sleep]
    (/repo/scarletio/core/traps/task_suppression.py:42-81 with [_SleepHandleCanceller], handle_cancellers.py:78-108) and
    [Future.apply_timeout] (/repo/scarletio/core/traps/future.py:29-53, 603-627).

    Time is counted in ticks from the start of the clock (python has floats). A timer is the time it is due at and
    whether the event loop has already moved it into its ready queue; the loop does that in a cycle when
    [when < now + resolution] and runs it some time later, unless it gets cancelled first. That is what LoopModel.v does
    with timers (proved there: C07, C08). Anything may happen between two operations.

    [call_after] and [call_at] return None when the event loop is stopped; here it is running. The body of a with block
    is arbitrary: it may finish, raise, or catch the cancellation and go on. How [task.cancel()] gets a CancelledError
    into the body is C05. *)
From Coq Require Import List Bool Arith.
Import ListNotations.

(** A timer: when it is due, and whether it is in the ready queue. *)
Definition timer : Type := (nat * bool)%type.

(** event_loop.py:661-672: a timer which is due gets into the ready queue. *)
Definition queue_due (resolution now : nat) (t : timer) : timer :=
  let (when, queued) := t in (when, queued || (when <? now + resolution)).

(** What leaves the body of the with block: CancelledError or another exception. *)
Inductive exn := XCancelled | XOther (n : nat).

(** What the with statement does. *)
Inductive outcome :=
  | Entered | NotInTask | AlreadyTimedOut | AlreadyUsed  (* __enter__ *)
  | Through (e : option exn)  (* the block ends as its body does *)
  | TimedOut                  (* TimeoutError is raised *)
  | TypeErrored.              (* issubclass(None, CancelledError) raises TypeError *)

Inductive event :=
  | EvEnter (r : outcome)
  | EvExit (e : option exn) (r : outcome)
  | EvCancelTask.             (* task.cancel() *)

(** ** Timeout *)

(** helpers.py:168-171 *)
Inductive tstate := TNone | TTimedOut | TCancelled | TExited.

Record tmo := mk_tmo {
  t_now : nat;
  t_handle : option timer;   (* self._handle *)
  t_task : bool;             (* self._task is not None *)
  t_state : tstate           (* self._state *)
}.

Inductive t_op :=
  | TTick (d : nat)          (* time passes *)
  | TCycle                   (* the loop looks at its timers *)
  | TRun                     (* the loop runs the queued timer *)
  | TEnter (in_task : bool)  (* __enter__; self._loop.current_task is not None *)
  | TCancel                  (* cancel() *)
  | TExit (e : option exn).  (* __exit__ *)

(** helpers.py:205-223 *)
Definition t_new (now delay : nat) : tmo := mk_tmo now (Some (now + delay, false)) false TNone.

(** helpers.py:283-298 *)
Definition t_timeout (s : tmo) : tmo * list event :=
  match t_state s with
  | TNone => (mk_tmo (t_now s) None (t_task s) TTimedOut, if t_task s then [EvCancelTask] else [])
  | _ => (s, [])
  end.

(** helpers.py:242-280 *)
Definition t_enter (s : tmo) (in_task : bool) : tmo * outcome :=
  if in_task
  then match t_state s with
       | TNone => (mk_tmo (t_now s) (t_handle s) true TNone, Entered)
       | TTimedOut => (s, AlreadyTimedOut)
       | TCancelled => (s, Entered)
       | TExited => (s, AlreadyUsed)
       end
  else (s, NotInTask).

(** helpers.py:301-315 *)
Definition t_exit (s : tmo) (e : option exn) : tmo * outcome :=
  (mk_tmo (t_now s) None false TExited,
   match t_state s with
   | TTimedOut =>
       match e with
       | None => TypeErrored
       | Some XCancelled => TimedOut
       | Some (XOther n) => Through (Some (XOther n))
       end
   | _ => Through e
   end).

Definition t_step (res : nat) (s : tmo) (o : t_op) : tmo * list event :=
  match o with
  | TTick d => (mk_tmo (t_now s + d) (t_handle s) (t_task s) (t_state s), [])
  | TCycle => (mk_tmo (t_now s) (option_map (queue_due res (t_now s)) (t_handle s)) (t_task s) (t_state s), [])
  | TRun => match t_handle s with Some (_, true) => t_timeout s | _ => (s, []) end
  | TEnter in_task => let (s', r) := t_enter s in_task in (s', [EvEnter r])
  | TCancel => (* helpers.py:226-239 *)
      match t_state s with
      | TCancelled => (s, [])
      | _ => (mk_tmo (t_now s) None false TCancelled, [])
      end
  | TExit e => let (s', r) := t_exit s e in (s', [EvExit e r])
  end.

Fixpoint t_run (res : nat) (s : tmo) (os : list t_op) : tmo :=
  match os with [] => s | o :: r => t_run res (fst (t_step res s o)) r end.
Fixpoint t_events (res : nat) (s : tmo) (os : list t_op) : list event :=
  match os with [] => [] | o :: r => snd (t_step res s o) ++ t_events res (fst (t_step res s o)) r end.

(** ** repeat_timeout *)

Record rep := mk_rep {
  r_now : nat;
  r_handle : option timer;  (* self._handle *)
  r_last : nat;             (* self._last_set, 0 stands for 0.0 *)
  r_timed : bool            (* self._timed_out *)
}.

Inductive r_op :=
  | RTick (d : nat)
  | RCycle
  | RRun
  | RNext                   (* __next__: an iteration starts *)
  | RExit (e : option exn). (* __exit__ *)

(** timeouting.py:53-81 *)
Definition r_new (now delay : nat) : rep := mk_rep now (Some (now + delay, false)) 0 false.

(** timeouting.py:112-125 *)
Definition r_call (delay : nat) (s : rep) : rep * list event :=
  if 0 <? r_last s
  then (mk_rep (r_now s) (Some (r_last s + delay, false)) 0 (r_timed s), [])
  else (mk_rep (r_now s) None (r_last s) true, [EvCancelTask]).

(** timeouting.py:99-109 *)
Definition r_exit (s : rep) (e : option exn) : rep * outcome :=
  (mk_rep (r_now s) None (r_last s) (r_timed s),
   match e with
   | Some XCancelled => if r_timed s then TimedOut else Through e
   | _ => Through e
   end).

Definition r_step (res delay : nat) (s : rep) (o : r_op) : rep * list event :=
  match o with
  | RTick d => (mk_rep (r_now s + d) (r_handle s) (r_last s) (r_timed s), [])
  | RCycle => (mk_rep (r_now s) (option_map (queue_due res (r_now s)) (r_handle s)) (r_last s) (r_timed s), [])
  | RRun => match r_handle s with Some (_, true) => r_call delay s | _ => (s, []) end
  | RNext => (* timeouting.py:89-91 *) (mk_rep (r_now s) (r_handle s) (r_now s) (r_timed s), [])
  | RExit e => let (s', r) := r_exit s e in (s', [EvExit e r])
  end.

Fixpoint r_run (res delay : nat) (s : rep) (os : list r_op) : rep :=
  match os with [] => s | o :: r => r_run res delay (fst (r_step res delay s o)) r end.
Fixpoint r_events (res delay : nat) (s : rep) (os : list r_op) : list event :=
  match os with [] => [] | o :: r => snd (r_step res delay s o) ++ r_events res delay (fst (r_step res delay s o)) r end.

(** ** sleep and apply_timeout: a future with timers *)

(** What the timer does to the future when it runs: [set_result_if_pending(None)] or [cancel_with(TimeoutError)]. *)
Inductive kind := KSleep | KTimeout.
Inductive fout := FSlept | FTimeout | FUser (n : nat). (* FUser: any other outcome somebody else has set *)

Record slp := mk_slp {
  f_now : nat;
  f_out : option fout;
  f_timers : list (kind * timer);   (* the timers of the future which are not cancelled, in the order of their creation *)
  f_called : bool                   (* the done callbacks of the future were run *)
}.

Inductive f_op :=
  | FTick (d : nat)
  | FCycle
  | FRun (i : nat)         (* the loop runs the i-th timer, if it is queued *)
  | FSet (n : nat)         (* set_result, set_exception, cancel *)
  | FApply (delay : nat)   (* apply_timeout(delay) *)
  | FCallbacks.            (* the loop runs the done callbacks *)

(** [Future(loop)] *)
Definition f_plain (now : nat) : slp := mk_slp now None [] false.
(** task_suppression.py:64-81 *)
Definition f_sleep (now delay : nat) : slp :=
  if delay =? 0
  then mk_slp now (Some FSlept) [] false
  else mk_slp now None [(KSleep, (now + delay, false))] false.

Definition f_settle (s : slp) (x : fout) (ts : list (kind * timer)) : slp :=
  match f_out s with
  | Some _ => mk_slp (f_now s) (f_out s) ts (f_called s)
  | None => mk_slp (f_now s) (Some x) ts (f_called s)
  end.

Fixpoint remove_nth {A : Type} (i : nat) (l : list A) : list A :=
  match l, i with
  | [], _ => []
  | _ :: r, O => r
  | x :: r, S j => x :: remove_nth j r
  end.

(** The result tells what [apply_timeout] returned. *)
Definition f_step (res : nat) (s : slp) (o : f_op) : slp * option bool :=
  match o with
  | FTick d => (mk_slp (f_now s + d) (f_out s) (f_timers s) (f_called s), None)
  | FCycle => (mk_slp (f_now s) (f_out s) (map (fun k => (fst k, queue_due res (f_now s) (snd k))) (f_timers s)) (f_called s), None)
  | FRun i =>
      match nth_error (f_timers s) i with
      | Some (k, (_, true)) => (* handle_cancellers.py:102-108, future.py:38 *)
          (f_settle s (match k with KSleep => FSlept | KTimeout => FTimeout end) (remove_nth i (f_timers s)), None)
      | _ => (s, None)
      end
  | FSet n => (f_settle s (FUser n) (f_timers s), None)
  | FApply delay => (* future.py:616-627 *)
      match f_out s with
      | Some _ => (s, Some false)
      | None =>
          if delay =? 0
          then (f_settle s FTimeout (f_timers s), Some true)
          else (mk_slp (f_now s) None (f_timers s ++ [(KTimeout, (f_now s + delay, false))]) (f_called s), Some true)
      end
  | FCallbacks => (* handle_cancellers.py:102-108 as a callback, future.py:41-53 *)
      match f_out s with
      | Some _ => (mk_slp (f_now s) (f_out s) [] true, None)
      | None => (s, None)
      end
  end.

Fixpoint f_run (res : nat) (s : slp) (os : list f_op) : slp :=
  match os with [] => s | o :: r => f_run res (fst (f_step res s o)) r end.
