(** Model of waiting for a future from other threads: [FutureWrapperSync.wait] and [wait_for_completion]
    (scarletio/core/traps/future_wrapper_sync.py 100-220), with [Future.add_done_callback], [remove_done_callback] and [set_result]
    (scarletio/core/traps/future.py 343-410) and [EventLoop._schedule_callbacks] (scarletio/core/event_loop/event_loop.py 469-490).

    One future, the thread of its event loop, and any number of threads which wait, each once. A thread may be interrupted between
    any two accesses to what is shared, which the language allows. CPython 3.10 and later, with its global lock, is interrupted at
    calls and at the ends of loops only: see [coarse] in WrapSpec.v.

    Simplified: the loop is running and is awake ([wake_up] is not modelled), only waiting threads add callbacks, the future is
    completed by the thread of the loop, which is any of [set_result], [set_exception] and their like. What is done to the future
    after a timeout ([propagate_cancellation]) and exceptions which interrupt the waiting are not modelled. *)

From Coq Require Import List Arith Bool.
Import ListNotations.

(** Where a waiting thread is. *)
Inductive place :=
| Start                (* wait, 136-140 *)
| Add                  (* add_done_callback, future.py 358, before the state is read *)
| Append               (* 361 *)
| Soon                 (* 359 *)
| Waiting              (* waiter.wait(timeout), 148 *)
| Removing (k : nat)   (* remove_done_callback, future.py 381: the index *)
| Deleting (k : nat)   (* 384 *)
| Returned             (* the result, 159; True, 212 *)
| TimedOut             (* TimeoutError, 169; False, 220 *)
| Failed.              (* IndexError out of 383 or 384 *)

(** Where the thread of the loop is. *)
Inductive looped :=
| Idle
| Looking              (* while callbacks, event_loop.py 488 *)
| Popping              (* 489 *)
| Broken.              (* IndexError out of 489 *)

Record world := mk_world {
  done : bool;
  callbacks : list nat;   (* _callbacks: whose waiter each of them sets *)
  ready : list nat;       (* _ready of the loop *)
  event : nat -> bool;    (* the waiters *)
  at_ : nat -> place;
  loop : looped
}.

Definition init : world := mk_world false [] [] (fun _ => false) (fun _ => Start) Idle.

Definition go (w : world) (i : nat) (p : place) : world :=
  mk_world (done w) (callbacks w) (ready w) (event w) (fun j => if j =? i then p else at_ w j) (loop w).
Definition with_callbacks (w : world) (l : list nat) : world := mk_world (done w) l (ready w) (event w) (at_ w) (loop w).
Definition with_ready (w : world) (l : list nat) : world := mk_world (done w) (callbacks w) l (event w) (at_ w) (loop w).
Definition with_loop (w : world) (p : looped) : world := mk_world (done w) (callbacks w) (ready w) (event w) (at_ w) p.

Fixpoint delete (k : nat) (l : list nat) : list nat :=
  match l, k with
  | [], _ => []
  | _ :: l, 0 => l
  | j :: l, S k => j :: delete k l
  end.

Inductive op :=
| Step (i : nat)      (* the thread [i] does its next access *)
| Timeout (i : nat)   (* waiter.wait(timeout) gives up *)
| Complete            (* set_result, future.py 404-410 *)
| Sched               (* _schedule_callbacks does its next access *)
| Run.                (* the loop runs the first handle *)

Definition step (w : world) (a : op) : world :=
  match a with
  | Step i =>
      match at_ w i with
      | Start => go w i (if done w then Returned else Add)
      | Add => go w i (if done w then Soon else Append)
      | Append => go (with_callbacks w (callbacks w ++ [i])) i Waiting
      | Soon => go (with_ready w (ready w ++ [i])) i Waiting
      | Waiting => if event w i then go w i Returned else w
      | Removing 0 => go w i TimedOut
      | Removing (S k) =>                                          (* future.py 381-383 *)
          match nth_error (callbacks w) k with
          | None => go w i Failed
          | Some j => go w i (if j =? i then Deleting k else Removing k)
          end
      | Deleting k =>
          if k <? length (callbacks w) then go (with_callbacks w (delete k (callbacks w))) i (Removing k) else go w i Failed
      | Returned | TimedOut | Failed => w
      end
  | Timeout i =>                                                   (* 161-162, future.py 378-380 *)
      match at_ w i with
      | Waiting => if event w i then w else go w i (Removing (length (callbacks w)))
      | _ => w
      end
  | Complete =>
      if done w then w
      else mk_world true (callbacks w) (ready w) (event w) (at_ w) Looking
  | Sched =>
      match loop w with
      | Looking => with_loop w (match callbacks w with [] => Idle | _ => Popping end)
      | Popping =>
          match rev (callbacks w) with
          | [] => with_loop w Broken
          | j :: l => with_loop (with_ready (with_callbacks w (rev l)) (ready w ++ [j])) Looking
          end
      | Idle | Broken => w
      end
  | Run =>                                                         (* _set_waiter_future_callback, 18-29 *)
      match ready w with
      | [] => w
      | j :: l => mk_world (done w) (callbacks w) l (fun i => if i =? j then true else event w i) (at_ w) (loop w)
      end
  end.

Definition run (w : world) (l : list op) : world := fold_left step l w.
