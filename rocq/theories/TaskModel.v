(** Model of [Task], /repo/scarletio/core/traps/task.py, running on the event loop together with plain futures
    (/repo/scarletio/core/traps/future.py).

    Futures and tasks are numbered in the order of their creation. What a coroutine does is not fixed: a history says
    what the running coroutine does next ([OEnd]), and between its start ([OBegin]) and its end it (or anybody else) may
    do any other operation.

    Simplified: only the callbacks tasks register on what they wait for are modelled (task.py:318); results are not
    represented, only how a future ended; destroyed tasks (task.py:261) are left out. *)

From Coq Require Import List Arith Bool.
Import ListNotations.

(** How a future ended. [OutCancelled] carries the exception given to [cancel_with], if any (task.py:286-289, 299-305). *)
Inductive outcome := OutResult | OutRaised | OutCancelled (e : option nat).

Record ent := mk_ent {
  x_task : bool;               (* a Task, not a plain Future *)
  x_done : option outcome;     (* state & MASK_DONE, _result *)
  x_waited : option nat;       (* _waited_future *)
  x_cancelling : bool;         (* state & CANCELLING_SELF *)
  x_exc : option nat           (* _result of a task that is not done: set by cancel_with *)
}.

(** Handles in the ready queue: task.py:95, 327 and task.py:318 with event_loop.py:488-490. *)
Inductive handle := HStep (t : nat) | HWake (t : nat).
Definition htask (h : handle) : nat := match h with HStep t => t | HWake t => t end.

Record world := mk_world {
  w_ent : nat -> ent;
  w_regs : list (nat * nat);   (* (f, t): t._wake_up is in f._callbacks, oldest first *)
  w_ready : list handle;       (* loop._ready *)
  w_running : option nat;      (* the task whose coroutine is executing *)
  w_next : nat
}.

Definition ent_init (task : bool) : ent := mk_ent task None None false None.
Definition world_init : world := mk_world (fun _ => ent_init false) [] [] None 0.

Definition upd (g : nat -> ent) (x : nat) (v : ent) : nat -> ent := fun y => if Nat.eqb y x then v else g y.
Definition set_ent (w : world) (x : nat) (v : ent) : world :=
  mk_world (upd (w_ent w) x v) (w_regs w) (w_ready w) (w_running w) (w_next w).

Definition is_done (e : ent) : bool := match x_done e with Some _ => true | None => false end.

Definition with_done (e : ent) (o : outcome) : ent := mk_ent (x_task e) (Some o) (x_waited e) (x_cancelling e) (x_exc e).
Definition with_flag (e : ent) (b : bool) : ent := mk_ent (x_task e) (x_done e) (x_waited e) b (x_exc e).
Definition with_waited (e : ent) (o : option nat) : ent := mk_ent (x_task e) (x_done e) o (x_cancelling e) (x_exc e).
Definition with_exc (e : ent) (o : option nat) : ent := mk_ent (x_task e) (x_done e) (x_waited e) (x_cancelling e) o.

(** The future gets its outcome and its callbacks are scheduled, newest first (event_loop.py:482-490). *)
Definition complete (w : world) (f : nat) (o : outcome) : world :=
  mk_world (upd (w_ent w) f (with_done (w_ent w f) o))
           (filter (fun r => negb (Nat.eqb (fst r) f)) (w_regs w))
           (w_ready w ++ rev (map (fun r => HWake (snd r)) (filter (fun r => Nat.eqb (fst r) f) (w_regs w))))
           (w_running w) (w_next w).

(** [Future.cancel] (future.py:116-136) and [Task.cancel] (task.py:116-130), by the type of [x]. [None] stands for
    RecursionError: tasks that wait for each other in a circle. A chain of waiting tasks is not longer than the number
    of futures. *)
Fixpoint cancel (n : nat) (w : world) (x : nat) : option (world * bool) :=
  match n with
  | O => None
  | S n' =>
      let e := w_ent w x in
      if is_done e then Some (w, false)
      else if x_task e then
        match x_waited e with
        | None => Some (set_ent w x (with_flag e true), true)
        | Some f =>
            match cancel n' w f with
            | None => None
            | Some (w', true) => Some (w', true)
            | Some (w', false) => Some (set_ent w' x (with_flag (w_ent w' x) true), true)
            end
        end
      else Some (complete w x (OutCancelled None), true)
  end.

Definition fuel (w : world) : nat := S (S (w_next w)).

(** [Task.cancel_with] (task.py:134-157) and [Future.cancel_with] (future.py:138-171). *)
Definition cancel_with (w : world) (x : nat) (exc : nat) : option (world * bool) :=
  let e := w_ent w x in
  if is_done e then Some (w, false)
  else if x_task e then
    match x_waited e with
    | None => Some (set_ent w x (with_exc (with_flag e true) (Some exc)), true)
    | Some f =>
        match cancel (fuel w) w f with
        | None => None
        | Some (w', true) => Some (set_ent w' x (with_exc (with_flag (w_ent w' x) true) (Some exc)), true)
        | Some (w', false) => Some (set_ent w' x (with_exc (w_ent w' x) (Some exc)), true)
        end
    end
  else Some (complete w x (OutCancelled (Some exc)), true).

(** What the coroutine does when it stops executing. *)
Inductive response :=
  | RAwait (f : nat)      (* await of a future or task *)
  | RYield                (* yields something else, e.g. skip_ready_cycle *)
  | RReturn
  | RRaise
  | RRaiseCancelled.      (* lets a CancelledError through *)

(** How a coroutine is resumed: with [throw(CancelledError())], with [send(None)] after a bare yield, or with
    [send(None)] after the awaited future [f] (a task or not) ended with an outcome, which then comes out of the await
    expression. *)
Inductive kind := KThrow | KSend | KAwaited (f : nat) (task : bool) (o : option outcome).

Inductive event :=
  | EvResume (t : nat) (k : kind)
  | EvInvalidState (t : nat)      (* InvalidStateError of task.py:264 *)
  | EvSuspend (t : nat)
  | EvFinish (t : nat) (o : outcome)
  | EvCancel (x : nat) (r : bool)
  | EvRecursionError.

(** task.py:249-280, 334-346, up to the call of the coroutine. *)
Definition begin_step (w : world) : world * list event :=
  match w_running w, w_ready w with
  | None, h :: ready =>
      let t := htask h in
      let w0 := mk_world (w_ent w) (w_regs w) ready None (w_next w) in
      let e := w_ent w t in
      let e1 := match h with HStep _ => e | HWake _ => with_waited e None end in
      if is_done e then (set_ent w0 t e1, [EvInvalidState t])
      else
        let k :=
          if x_cancelling e then KThrow
          else match h, x_waited e with
               | HWake _, Some f => KAwaited f (x_task (w_ent w f)) (x_done (w_ent w f))
               | _, _ => KSend
               end in
        let w1 := mk_world (upd (w_ent w) t (with_flag e1 false)) (w_regs w) ready (Some t) (w_next w) in
        (w1, [EvResume t k])
  | _, _ => (w, [])
  end.

(** task.py:282-327. *)
Definition end_step (w : world) (r : response) : world * list event :=
  match w_running w with
  | None => (w, [])
  | Some t =>
      let idle w := mk_world (w_ent w) (w_regs w) (w_ready w) None (w_next w) in
      let e := w_ent w t in
      match r with
      | RAwait f =>
          (* awaiting a done future does not suspend (future.py:515) *)
          if is_done (w_ent w f) || negb (f <? w_next w) then (w, [])
          else
            let e1 := with_waited e (Some f) in
            let w1 := idle (mk_world (upd (w_ent w) t e1) (w_regs w ++ [(f, t)]) (w_ready w) None (w_next w)) in
            if x_cancelling e then
              match cancel (fuel w1) w1 f with
              | None => (w1, [EvSuspend t; EvRecursionError])
              | Some (w2, true) => (set_ent w2 t (with_flag (w_ent w2 t) false), [EvSuspend t])
              | Some (w2, false) => (w2, [EvSuspend t])
              end
            else (w1, [EvSuspend t])
      | RYield => (idle (mk_world (w_ent w) (w_regs w) (w_ready w ++ [HStep t]) None (w_next w)), [EvSuspend t])
      | RReturn =>
          let o := if x_cancelling e then OutCancelled (x_exc e) else OutResult in
          (idle (complete w t o), [EvFinish t o])
      | RRaise => (idle (complete w t OutRaised), [EvFinish t OutRaised])
      | RRaiseCancelled => (idle (complete w t (OutCancelled (x_exc e))), [EvFinish t (OutCancelled (x_exc e))])
      end
  end.

Inductive op :=
  | ONewFuture | ONewTask
  | OSetResult (f : nat)          (* set_result_if_pending / set_exception_if_pending of a plain future *)
  | OCancel (x : nat)
  | OCancelWith (x : nat) (e : nat)
  | OBegin | OEnd (r : response).

Definition step (w : world) (o : op) : world * list event :=
  match o with
  | ONewFuture => (mk_world (upd (w_ent w) (w_next w) (ent_init false)) (w_regs w) (w_ready w) (w_running w) (S (w_next w)), [])
  | ONewTask => (* task.py:74-97 *)
      (mk_world (upd (w_ent w) (w_next w) (ent_init true)) (w_regs w) (w_ready w ++ [HStep (w_next w)])
                (w_running w) (S (w_next w)), [])
  | OSetResult f =>
      if (f <? w_next w) && negb (x_task (w_ent w f)) && negb (is_done (w_ent w f))
      then (complete w f OutResult, []) else (w, [])
  | OCancel x =>
      if x <? w_next w
      then match cancel (fuel w) w x with
           | None => (w, [EvRecursionError])
           | Some (w', r) => (w', [EvCancel x r])
           end
      else (w, [])
  | OCancelWith x e =>
      if x <? w_next w
      then match cancel_with w x e with
           | None => (w, [EvRecursionError])
           | Some (w', r) => (w', [EvCancel x r])
           end
      else (w, [])
  | OBegin => begin_step w
  | OEnd r => end_step w r
  end.

Fixpoint run (w : world) (ops : list op) : world :=
  match ops with
  | [] => w
  | o :: ops' => run (fst (step w o)) ops'
  end.

Fixpoint events (w : world) (ops : list op) : list event :=
  match ops with
  | [] => []
  | o :: ops' => snd (step w o) ++ events (fst (step w o)) ops'
  end.
