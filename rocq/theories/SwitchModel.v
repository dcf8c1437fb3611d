(** Model of [enter_executor] (scarletio/core/traps/task_thread_switcher.py 26-232) with a task which runs
    [try: async with enter_executor(): <block> finally: <rest>] (scarletio/core/traps/task.py 116-130, 249-350; future.py 116-136, 509-519).

    Blocking work is one item: other threads do what they do between any two items. Simplifications: [Task.cancel] is called in the
    thread of the loop; the futures awaited in the block are pending when they are awaited and end with a result or by the
    cancellation of the task; the block and the rest do not handle CancelledError and raise nothing of their own; the rest does not await.
    Not modelled: [_cancel_callback], which runs when the task is done already. *)

From Coq Require Import List Arith Bool.
Import ListNotations.

Inductive item := Work | Await.
Inductive fut := Pending | Result | Cancelled.
Inductive thread := TheLoop | Executor.
Inductive which := Nothing | Entry | Inner | End.     (* _waited_future of the task *)

(** Where the coroutine is. *)
Inductive stage :=
| Entering                   (* await future, 85 *)
| Block (l : list item)      (* items left *)
| Exiting                    (* await self._exit_future, 95 *)
| Rest (n : nat).            (* items left after the block *)

(** Where the executor's thread is. *)
Inductive place :=
| Scheduled                  (* _enter_executor waits in the loop *)
| Queued                     (* _executor_task waits for a thread *)
| Top                        (* 168 *)
| Inside                     (* the coroutine runs *)
| Waiting                    (* sync_wrap().wait_for_completion(), 164 *)
| AtEnd                      (* 154 *)
| Away                       (* 156-157: the task is given back to the loop *)
| Died.                      (* an exception left _executor_task, or nothing is left to do *)

Inductive ending := Returns | CancelledError.

Record world := mk_world {
  at_ : place;
  in_loop : bool;              (* a _step or _wake_up of the task waits in the loop *)
  coro : stage;
  rest : nat;                  (* items after the block *)
  raising : bool;              (* CancelledError is under way in the coroutine *)
  cancelling : bool;           (* FUTURE_STATE_CANCELLING_SELF *)
  waited : which;
  entry : fut;                 (* _enter_future *)
  inner : fut;                 (* the future awaited last in the block *)
  end_ : fut;                  (* _exit_future *)
  ended : option ending;       (* the task is done *)
  woken : bool;                (* its callbacks are scheduled *)
  trace : list (bool * thread) (* items done: of the block (true) or of the rest (false), and where *)
}.

(** The coroutine awaits the entry, 85. *)
Definition init (n : nat) : world :=
  mk_world Scheduled false Entering n false false Entry Pending Pending Pending None false [].

Inductive op :=
| Enter      (* the loop runs _enter_executor *)
| Start      (* a thread starts _executor_task *)
| Exec       (* and goes on with it *)
| InnerDone  (* the awaited future gets its result *)
| InLoop     (* the loop runs the _step or _wake_up *)
| Cancel.    (* Task.cancel *)

Definition set_place w p := mk_world p (in_loop w) (coro w) (rest w) (raising w) (cancelling w) (waited w) (entry w) (inner w) (end_ w) (ended w) (woken w) (trace w).
Definition set_coro w c r := mk_world (at_ w) (in_loop w) c (rest w) r (cancelling w) (waited w) (entry w) (inner w) (end_ w) (ended w) (woken w) (trace w).

(** Task.cancel, task.py 116-130; Future.cancel, future.py 116-136 *)
Definition cancel (w : world) : world :=
  match ended w with
  | Some _ => w
  | None =>
      let self := mk_world (at_ w) (in_loop w) (coro w) (rest w) (raising w) true (waited w) (entry w) (inner w) (end_ w) (ended w) (woken w) (trace w) in
      match waited w with
      | Nothing => self
      | Entry =>     (* as long as the callbacks are there, 110-111, the task is woken *)
          match entry w with
          | Pending => mk_world (at_ w) (match at_ w with Scheduled => true | _ => in_loop w end) (coro w) (rest w) (raising w) (cancelling w) (waited w) Cancelled (inner w) (end_ w) (ended w) (woken w) (trace w)
          | _ => self
          end
      | Inner =>
          match inner w with
          | Pending => mk_world (at_ w) (in_loop w) (coro w) (rest w) (raising w) (cancelling w) (waited w) (entry w) Cancelled (end_ w) (ended w) (woken w) (trace w)
          | _ => self
          end
      | End =>
          match end_ w with
          | Pending => mk_world (at_ w) (in_loop w) (coro w) (rest w) (raising w) (cancelling w) (waited w) (entry w) (inner w) Cancelled (ended w) (woken w) (trace w)
          | _ => self
          end
      end
  end.

(** The coroutine goes on inside of the executor, until the next item is done or something is awaited. *)
Definition inside (w : world) : world :=
  match coro w with
  | Entering => w
  | Block l =>
      if raising w then set_coro w Exiting true
      else match l with
           | [] => set_coro w Exiting false
           | Work :: l => mk_world (at_ w) (in_loop w) (Block l) (rest w) (raising w) (cancelling w) (waited w) (entry w) (inner w) (end_ w) (ended w) (woken w) (trace w ++ [(true, Executor)])
           | Await :: l =>      (* 214-222; cancelled at once when the task is cancelling *)
               mk_world Waiting (in_loop w) (Block l) (rest w) (raising w) false Inner (entry w) (if cancelling w then Cancelled else Pending) (end_ w) (ended w) (woken w) (trace w)
           end
  | Exiting =>
      match end_ w with
      | Pending => mk_world AtEnd (in_loop w) Exiting (rest w) (raising w) false End (entry w) (inner w) (if cancelling w then Cancelled else Pending) (ended w) (woken w) (trace w)
      | Result => set_coro w (Rest (rest w)) (raising w)
      | Cancelled => set_coro w (Rest (rest w)) true      (* the future is done: it raises, nothing is yielded *)
      end
  | Rest (S n) => mk_world (at_ w) (in_loop w) (Rest n) (rest w) (raising w) (cancelling w) (waited w) (entry w) (inner w) (end_ w) (ended w) (woken w) (trace w ++ [(false, Executor)])
  | Rest 0 =>
      (* 180-211: _schedule_callbacks(self) raises AttributeError; while cancelling without an exception even before the state is set *)
      mk_world Died (in_loop w) (Rest 0) (rest w) (raising w) (cancelling w) (waited w) (entry w) (inner w) (end_ w)
        (if raising w then Some CancelledError else if cancelling w then ended w else Some Returns) (woken w) (trace w)
  end.

(** _executor_task, 134-232 *)
Definition exec (l : list item) (w : world) : world :=
  match at_ w with
  | Top =>
      match ended w with
      | Some _ => set_place w Died
      | None =>
          match coro w with
          | Entering =>      (* thrown at the await of the entry: the block is not entered *)
              set_place (if cancelling w then set_coro w (Rest (rest w)) true else set_coro w (Block l) false) Inside
          | c => set_place (set_coro w c (cancelling w || match inner w with Cancelled => true | _ => false end)) Inside
          end
      end
  | Inside => inside w
  | Waiting => match inner w with Pending => w | _ => set_place w Top end
  | AtEnd =>
      match end_ w with
      | Pending => mk_world Away true (coro w) (rest w) (raising w) (cancelling w) (waited w) (entry w) (inner w) Result (ended w) (woken w) (trace w)
      | _ => set_place w Died      (* set_result raises InvalidStateError *)
      end
  | _ => w
  end.

(** Task._step in the loop: the rest is done there, and the task. *)
Definition in_loop_step (w : world) : world :=
  match ended w with
  | Some _ => mk_world (at_ w) false (coro w) (rest w) (raising w) (cancelling w) (waited w) (entry w) (inner w) (end_ w) (ended w) (woken w) (trace w)
  | None =>
      let r := raising w || cancelling w || match coro w with Entering => true | _ => false end in
      mk_world (at_ w) false (Rest 0) (rest w) r false (waited w) (entry w) (inner w) (end_ w) (Some (if r then CancelledError else Returns)) true
        (trace w ++ repeat (false, TheLoop) (rest w))
  end.

Definition step (l : list item) (w : world) (a : op) : world :=
  match a with
  | Enter => match at_ w with Scheduled => set_place w Queued | _ => w end
  | Start =>
      match at_ w with
      | Queued =>
          match entry w with
          | Pending => mk_world Top (in_loop w) (coro w) (rest w) (raising w) (cancelling w) End Result (inner w) (end_ w) (ended w) (woken w) (trace w)
          | _ => mk_world Died (in_loop w) (coro w) (rest w) (raising w) (cancelling w) End (entry w) (inner w) (end_ w) (ended w) (woken w) (trace w)
          end
      | _ => w
      end
  | Exec => exec l w
  | InnerDone => match at_ w, inner w with Waiting, Pending => mk_world (at_ w) (in_loop w) (coro w) (rest w) (raising w) (cancelling w) (waited w) (entry w) Result (end_ w) (ended w) (woken w) (trace w) | _, _ => w end
  | InLoop => if in_loop w then match at_ w with Scheduled => w | _ => in_loop_step w end else w
  | Cancel => cancel w
  end.

Definition run (l : list item) (w : world) (m : list op) : world := fold_left (step l) m w.
