(** Model of [Lock] and [ScarletLock], /repo/scarletio/core/traps/locks.py.

    [Lock] (lines 57-88, 118-123) is the case [size = 1] of [ScarletLock] (lines 201-224): [len(waiters) > 1] and
    [waiters[1]] against [len(waiters) > size] and [waiters[size]].

    One call of [acquire] is a record with a ticket (the number of the call). The future created by the call
    (locks.py:207) is named by the same number. Every atomic section between two suspension points of the python
    code is one operation:
    - [OpAcquire]: the part of [__aenter__] up to [await waiter];
    - [OpResume]: the event loop resumes a task whose awaited future is done (task.py:334-346), running the part of
      [__aenter__] after [await waiter];
    - [OpRelease]: [release] / [__aexit__] called by a call that holds the lock;
    - [OpCancel]: [Task.cancel] (task.py:116-130) on a task that waits in [acquire].

    Not modelled: [await lock] (locks.py:105-116) and [release] by somebody who does not hold the lock. *)

From Coq Require Import List Arith Bool.
Import ListNotations.

(** State of a future as far as the lock is concerned (future.py). *)
Inductive fstatus := Pending | Finished | Cancelled.

Definition is_pending (s : fstatus) : bool := match s with Pending => true | _ => false end.

(** Where a call of [acquire] is: suspended on a future, together with the task's CANCELLING_SELF flag
    (task.py:124-125), or past it. A call that raised or was released is dropped. *)
Inductive phase := Waiting (f : nat) (must_cancel : bool) | Holding.

Record call := mk_call { c_ticket : nat; c_phase : phase }.

(** [l_deque] is [_waiters] from the oldest (right end) to the newest (left end) element. *)
Record lock := mk_lock {
  l_size : nat;
  l_deque : list nat;
  l_stat : nat -> fstatus;
  l_calls : list call;
  l_next : nat
}.

Definition lock_init (size : nat) : lock := mk_lock size [] (fun _ => Pending) [] 0.

Definition upd (st : nat -> fstatus) (f : nat) (v : fstatus) : nat -> fstatus :=
  fun x => if Nat.eqb x f then v else st x.

(** [deque.remove(waiter)] with [ValueError] ignored (locks.py:217-220). The elements are distinct futures, so the end
    from which the first match is searched does not matter. *)
Fixpoint remove_first (f : nat) (l : list nat) : list nat :=
  match l with
  | [] => []
  | x :: l' => if Nat.eqb x f then l' else x :: remove_first f l'
  end.

Inductive event :=
  | EvAcquired (t : nat)     (* acquire() of call [t] returned *)
  | EvRaised (t : nat)       (* acquire() of call [t] raised CancelledError *)
  | EvWaits (t : nat)        (* acquire() of call [t] suspended *)
  | EvDone                   (* release returned *)
  | EvCancel (n : nat)       (* return value of Task.cancel *)
  | EvIndexError             (* pop from an empty deque *)
  | EvIgnored.               (* operation not possible in this state *)

(** locks.py:207-222 up to the suspension; [await] of a done future does not suspend (future.py:515). *)
Definition acquire (s : lock) : lock * event :=
  let t := l_next s in
  let dq := l_deque s ++ [t] in
  let st := upd (l_stat s) t Pending in
  if l_size s <? length dq
  then
    let waiter := nth (length dq - 1 - l_size s) dq 0 in
    match st waiter with
    | Pending => (mk_lock (l_size s) dq st (l_calls s ++ [mk_call t (Waiting waiter false)]) (S t), EvWaits t)
    | Finished => (mk_lock (l_size s) dq st (l_calls s ++ [mk_call t Holding]) (S t), EvAcquired t)
    | Cancelled => (mk_lock (l_size s) (remove_first waiter dq) st (l_calls s) (S t), EvRaised t)
    end
  else (mk_lock (l_size s) dq st (l_calls s ++ [mk_call t Holding]) (S t), EvAcquired t).

Definition find_call (t : nat) (l : list call) : option call :=
  find (fun c => Nat.eqb (c_ticket c) t) l.
Definition drop_call (t : nat) (l : list call) : list call :=
  filter (fun c => negb (Nat.eqb (c_ticket c) t)) l.
Definition set_phase (t : nat) (p : phase) (l : list call) : list call :=
  map (fun c => if Nat.eqb (c_ticket c) t then mk_call t p else c) l.

(** locks.py:80-88 and 120-123, by the holder [t]; future.py:428-435 for [set_result_if_pending]. *)
Definition release (s : lock) (t : nat) : lock * event :=
  match find_call t (l_calls s) with
  | Some (mk_call _ Holding) =>
      match l_deque s with
      | [] => (s, EvIndexError)
      | f :: dq =>
          let st := if is_pending (l_stat s f) then upd (l_stat s) f Finished else l_stat s in
          (mk_lock (l_size s) dq st (drop_call t (l_calls s)) (l_next s), EvDone)
      end
  | _ => (s, EvIgnored)
  end.

(** task.py:116-130 for a task suspended in [await waiter]; future.py:116-136 for [waited_future.cancel()]. *)
Definition cancel (s : lock) (t : nat) : lock * event :=
  match find_call t (l_calls s) with
  | Some (mk_call _ (Waiting f m)) =>
      if is_pending (l_stat s f)
      then (mk_lock (l_size s) (l_deque s) (upd (l_stat s) f Cancelled) (l_calls s) (l_next s), EvCancel 1)
      else (mk_lock (l_size s) (l_deque s) (l_stat s) (set_phase t (Waiting f true) (l_calls s)) (l_next s), EvCancel 1)
  | _ => (s, EvIgnored)
  end.

(** task.py:334-346 and 258-280: the waiting task runs once the future is done. With CANCELLING_SELF, or if the future
    was cancelled, CancelledError is raised at [await waiter] and the handler of locks.py:216-222 runs. *)
Definition resume (s : lock) (t : nat) : lock * event :=
  match find_call t (l_calls s) with
  | Some (mk_call _ (Waiting f m)) =>
      let fail :=
        (mk_lock (l_size s) (remove_first f (l_deque s)) (l_stat s) (drop_call t (l_calls s)) (l_next s), EvRaised t) in
      match l_stat s f, m with
      | Pending, _ => (s, EvIgnored)
      | Cancelled, _ => fail
      | Finished, true => fail
      | Finished, false =>
          (mk_lock (l_size s) (l_deque s) (l_stat s) (set_phase t Holding (l_calls s)) (l_next s), EvAcquired t)
      end
  | _ => (s, EvIgnored)
  end.

(** locks.py:271-282. *)
Definition is_locked (s : lock) : bool := l_size s <=? length (l_deque s).
(** locks.py:253-268. *)
Definition get_waiting (s : lock) : nat :=
  if l_size s <? length (l_deque s) then length (l_deque s) - l_size s else 0.

Inductive op := OpAcquire | OpRelease (t : nat) | OpCancel (t : nat) | OpResume (t : nat).

Definition step (s : lock) (o : op) : lock * event :=
  match o with
  | OpAcquire => acquire s
  | OpRelease t => release s t
  | OpCancel t => cancel s t
  | OpResume t => resume s t
  end.

Fixpoint run (s : lock) (ops : list op) : lock :=
  match ops with
  | [] => s
  | o :: ops' => run (fst (step s o)) ops'
  end.

Fixpoint events (s : lock) (ops : list op) : list event :=
  match ops with
  | [] => []
  | o :: ops' => snd (step s o) :: events (fst (step s o)) ops'
  end.
