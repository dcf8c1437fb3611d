(** Model of [TaskGroup] (scarletio/core/traps/task_group.py).

    Futures and tasks are numbers; each is pending with some number of callbacks
    of the group registered, or done.  A done future's callbacks are put into the
    event loop's queue (core/event_loop/event_loop.py 469-490, [_schedule_callbacks])
    and run later; the queue here holds the callbacks of the group only, everything
    else which runs between them is a step of its own.

    [set.pop] and the iteration over a set take the members in an order of their
    own; the operations carry a number which selects the member.

    Simplified: a handler is a state of its generator; the waiters' futures are
    given by their results.  [exhaust], [cancel_*] and the context manager are not
    modelled: they are made of the operations here. *)
From Coq Require Import List Bool Arith Lia.
Import ListNotations.

(** [FD raised cancelled]: the bits FUTURE_STATE_RESULT_RAISE and FUTURE_STATE_CANCELLED. *)
Inductive fstate := FP (callbacks : nat) | FD (raised cancelled : bool).

(** The wait_* methods, 727-951: [KExc cancellation pop] are the four wait_exception methods. *)
Inductive kind := KNext | KFirst | KFirstPop | KExc (cancellation pop : bool) | KN (count : nat) | KAll.

(** A suspended handler; [HN count done_count]. *)
Inductive handler := HNext | HFirst | HFirstPop | HExc (cancellation pop : bool) | HN (count done_count : nat) | HAll.

(** The state of a waiter. *)
Inductive wstate := GWait | GRes (f : option nat) | GCount (n : nat) | GCancelled.

Inductive job := CFut (f : nat) (* _waited_done_callback *) | CWaiter (w : nat). (* _waiter_done_callback *)

Record group := {
  futs : nat -> fstate;
  pending : list nat;
  done : list nat;
  waiters : list (nat * handler); (* a dict, in its order *)
  wst : list wstate;              (* all waiters made so far *)
  ready : list job
}.

(** TaskGroup.__new__, 409-437, without tasks; with tasks it adds each of them. *)
Definition g_init : group := {| futs := fun _ => FP 0; pending := []; done := []; waiters := []; wst := []; ready := [] |}.

Definition mem (x : nat) (l : list nat) : bool := existsb (Nat.eqb x) l.
Definition sadd (x : nat) (l : list nat) : list nat := if mem x l then l else l ++ [x].
Definition sdel (x : nat) (l : list nat) : list nat := filter (fun y => negb (y =? x)) l.
(** Some member of a set. *)
Definition pick (i : nat) (l : list nat) : option nat := nth_error l (i mod length l).
Definition upd {A} (m : nat -> A) (k : nat) (v : A) : nat -> A := fun x => if x =? k then v else m x.
Fixpoint set_nth {A} (i : nat) (v : A) (l : list A) : list A :=
  match l, i with [], _ => [] | _ :: r, O => v :: r | x :: r, S j => x :: set_nth j v r end.

(** The state test of the wait_exception handlers: 211, 220, 248, 258, 284, 293, 321, 331. *)
Definition fails (cancellation : bool) (s : fstate) : bool :=
  match s with FP _ => false | FD r c => r || (cancellation && c) end.

(** Starting a handler ([handler.send(None)]): [inl] it waits; [inr (result, done)] it ended at once.
    105-122, 125-153, 156-186, 189-221, 224-259, 262-294, 297-332, 335-360, 363-389. *)
Definition start (k : kind) (i : nat) (s : group) : handler + (wstate * list nat) :=
  match k with
  | KNext => inl HNext
  | KFirst =>
      match done s with
      | _ :: _ => inr (GRes (pick i (done s)), done s)
      | [] => match pending s with _ :: _ => inl HFirst | [] => inr (GRes None, done s) end
      end
  | KFirstPop =>
      match pick i (done s) with
      | Some f => inr (GRes (Some f), sdel f (done s))
      | None => match pending s with _ :: _ => inl HFirstPop | [] => inr (GRes None, done s) end
      end
  | KExc c p =>
      match pick i (filter (fun f => fails c (futs s f)) (done s)) with
      | Some f => inr (GRes (Some f), if p then sdel f (done s) else done s)
      | None => match pending s with _ :: _ => inl (HExc c p) | [] => inr (GRes None, done s) end
      end
  | KN n => if n <=? length (done s) then inr (GCount (length (done s)), done s) else inl (HN n (length (done s)))
  | KAll => match pending s with [] => inr (GRes None, done s) | _ :: _ => inl HAll end
  end.

(** Resuming a handler with a finished future ([handler.send(future)]), [p] being the pending futures:
    [inl] it waits on, [inr (should_add_to_done, result)] it ended. *)
Definition resume (h : handler) (f : nat) (st : fstate) (p : list nat) : handler + (bool * wstate) :=
  match h with
  | HNext => inr (true, GRes None)
  | HFirst => inr (true, GRes (Some f))
  | HFirstPop => inr (false, GRes (Some f))
  | HExc c pop =>
      if fails c st then inr (negb pop, GRes (Some f))
      else match p with [] => inr (true, GRes None) | _ :: _ => inl (HExc c pop) end
  | HN n m => if n <=? S m then inr (true, GCount (S m)) else inl (HN n (S m))
  | HAll => match p with [] => inr (true, GRes None) | _ :: _ => inl HAll end
  end.

(** waiter.set_result_if_pending (future.py 413-435): a waiter which is done is left alone, otherwise its
    callback _waiter_done_callback is scheduled. *)
Definition settle (w : nat) (x : wstate) (ws : list wstate) : list wstate * list job :=
  match nth_error ws w with Some GWait => (set_nth w x ws, [CWaiter w]) | _ => (ws, []) end.

(** The loop of _waited_done_callback, 461-478, together with the removals 483-488. *)
Fixpoint notify (f : nat) (st : fstate) (p : list nat) (hs : list (nat * handler)) (ws : list wstate)
  : bool * list (nat * handler) * list wstate * list job :=
  match hs with
  | [] => (true, [], ws, [])
  | (w, h) :: r =>
      match resume h f st p with
      | inl h' => let '(a, hs', ws', js) := notify f st p r ws in (a, (w, h') :: hs', ws', js)
      | inr (a, x) =>
          let (ws1, j) := settle w x ws in
          let '(b, hs', ws', js) := notify f st p r ws1 in (a && b, hs', ws', j ++ js)
      end
  end.

(** _waited_done_callback, 445-488. *)
Definition waited_done (f : nat) (s : group) : group :=
  let p := sdel f (pending s) in
  let '(a, hs, ws, js) := notify f (futs s f) p (waiters s) (wst s) in
  {| futs := futs s; pending := p; done := if a then sadd f (done s) else done s;
     waiters := hs; wst := ws; ready := ready s ++ js |}.

(** add_future, 538-569; create_future 608-630 and create_task 633-660 do the second case for a new future. *)
Definition add_future (f : nat) (s : group) : group :=
  match futs s f with
  | FD _ _ => waited_done f s
  | FP n => {| futs := upd (futs s) f (FP (S n)); pending := sadd f (pending s); done := done s;
               waiters := waiters s; wst := wst s; ready := ready s |}
  end.

(** _add_handler, 509-534. *)
Definition add_handler (k : kind) (i : nat) (s : group) : group :=
  let w := length (wst s) in
  match start k i s with
  | inl h => {| futs := futs s; pending := pending s; done := done s; waiters := waiters s ++ [(w, h)];
                wst := wst s ++ [GWait]; ready := ready s |}
  | inr (x, d) => {| futs := futs s; pending := pending s; done := d; waiters := waiters s;
                     wst := wst s ++ [x]; ready := ready s |}
  end.

(** _waiter_done_callback, 491-506. *)
Definition waiter_done (w : nat) (s : group) : group :=
  {| futs := futs s; pending := pending s; done := done s;
     waiters := filter (fun x => negb (fst x =? w)) (waiters s); wst := wst s; ready := ready s |}.

Inductive g_op :=
| TAdd (f : nat)                         (* add_future and the like *)
| TFinish (f : nat) (raised cancelled : bool) (* the future f gets done *)
| TRun                                   (* the event loop runs the next callback *)
| TWait (k : kind) (i : nat)             (* a wait_* method *)
| TCancel (w : nat)                      (* the waiter w is cancelled *)
| TPop (i : nat).                        (* pop_done() *)

Inductive g_out := ONone | OGot (f : nat).

Definition g_step (s : group) (o : g_op) : group * g_out :=
  match o with
  | TAdd f => (add_future f s, ONone)
  | TFinish f r c =>
      match futs s f with
      | FD _ _ => (s, ONone)
      | FP n => ({| futs := upd (futs s) f (FD r c); pending := pending s; done := done s; waiters := waiters s;
                    wst := wst s; ready := ready s ++ repeat (CFut f) n |}, ONone)
      end
  | TRun =>
      match ready s with
      | [] => (s, ONone)
      | j :: r =>
          let s1 := {| futs := futs s; pending := pending s; done := done s; waiters := waiters s; wst := wst s; ready := r |} in
          (match j with CFut f => waited_done f s1 | CWaiter w => waiter_done w s1 end, ONone)
      end
  | TWait k i => (add_handler k i s, ONone)
  | TCancel w =>
      let (ws, js) := settle w GCancelled (wst s) in
      ({| futs := futs s; pending := pending s; done := done s; waiters := waiters s; wst := ws; ready := ready s ++ js |}, ONone)
  | TPop i =>
      match pick i (done s) with
      | None => (s, ONone)
      | Some f => ({| futs := futs s; pending := pending s; done := sdel f (done s); waiters := waiters s; wst := wst s; ready := ready s |}, OGot f)
      end
  end.

Fixpoint g_run (s : group) (os : list g_op) : group * list g_out :=
  match os with
  | [] => (s, [])
  | o :: r => let (s1, x) := g_step s o in let (s2, xs) := g_run s1 r in (s2, x :: xs)
  end.

Definition g_after (os : list g_op) : group := fst (g_run g_init os).
Definition g_outs (os : list g_op) : list g_out := snd (g_run g_init os).
