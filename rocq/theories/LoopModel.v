(** Model of the callback scheduling of [EventThread], /repo/scarletio/core/event_loop/event_loop.py, and of
    [Handle]/[TimerHandle], /repo/scarletio/core/event_loop/handles.py.

    Handles are numbered in the order of their creation. Time is an integer number of clock ticks (python uses floats).
    What a callback does when it runs is not fixed: after the operation [ORun] any operations may follow, so every
    program of callbacks (and of other threads) is some history of operations. An exception raised by a callback is
    caught by [Handle._run] (handles.py:145-157) and changes nothing here.

    [heapq] is not part of the repository: the model takes any function [pick] that removes one element of the heap
    (see [heap_pick] in LoopSpec.v for what is assumed of it).

    Not modelled: starting and stopping of the loop ([running], [_maybe_start], [should_run]), the timeout given to the
    selector, weak handles. *)

From Coq Require Import List ZArith Bool.
Import ListNotations.
Open Scope Z_scope.

(** [TimerHandle.when] and the number of the handle (handles.py:197-213). *)
Definition timer : Type := (Z * nat)%type.

(** What can be in [_ready]: the handle of a [call_soon], a timer that became due, or the handle of a reader / writer
    (named by a number, the same handle can be appended many times). *)
Inductive item := ISoon (h : nat) | ITimer (when : Z) (h : nat) | IReader (r : nat).

Record loop := mk_loop {
  e_ready : list item;          (* self._ready, popleft end first *)
  e_heap : list timer;          (* self._scheduled *)
  e_cancelled : list nat;       (* handles whose .cancelled is true *)
  e_rcancelled : list nat;      (* the same for reader / writer handles *)
  e_next : nat;                 (* number of the next handle *)
  e_draining : bool             (* inside "while ready", event_loop.py:707-710 *)
}.

Definition loop_init : loop := mk_loop [] [] [] [] 0 false.

Definition mem (h : nat) (l : list nat) : bool := existsb (Nat.eqb h) l.

(** The [cancelled] flag of what is in [_ready] (handles.py:129-134). *)
Definition item_cancelled (s : loop) (i : item) : bool :=
  match i with
  | ISoon h => mem h (e_cancelled s)
  | ITimer _ h => mem h (e_cancelled s)
  | IReader r => mem r (e_rcancelled s)
  end.

Inductive event :=
  | EvCreated (i : item)       (* call_soon / call_at returned this handle *)
  | EvMoved (when : Z) (h : nat) (* a due timer was put to the end of _ready *)
  | EvDropped (h : nat)        (* a cancelled timer was removed from the heap *)
  | EvRan (i : item)           (* the callback was called *)
  | EvSkipped (i : item)       (* popped but cancelled *)
  | EvDrained.                 (* _ready is empty, the loop goes on to poll timers and the selector *)

Section WithHeap.

Variable pick : list timer -> option (timer * list timer).
Variable resolution : Z. (* LOOP_TIME_RESOLUTION, core/time.py:7 *)

(** event_loop.py:662-672; [n] bounds the number of iterations, the size of the heap is enough. *)
Fixpoint move_due (n : nat) (limit : Z) (cancelled : list nat) (heap : list timer) : list timer * list event :=
  match n with
  | O => (heap, [])
  | S n' =>
      match pick heap with
      | None => (heap, [])
      | Some ((when, h), rest) =>
          if mem h cancelled
          then let (heap', evs) := move_due n' limit cancelled rest in (heap', EvDropped h :: evs)
          else if limit <=? when
          then (heap, [])
          else let (heap', evs) := move_due n' limit cancelled rest in (heap', EvMoved when h :: evs)
      end
  end.

Definition moved_items (evs : list event) : list item :=
  flat_map (fun e => match e with EvMoved w h => [ITimer w h] | _ => [] end) evs.

(** Readers and writers reported by the selector that are not cancelled (event_loop.py:684-697); cancelled ones get
    removed. *)
Definition polled (rcancelled : list nat) (rs : list nat) : list item :=
  map IReader (filter (fun r => negb (mem r rcancelled)) rs).

Inductive op :=
  | OCallSoon                       (* call_soon, call_soon_thread_safe *)
  | OCallAt (when : Z)              (* call_at; call_after is call_at (now + delay) *)
  | OCancel (h : nat)               (* handle.cancel() *)
  | OCancelReader (r : nat)
  | OCycle (now : Z) (rs : list nat) (* event_loop.py:661-704: clock reading and what the selector returned *)
  | ORun.                           (* one turn of event_loop.py:707-710 *)

Definition step (s : loop) (o : op) : loop * list event :=
  match o with
  | OCallSoon => (* event_loop.py:376-382 *)
      (mk_loop (e_ready s ++ [ISoon (e_next s)]) (e_heap s) (e_cancelled s) (e_rcancelled s) (S (e_next s)) (e_draining s),
       [EvCreated (ISoon (e_next s))])
  | OCallAt when => (* event_loop.py:287-293 *)
      (mk_loop (e_ready s) ((when, e_next s) :: e_heap s) (e_cancelled s) (e_rcancelled s) (S (e_next s)) (e_draining s),
       [EvCreated (ITimer when (e_next s))])
  | OCancel h => (* handles.py:129-134 *)
      (mk_loop (e_ready s) (e_heap s) (h :: e_cancelled s) (e_rcancelled s) (e_next s) (e_draining s), [])
  | OCancelReader r =>
      (mk_loop (e_ready s) (e_heap s) (e_cancelled s) (r :: e_rcancelled s) (e_next s) (e_draining s), [])
  | OCycle now rs =>
      if e_draining s then (s, [])
      else
        let (heap', evs) := move_due (length (e_heap s)) (now + resolution) (e_cancelled s) (e_heap s) in
        (mk_loop (e_ready s ++ moved_items evs ++ polled (e_rcancelled s) rs) heap'
                 (e_cancelled s) (e_rcancelled s) (e_next s) true, evs)
  | ORun =>
      if e_draining s
      then
        match e_ready s with
        | [] => (mk_loop [] (e_heap s) (e_cancelled s) (e_rcancelled s) (e_next s) false, [EvDrained])
        | i :: ready =>
            (mk_loop ready (e_heap s) (e_cancelled s) (e_rcancelled s) (e_next s) true,
             [if item_cancelled s i then EvSkipped i else EvRan i])
        end
      else (s, [])
  end.

Fixpoint run (s : loop) (ops : list op) : loop :=
  match ops with
  | [] => s
  | o :: ops' => run (fst (step s o)) ops'
  end.

Fixpoint events (s : loop) (ops : list op) : list event :=
  match ops with
  | [] => []
  | o :: ops' => snd (step s o) ++ events (fst (step s o)) ops'
  end.

(** The loop with a fixed program: [cb] tells what the callback of an item does when it runs. One turn of
    event_loop.py:707-710, [n] of them. *)
Fixpoint turns (cb : item -> list op) (n : nat) (s : loop) : loop :=
  match n with
  | O => s
  | S n' =>
      match e_draining s, e_ready s with
      | true, i :: _ =>
          let s' := fst (step s ORun) in
          turns cb n' (if item_cancelled s i then s' else run s' (cb i))
      | _, _ => turns cb n' (fst (step s ORun))
      end
  end.

End WithHeap.
