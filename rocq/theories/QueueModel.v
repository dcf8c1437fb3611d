(** Model of [AsyncQueue] and [AsyncLifoQueue], /repo/scarletio/core/traps/queues.py.

    Elements, futures and calls are numbers. A call that can suspend is cut into atomic sections: its first part
    ([OPutWait], [OGet], [ONext]) and the part after the suspension ([OResumePut], [OResumeGet]), which the event loop
    runs once the awaited future is done (task.py:334-346). [OCancelPut] / [OCancelGet] are [Task.cancel]
    (task.py:116-130) on the task suspended in the call.

    Not modelled: [clear], [reverse], [copy], [__del__]; creation with an exception is [OSetException] as first
    operation. *)

From Coq Require Import List Arith Bool.
Import ListNotations.

(** State of a future used by the queue. *)
Inductive fut := FPending | FElem (v : nat) | FBool (b : bool) | FExc | FCancelled.
Definition is_pending (x : fut) : bool := match x with FPending => true | _ => false end.

(** A call suspended in [__await__] ([g_next = false]) or [__anext__] ([g_next = true]), on the future [g_fut];
    [g_flag] is the task's CANCELLING_SELF flag. *)
Record getter := mk_getter { g_id : nat; g_fut : nat; g_flag : bool; g_next : bool }.
(** A call suspended in [set_result_wait], on the future it created. *)
Record putter := mk_putter { p_fut : nat; p_elem : nat; p_flag : bool }.

Record queue := mk_queue {
  q_lifo : bool;              (* AsyncLifoQueue *)
  q_max : option nat;         (* _results.maxlen *)
  q_results : list nat;       (* _results, left end first *)
  q_waiter : option nat;      (* _waiter *)
  q_exc : bool;               (* _exception is not None *)
  q_swaiters : list nat;      (* _set_result_waiters, [] for None *)
  q_fut : nat -> fut;
  q_gets : list getter;
  q_puts : list putter;
  q_next : nat
}.

(** queues.py:71-82, with [iterable = None]. *)
Definition queue_init (lifo : bool) (max : option nat) : queue :=
  mk_queue lifo max [] None false [] (fun _ => FPending) [] [] 0.

Definition upd (g : nat -> fut) (x : nat) (v : fut) : nat -> fut := fun y => if Nat.eqb y x then v else g y.
(** [set_result_if_pending] / [set_exception_if_pending] (future.py:428-435, 491-506). *)
Definition set_if_pending (g : nat -> fut) (x : nat) (v : fut) : nat -> fut :=
  if is_pending (g x) then upd g x v else g.

(** [deque.append] with [maxlen]: a full deque drops its left end. *)
Definition deque_append (max : option nat) (l : list nat) (v : nat) : list nat :=
  match max with
  | None => l ++ [v]
  | Some n => skipn (S (length l) - n) (l ++ [v])
  end.

Definition full (max : option nat) (l : list nat) : bool :=
  match max with None => false | Some n => negb (length l <? n) end.

Inductive event :=
  | EvPut (v : nat) (code : nat)      (* set_result / set_result_wait returned [code] for the element [v] *)
  | EvPutWaits (p : nat)
  | EvPutRaised (p : nat)
  | EvTook (v : nat)                  (* a consumer got [v] *)
  | EvGetWaits (c : nat)
  | EvGetRaised (cancelled : bool)    (* CancelledError, or the exception of the queue *)
  | EvEmpty                           (* IndexError of get_result_no_wait *)
  | EvStop                            (* StopAsyncIteration *)
  | EvIgnored.

(** queues.py:101-115 (and 135-141, 172-175 when the queue is not full). *)
Definition put (s : queue) (v : nat) : queue * event :=
  match q_waiter s with
  | None =>
      if full (q_max s) (q_results s) then (s, EvPut v 1)
      else (mk_queue (q_lifo s) (q_max s) (deque_append (q_max s) (q_results s) v) None (q_exc s) (q_swaiters s)
              (q_fut s) (q_gets s) (q_puts s) (q_next s), EvPut v 0)
  | Some f =>
      (mk_queue (q_lifo s) (q_max s) (q_results s) None (q_exc s) (q_swaiters s)
         (set_if_pending (q_fut s) f (FElem v)) (q_gets s) (q_puts s) (q_next s), EvPut v 0)
  end.

(** queues.py:135-153: a full queue without consumer suspends the call. *)
Definition put_wait (s : queue) (v : nat) : queue * event :=
  match q_waiter s with
  | None =>
      if full (q_max s) (q_results s)
      then
        let f := q_next s in
        (mk_queue (q_lifo s) (q_max s) (q_results s) None (q_exc s) (q_swaiters s ++ [f])
           (upd (q_fut s) f FPending) (q_gets s) (q_puts s ++ [mk_putter f v false]) (S f), EvPutWaits f)
      else put s v
  | Some _ => put s v
  end.

(** queues.py:262-276. *)
Fixpoint poll (g : nat -> fut) (ws : list nat) : (nat -> fut) * list nat :=
  match ws with
  | [] => (g, [])
  | w :: ws' => if is_pending (g w) then (upd g w (FBool true), ws') else poll g ws'
  end.

Definition poll_swaiters (s : queue) : queue :=
  let (g, ws) := poll (q_fut s) (q_swaiters s) in
  mk_queue (q_lifo s) (q_max s) (q_results s) (q_waiter s) (q_exc s) ws g (q_gets s) (q_puts s) (q_next s).

(** [popleft] (queues.py:239, 299, 387) or [pop] (501, 518, 536): the element and the rest. *)
Definition take (s : queue) : option (nat * queue) :=
  let set l := mk_queue (q_lifo s) (q_max s) l (q_waiter s) (q_exc s) (q_swaiters s) (q_fut s) (q_gets s) (q_puts s) (q_next s) in
  if q_lifo s
  then match rev (q_results s) with [] => None | v :: l => Some (v, set (rev l)) end
  else match q_results s with [] => None | v :: l => Some (v, set l) end.

(** What an [await waiter] that does not suspend, or is resumed, gives: queues.py:250-253, 403-406, 512, 550-553.
    [flag]: CancelledError is thrown in by the task. *)
Definition finish_get (s : queue) (f : nat) (flag next : bool) : queue * event :=
  let s' := if q_lifo s || next then s else poll_swaiters s in
  if flag then (s', if next then EvStop else EvGetRaised true)
  else match q_fut s f with
       | FElem v => (s', EvTook v)
       | FExc => (s', EvGetRaised false)
       | _ => (s', if next then EvStop else EvGetRaised true)
       end.

(** queues.py:237-253 and 498-512 ([next = false]), 385-406 and 533-553 ([next = true]). Only [__anext__] of
    [AsyncQueue] polls after taking a stored element. The exception of the queue is not a CancelledError here. *)
Definition get (s : queue) (next : bool) : queue * event :=
  match take s with
  | Some (v, s') => (if negb (q_lifo s) && next then poll_swaiters s' else s', EvTook v)
  | None =>
      if q_exc s then (s, EvGetRaised false)
      else
        let c := q_next s in
        match q_waiter s with
        | None =>
            let f := S c in
            (mk_queue (q_lifo s) (q_max s) (q_results s) (Some f) (q_exc s) (q_swaiters s) (upd (q_fut s) f FPending)
               (q_gets s ++ [mk_getter c f false next]) (q_puts s) (S f), EvGetWaits c)
        | Some f =>
            if is_pending (q_fut s f)
            then (mk_queue (q_lifo s) (q_max s) (q_results s) (Some f) (q_exc s) (q_swaiters s) (q_fut s)
                    (q_gets s ++ [mk_getter c f false next]) (q_puts s) (S c), EvGetWaits c)
            else finish_get s f false next (* awaiting a done future does not suspend (future.py:515) *)
        end
  end.

(** queues.py:297-307, 516-524. *)
Definition get_no_wait (s : queue) : queue * event :=
  match take s with
  | Some (v, s') => (if q_lifo s then s' else poll_swaiters s', EvTook v)
  | None => (s, if q_exc s then EvGetRaised false else EvEmpty)
  end.

(** queues.py:204-217. *)
Definition set_exception (s : queue) : queue :=
  let g := match q_waiter s with None => q_fut s | Some f => set_if_pending (q_fut s) f FExc end in
  let g' := fold_left (fun g w => set_if_pending g w (FBool false)) (q_swaiters s) g in
  mk_queue (q_lifo s) (q_max s) (q_results s) None true [] g' (q_gets s) (q_puts s) (q_next s).

Definition with_fut (s : queue) (g : nat -> fut) : queue :=
  mk_queue (q_lifo s) (q_max s) (q_results s) (q_waiter s) (q_exc s) (q_swaiters s) g (q_gets s) (q_puts s) (q_next s).
Definition with_gets (s : queue) (l : list getter) : queue :=
  mk_queue (q_lifo s) (q_max s) (q_results s) (q_waiter s) (q_exc s) (q_swaiters s) (q_fut s) l (q_puts s) (q_next s).
Definition with_puts (s : queue) (l : list putter) : queue :=
  mk_queue (q_lifo s) (q_max s) (q_results s) (q_waiter s) (q_exc s) (q_swaiters s) (q_fut s) (q_gets s) l (q_next s).

Definition find_get (c : nat) (l : list getter) : option getter := find (fun g => Nat.eqb (g_id g) c) l.
Definition find_put (p : nat) (l : list putter) : option putter := find (fun x => Nat.eqb (p_fut x) p) l.

(** task.py:116-130: cancels the awaited future, or sets the flag if that is done already. *)
Definition cancel_get (s : queue) (c : nat) : queue :=
  match find_get c (q_gets s) with
  | None => s
  | Some g =>
      if is_pending (q_fut s (g_fut g)) then with_fut s (upd (q_fut s) (g_fut g) FCancelled)
      else with_gets s (map (fun x => if Nat.eqb (g_id x) c then mk_getter (g_id x) (g_fut x) true (g_next x) else x) (q_gets s))
  end.
Definition cancel_put (s : queue) (p : nat) : queue :=
  match find_put p (q_puts s) with
  | None => s
  | Some x =>
      if is_pending (q_fut s (p_fut x)) then with_fut s (upd (q_fut s) (p_fut x) FCancelled)
      else with_puts s (map (fun x => if Nat.eqb (p_fut x) p then mk_putter (p_fut x) (p_elem x) true else x) (q_puts s))
  end.

Definition resume_get (s : queue) (c : nat) : queue * event :=
  match find_get c (q_gets s) with
  | None => (s, EvIgnored)
  | Some g =>
      if is_pending (q_fut s (g_fut g)) then (s, EvIgnored)
      else finish_get (with_gets s (filter (fun x => negb (Nat.eqb (g_id x) c)) (q_gets s))) (g_fut g) (g_flag g) (g_next g)
  end.

(** queues.py:152-170. The list the call remembers is the current one as long as the call is in it. *)
Definition resume_put (s : queue) (p : nat) : queue * event :=
  match find_put p (q_puts s) with
  | None => (s, EvIgnored)
  | Some x =>
      if is_pending (q_fut s (p_fut x)) then (s, EvIgnored)
      else
        let s1 := with_puts s (filter (fun x => negb (Nat.eqb (p_fut x) p)) (q_puts s)) in
        let fail :=
          (mk_queue (q_lifo s1) (q_max s1) (q_results s1) (q_waiter s1) (q_exc s1)
             (filter (fun w => negb (Nat.eqb w p)) (q_swaiters s1)) (q_fut s1) (q_gets s1) (q_puts s1) (q_next s1),
           EvPutRaised p) in
        if p_flag x then fail
        else match q_fut s (p_fut x) with
             | FBool true =>
                 (mk_queue (q_lifo s1) (q_max s1) (deque_append (q_max s1) (q_results s1) (p_elem x)) (q_waiter s1)
                    (q_exc s1) (q_swaiters s1) (q_fut s1) (q_gets s1) (q_puts s1) (q_next s1), EvPut (p_elem x) 2)
             | FBool false => (s1, EvPut (p_elem x) 1)
             | _ => fail
             end
  end.

Inductive op :=
  | OPut (v : nat) | OPutWait (v : nat)
  | OGet | ONext | OGetNoWait
  | OSetException
  | OCancelGet (c : nat) | OCancelPut (p : nat)
  | OResumeGet (c : nat) | OResumePut (p : nat).

Definition step (s : queue) (o : op) : queue * event :=
  match o with
  | OPut v => put s v
  | OPutWait v => put_wait s v
  | OGet => get s false
  | ONext => get s true
  | OGetNoWait => get_no_wait s
  | OSetException => (set_exception s, EvIgnored)
  | OCancelGet c => (cancel_get s c, EvIgnored)
  | OCancelPut p => (cancel_put s p, EvIgnored)
  | OResumeGet c => resume_get s c
  | OResumePut p => resume_put s p
  end.

Fixpoint run (s : queue) (ops : list op) : queue :=
  match ops with
  | [] => s
  | o :: ops' => run (fst (step s o)) ops'
  end.

Fixpoint events (s : queue) (ops : list op) : list event :=
  match ops with
  | [] => []
  | o :: ops' => snd (step s o) :: events (fst (step s o)) ops'
  end.
