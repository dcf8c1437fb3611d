(** Model of [scarletio.core.traps.future.Future] on a running event loop.

    Files modelled:
    - /repo/scarletio/core/traps/future_states.py lines 6-35
    - /repo/scarletio/core/traps/future.py lines 85-506
    - /repo/scarletio/core/event_loop/event_loop.py lines 376-382 ([call_soon]) and 482-490 ([_schedule_callbacks]). *)

From Coq Require Import List Arith Bool.
Import ListNotations.

(** future_states.py:6-14. The integer bit mask is a record of its seven independent bits. *)
Record fbits := mk_fbits {
  b_return : bool;      (* FUTURE_STATE_RESULT_RETURN *)
  b_raise : bool;       (* FUTURE_STATE_RESULT_RAISE *)
  b_retrieved : bool;   (* FUTURE_STATE_RESULT_RAISE_RETRIEVED *)
  b_cancelling : bool;  (* FUTURE_STATE_CANCELLING_SELF *)
  b_cancelled : bool;   (* FUTURE_STATE_CANCELLED *)
  b_destroyed : bool;   (* FUTURE_STATE_DESTROYED *)
  b_silenced : bool     (* FUTURE_STATE_SILENCED *)
}.

Definition no_bits : fbits := mk_fbits false false false false false false false.

(** future_states.py:22-27, [state & FUTURE_STATE_MASK_DONE]. *)
Definition mask_done (b : fbits) : bool :=
  b_return b || b_raise b || b_cancelled b || b_destroyed b.

(** future_states.py:29-35, [state & FUTURE_STATE_MASK_SILENCED]. *)
Definition mask_silenced (b : fbits) : bool :=
  b_return b || b_retrieved b || b_cancelled b || b_destroyed b || b_silenced b.

(** [state |= FLAG] for the flags used by the class. *)
Definition or_return (b : fbits) : fbits :=
  mk_fbits true (b_raise b) (b_retrieved b) (b_cancelling b) (b_cancelled b) (b_destroyed b) (b_silenced b).
Definition or_raise (b : fbits) : fbits :=
  mk_fbits (b_return b) true (b_retrieved b) (b_cancelling b) (b_cancelled b) (b_destroyed b) (b_silenced b).
Definition or_retrieved (b : fbits) : fbits :=
  mk_fbits (b_return b) (b_raise b) true (b_cancelling b) (b_cancelled b) (b_destroyed b) (b_silenced b).
Definition or_cancelling (b : fbits) : fbits :=
  mk_fbits (b_return b) (b_raise b) (b_retrieved b) true (b_cancelled b) (b_destroyed b) (b_silenced b).
Definition or_cancelled (b : fbits) : fbits :=
  mk_fbits (b_return b) (b_raise b) (b_retrieved b) (b_cancelling b) true (b_destroyed b) (b_silenced b).
Definition or_silenced (b : fbits) : fbits :=
  mk_fbits (b_return b) (b_raise b) (b_retrieved b) (b_cancelling b) (b_cancelled b) (b_destroyed b) true.
(** [state &= ~FUTURE_STATE_CANCELLING_SELF], task.py:275. *)
Definition clear_cancelling (b : fbits) : fbits :=
  mk_fbits (b_return b) (b_raise b) (b_retrieved b) false (b_cancelled b) (b_destroyed b) (b_silenced b).

(** Exceptions are a tag telling whether they are [StopIteration] plus an identity. An exception argument may be
    given as a class or as an instance (future.py:155, 458, 495); instantiating a class is the only effect, so both
    forms carry the exception that ends up stored. *)
Record exc := mk_exc { e_stop_iteration : bool; e_id : nat }.
Inductive exc_arg := ArgClass (e : exc) | ArgInstance (e : exc).
Definition instantiate (a : exc_arg) : exc :=
  match a with ArgClass e => e | ArgInstance e => e end.

(** Content of [_result]: [None], a value or an exception. [set_result(None)] is [SVal 0] by convention. *)
Inductive stored := SNone | SVal (v : nat) | SExc (e : exc).

(** What the API can raise. *)
Inductive error :=
  | ErrInvalidState
  | ErrType
  | ErrCancelled
  | ErrUser (e : exc).

Inductive output :=
  | OutNone
  | OutInt (n : nat)
  | OutBool (b : bool)
  | OutValue (r : stored)
  | OutError (e : error).

(** future.py:83-100. [_loop] is represented by [ready], the callbacks appended to [EventThread._ready] in order, and
    [alive], whether [running or _maybe_start()] holds (event_loop.py:376, 483). [_blocking] is not part of this
    single-future model (see TaskModel.v). Callbacks are identities. *)
Record future := mk_future {
  f_bits : fbits;
  f_result : stored;
  f_callbacks : list nat;
  f_alive : bool;
  f_ready : list nat
}.

Definition future_init (alive : bool) : future := mk_future no_bits SNone [] alive [].

Definition set_bits (f : future) (b : fbits) : future :=
  mk_future b (f_result f) (f_callbacks f) (f_alive f) (f_ready f).
Definition set_bits_result (f : future) (b : fbits) (r : stored) : future :=
  mk_future b r (f_callbacks f) (f_alive f) (f_ready f).

(** event_loop.py:482-490: clears the callbacks if the loop is stopped, else pops them from the end one by one and
    appends a handle for each to [_ready]. *)
Definition schedule_callbacks (f : future) : future :=
  if f_alive f
  then mk_future (f_bits f) (f_result f) [] (f_alive f) (f_ready f ++ rev (f_callbacks f))
  else mk_future (f_bits f) (f_result f) [] (f_alive f) (f_ready f).

(** event_loop.py:376-382. *)
Definition call_soon (f : future) (c : nat) : future :=
  if f_alive f
  then mk_future (f_bits f) (f_result f) (f_callbacks f) (f_alive f) (f_ready f ++ [c])
  else f.

(** future.py:116-136. *)
Definition cancel (f : future) : future * output :=
  if mask_done (f_bits f)
  then (set_bits f (or_silenced (f_bits f)), OutInt 0)
  else (set_bits (schedule_callbacks f) (or_cancelled (f_bits f)), OutInt 1).

(** future.py:139-169. *)
Definition cancel_with (f : future) (a : exc_arg) : future * output :=
  if mask_done (f_bits f)
  then (set_bits f (or_silenced (f_bits f)), OutInt 0)
  else
    let e := instantiate a in
    if e_stop_iteration e
    then (f, OutError ErrType)
    else (set_bits_result (schedule_callbacks f) (or_raise (or_cancelled (f_bits f))) (SExc e), OutInt 1).

(** future.py:172-178. *)
Definition silence (f : future) : future * output :=
  (set_bits f (or_silenced (f_bits f)), OutNone).

(** future.py:243-285. *)
Definition get_result (f : future) : future * output :=
  if b_return (f_bits f) then (f, OutValue (f_result f))
  else if b_raise (f_bits f)
  then (set_bits f (or_retrieved (f_bits f)),
        match f_result f with SExc e => OutError (ErrUser e) | _ => OutError ErrType end)
  else if b_cancelled (f_bits f) then (f, OutError ErrCancelled)
  else (f, OutError ErrInvalidState).

(** future.py:288-320. *)
Definition get_exception (f : future) : future * output :=
  if b_return (f_bits f) then (f, OutValue SNone)
  else if b_raise (f_bits f)
  then (set_bits f (or_retrieved (f_bits f)), OutValue (f_result f))
  else if b_cancelled (f_bits f) then (f, OutError ErrCancelled) (* returned, not raised *)
  else (f, OutError ErrInvalidState).

(** future.py:343-361. *)
Definition add_done_callback (f : future) (c : nat) : future * output :=
  if mask_done (f_bits f)
  then (call_soon f c, OutNone)
  else (mk_future (f_bits f) (f_result f) (f_callbacks f ++ [c]) (f_alive f) (f_ready f), OutNone).

(** future.py:378-387: scan from the end, delete every identical element, count them. *)
Fixpoint remove_identical (c : nat) (l : list nat) : list nat * nat :=
  match l with
  | [] => ([], 0)
  | x :: l' =>
      let '(rest, n) := remove_identical c l' in
      if Nat.eqb x c then (rest, S n) else (x :: rest, n)
  end.

(** future.py:364-387. *)
Definition remove_done_callback (f : future) (c : nat) : future * output :=
  let '(rest, n) := remove_identical c (f_callbacks f) in
  (mk_future (f_bits f) (f_result f) rest (f_alive f) (f_ready f), OutInt n).

(** future.py:404-410. *)
Definition set_result (f : future) (v : nat) : future * output :=
  if mask_done (f_bits f) then (f, OutError ErrInvalidState)
  else (schedule_callbacks (set_bits_result f (or_return (f_bits f)) (SVal v)), OutNone).

(** future.py:428-435. *)
Definition set_result_if_pending (f : future) (v : nat) : future * output :=
  if mask_done (f_bits f) then (f, OutInt 0)
  else (schedule_callbacks (set_bits_result f (or_return (f_bits f)) (SVal v)), OutInt 1).

(** future.py:454-468. *)
Definition set_exception (f : future) (a : exc_arg) : future * output :=
  if mask_done (f_bits f) then (f, OutError ErrInvalidState)
  else
    let e := instantiate a in
    if e_stop_iteration e then (f, OutError ErrType)
    else (schedule_callbacks (set_bits_result f (or_raise (f_bits f)) (SExc e)), OutNone).

(** future.py:491-506. *)
Definition set_exception_if_pending (f : future) (a : exc_arg) : future * output :=
  if mask_done (f_bits f) then (f, OutInt 0)
  else
    let e := instantiate a in
    if e_stop_iteration e then (f, OutError ErrType)
    else (schedule_callbacks (set_bits_result f (or_raise (f_bits f)) (SExc e)), OutInt 1).

Inductive op :=
  | OpCancel
  | OpCancelWith (a : exc_arg)
  | OpSilence
  | OpIsSilenced
  | OpIsCancelled
  | OpIsDone
  | OpIsPending
  | OpGetResult
  | OpGetException
  | OpAddCallback (c : nat)
  | OpRemoveCallback (c : nat)
  | OpSetResult (v : nat)
  | OpSetResultIfPending (v : nat)
  | OpSetException (a : exc_arg)
  | OpSetExceptionIfPending (a : exc_arg).

(** One API call. *)
Definition step (f : future) (o : op) : future * output :=
  match o with
  | OpCancel => cancel f
  | OpCancelWith a => cancel_with f a
  | OpSilence => silence f
  | OpIsSilenced => (f, OutBool (mask_silenced (f_bits f)))   (* future.py:191 *)
  | OpIsCancelled => (f, OutBool (b_cancelled (f_bits f)))    (* future.py:218 *)
  | OpIsDone => (f, OutBool (mask_done (f_bits f)))           (* future.py:229 *)
  | OpIsPending => (f, OutBool (negb (mask_done (f_bits f)))) (* future.py:240 *)
  | OpGetResult => get_result f
  | OpGetException => get_exception f
  | OpAddCallback c => add_done_callback f c
  | OpRemoveCallback c => remove_done_callback f c
  | OpSetResult v => set_result f v
  | OpSetResultIfPending v => set_result_if_pending f v
  | OpSetException a => set_exception f a
  | OpSetExceptionIfPending a => set_exception_if_pending f a
  end.

(** A history: the final state and the calls paired with their outputs, in order. *)
Fixpoint run (f : future) (ops : list op) : future * list (op * output) :=
  match ops with
  | [] => (f, [])
  | o :: ops' =>
      let '(f1, r) := step f o in
      let '(f2, tr) := run f1 ops' in
      (f2, (o, r) :: tr)
  end.

Definition run_state (f : future) (ops : list op) : future := fst (run f ops).
Definition run_trace (f : future) (ops : list op) : list (op * output) := snd (run f ops).

(** Output of the call [o] made after the history [ops] on a new future. *)
Definition output_after (alive : bool) (ops : list op) (o : op) : output :=
  snd (step (run_state (future_init alive) ops) o).
