(** Model of a payload stream: /repo/scarletio/core/protocols_and_transports/payload_stream.py:102-511.

    [waiters] are the futures which were ever in [_waiter], by number; [consumers] the coroutines which await or iterate the stream. A coroutine
    which waits goes on ([Wake]) after its future is done, with [thrown] also when its task is cancelled after that. Callbacks are numbers, [ran]
    those which were run, in order; they raise or return, but do not use the stream. Not here: the resuming of the protocol (C83), the values
    of the exceptions. *)

From Coq Require Import List Arith Bool.
From Verif Require Import Bytes.
Import ListNotations.

Inductive wait := Pending | Chunk (c : bytes) | No_more | Error | Cancelled_future.
Inductive mode := Whole | By_chunk.
Inductive final := Success | Exception | Cancelled | Aborted.
Inductive consumer := Awaits (w : nat) | Iterates (w : nat) | At_yield | Over.

(** The attributes; the flags are [wait_mode] and [done], :14-24 *)
Record state := {
  wait_mode : option mode;
  done : option final;
  chunks : list bytes;
  waiter : option nat;
  waiters : list wait;
  callbacks : list nat;
  ran : list nat;
  consumers : list consumer
}.

Definition initial : state :=
  {| wait_mode := None; done := None; chunks := []; waiter := None; waiters := []; callbacks := []; ran := []; consumers := [] |}.

Fixpoint update {A} (l : list A) (i : nat) (x : A) : list A :=
  match l, i with [], _ => [] | _ :: l', 0 => x :: l' | y :: l', S i' => y :: update l' i' x end.

(** set_result_if_pending, set_exception_if_pending, and the same behind [is_pending] *)
Definition finish (l : list wait) (i : nat) (w : wait) : list wait := match nth_error l i with Some Pending => update l i w | _ => l end.
Definition wake (s : state) (w : wait) : list wait := match waiter s with None => waiters s | Some i => finish (waiters s) i w end.

(** set_done_success, :173-193; set_done_cancelled, :196-218; set_done_exception, :221-248; _abort, :337-359. The callbacks run, :298-309 *)
Definition set_done (s : state) (d : final) : state * bool :=
  match done s with
  | Some _ => (s, false)
  | None =>
      ({| wait_mode := wait_mode s; done := Some d; chunks := match d with Exception | Cancelled => [] | _ => chunks s end; waiter := None;
          waiters := wake s (match d with Success => No_more | _ => Error end); callbacks := []; ran := ran s ++ callbacks s;
          consumers := consumers s |}, true)
  end.

Definition with_chunks (s : state) (l : list bytes) (w : option nat) (ws : list wait) : state :=
  {| wait_mode := wait_mode s; done := done s; chunks := l; waiter := w; waiters := ws; callbacks := callbacks s; ran := ran s;
     consumers := consumers s |}.
Definition is_pending (s : state) (i : nat) : bool := match nth_error (waiters s) i with Some Pending => true | _ => false end.

(** add_received_chunk, :251-276 *)
Definition add_chunk (s : state) (c : bytes) : state * bool :=
  match done s with
  | Some _ => (s, false)
  | None =>
      match wait_mode s, waiter s with
      | Some By_chunk, Some i =>
          if is_pending s i then (with_chunks s (chunks s) None (finish (waiters s) i (Chunk c)), true)
          else (with_chunks s (chunks s ++ [c]) None (waiters s), true)
      | _, _ => (with_chunks s (chunks s ++ [c]) (waiter s) (waiters s), true)
      end
  end.

(** add_done_callback, :279-295; the list is run from its end, so it is kept latest first *)
Definition add_callback (s : state) (f : nat) : state :=
  match done s with
  | Some _ => {| wait_mode := wait_mode s; done := done s; chunks := chunks s; waiter := waiter s; waiters := waiters s; callbacks := callbacks s;
                 ran := ran s ++ [f]; consumers := consumers s |}
  | None => {| wait_mode := wait_mode s; done := done s; chunks := chunks s; waiter := waiter s; waiters := waiters s;
               callbacks := f :: callbacks s; ran := ran s; consumers := consumers s |}
  end.

(** _check_raise_flags, :373-389 *)
Definition check_raise (s : state) : bool := match done s with Some Success | None => true | Some _ => false end.

(** _check_wait_flags, :392-413; [None]: it raises *)
Definition check_wait (s : state) (m : mode) : option state :=
  let t := {| wait_mode := Some m; done := done s; chunks := chunks s; waiter := waiter s; waiters := waiters s; callbacks := callbacks s;
              ran := ran s; consumers := consumers s |} in
  match wait_mode s, m with
  | None, _ => Some t
  | Some Whole, Whole | Some By_chunk, By_chunk => Some s
  | _, _ => None
  end.

Inductive out := Yields (c : bytes) | Data (d : bytes) | Stops | Raises | Waits | Bool (b : bool) | Nothing.

Definition set_consumer (s : state) (k : nat) (c : consumer) : state :=
  {| wait_mode := wait_mode s; done := done s; chunks := chunks s; waiter := waiter s; waiters := waiters s; callbacks := callbacks s; ran := ran s;
     consumers := update (consumers s) k c |}.

(** The future on which a consumer waits: the one of the stream, or a new one, :438-444, :491-494 *)
Definition get_waiter (s : state) : state * nat :=
  match waiter s with
  | Some i => (s, i)
  | None => (with_chunks s (chunks s) (Some (length (waiters s))) (waiters s ++ [Pending]), length (waiters s))
  end.

(** The end of __await__, :452-454 *)
Definition take_all (s : state) (k : nat) : state * out :=
  (set_consumer (with_chunks s [] (waiter s) (waiters s)) k Over, Data (concat (chunks s))).

(** __await__, :416-454, up to its wait *)
Definition await_stream (s : state) (k : nat) : state * out :=
  match check_wait s Whole with
  | None => (set_consumer s k Over, Raises)
  | Some s =>
      if negb (check_raise s) then (set_consumer s k Over, Raises)
      else match done s with
           | Some _ => take_all s k
           | None => let '(s, i) := get_waiter s in (set_consumer s k (Awaits i), Waits)
           end
  end.

(** The loop of __aiter__, :477-511, up to its yield or its wait *)
Definition iter_loop (s : state) (k : nat) : state * out :=
  if negb (check_raise s) then (set_consumer s k Over, Raises)
  else match chunks s with
       | c :: l => (set_consumer (with_chunks s l (waiter s) (waiters s)) k At_yield, Yields c)
       | [] =>
           match done s with
           | Some _ => (set_consumer s k Over, Stops)
           | None => let '(s, i) := get_waiter s in (set_consumer s k (Iterates i), Waits)
           end
       end.

(** A consumer which gets an exception where it waits or yields, :446-450, :499-509 *)
Definition fail (s : state) (k : nat) : state * out := (set_consumer (fst (set_done s Aborted)) k Over, Raises).

Inductive op :=
| Add (c : bytes) | Set_done (d : final) | Callback (f : nat)
| Await | Iter | Next (k : nat) | Throw (k : nat) | Cancel_waiter (i : nat) | Wake (k : nat) (thrown : bool).

Definition step (s : state) (o : op) : state * out :=
  match o with
  | Add c => let '(s, b) := add_chunk s c in (s, Bool b)
  | Set_done d => let '(s, b) := set_done s d in (s, Bool b)
  | Callback f => (add_callback s f, Nothing)
  | Await =>
      await_stream {| wait_mode := wait_mode s; done := done s; chunks := chunks s; waiter := waiter s; waiters := waiters s;
                      callbacks := callbacks s; ran := ran s; consumers := consumers s ++ [Over] |} (length (consumers s))
  | Iter => (* :457-475 *)
      let s := {| wait_mode := wait_mode s; done := done s; chunks := chunks s; waiter := waiter s; waiters := waiters s;
                  callbacks := callbacks s; ran := ran s; consumers := consumers s ++ [Over] |} in
      match check_wait s By_chunk with
      | None => (s, Raises)
      | Some s => iter_loop s (length (consumers s) - 1)
      end
  | Next k => match nth_error (consumers s) k with Some At_yield => iter_loop s k | _ => (s, Nothing) end
  | Throw k => match nth_error (consumers s) k with Some At_yield => fail s k | _ => (s, Nothing) end
  | Cancel_waiter i =>
      (with_chunks s (chunks s) (waiter s) (finish (waiters s) i Cancelled_future), Nothing)
  | Wake k thrown =>
      match nth_error (consumers s) k with
      | Some (Awaits i) =>
          match nth_error (waiters s) i with
          | None | Some Pending => (s, Nothing)
          | Some (Chunk _ | No_more) => if thrown then fail s k else take_all s k
          | Some (Error | Cancelled_future) => fail s k
          end
      | Some (Iterates i) =>
          match nth_error (waiters s) i with
          | None | Some Pending => (s, Nothing)
          | Some (Chunk c) => if thrown then fail s k else (set_consumer s k At_yield, Yields c)
          | Some No_more => if thrown then fail s k else (set_consumer s k Over, Stops)
          | Some (Error | Cancelled_future) => fail s k
          end
      | _ => (s, Nothing)
      end
  end.

Fixpoint run (s : state) (os : list op) : state * list out :=
  match os with
  | [] => (s, [])
  | o :: os' => let '(s1, r) := step s o in let '(s2, rs) := run s1 os' in (s2, r :: rs)
  end.
