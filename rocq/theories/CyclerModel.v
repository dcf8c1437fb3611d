(** Model of Cycler: /repo/scarletio/core/event_loop/cycler.py:149-572, within the thread of its loop.

    A function is a number; [acts] tells what it does to its cycler when it is called. A timer is the handle of [loop.call_after]; times are left out: the loop may
    fire any timer which is set. Not here: asynchronous functions (their task is started and forgotten), exceptions (caught and written), [call_now] within
    a function, the calls from other threads (they are passed to the loop). *)

From Coq Require Import List Arith Bool.
Import ListNotations.

(** A CyclerCallable: priority and function, :14-145 *)
Definition callable := (nat * nat)%type.

Record cycler := {
  funcs : list callable;
  handle : option nat;
  timers : list nat;          (* the loop: the handles which are neither fired nor cancelled *)
  next_handle : nat
}.

Inductive act := Append (priority func : nat) | Remove (func : nat) | Cancel | Reschedule.

(** list.sort by [__lt__], :143-145: the priority only, equal ones keep their order *)
Fixpoint insert (x : callable) (l : list callable) : list callable :=
  match l with [] => [x] | y :: l' => if fst x <? fst y then x :: l else y :: insert x l' end.
Definition sort (l : list callable) : list callable := fold_left (fun acc x => insert x acc) l [].

Definition cancel_handle (h : option nat) (ts : list nat) : list nat := match h with None => ts | Some h => filter (fun t => negb (t =? h)) ts end.

(** loop.call_after, and the handle is stored *)
Definition call_after (c : cycler) : cycler :=
  {| funcs := funcs c; handle := Some (next_handle c); timers := timers c ++ [next_handle c]; next_handle := S (next_handle c) |}.

(** __new__, :166-247 *)
Definition new_cycler (priority : nat) (fs : list nat) : cycler :=
  call_after {| funcs := sort (map (fun f => (priority, f)) fs); handle := None; timers := []; next_handle := 0 |}.

(** _append, :471-484 *)
Definition do_append (p f : nat) (c : cycler) : cycler :=
  {| funcs := sort (funcs c ++ [(p, f)]); handle := handle c; timers := timers c; next_handle := next_handle c |}.
(** _remove, :507-534 *)
Fixpoint remove_first (f : nat) (l : list callable) : list callable :=
  match l with [] => [] | x :: l' => if snd x =? f then l' else x :: remove_first f l' end.
Definition do_remove (f : nat) (c : cycler) : cycler :=
  {| funcs := remove_first f (funcs c); handle := handle c; timers := timers c; next_handle := next_handle c |}.
(** _cancel, :326-335 *)
Definition do_cancel (c : cycler) : cycler :=
  {| funcs := funcs c; handle := None; timers := cancel_handle (handle c) (timers c); next_handle := next_handle c |}.
(** _reschedule, :381-391 *)
Definition do_reschedule (c : cycler) : cycler :=
  call_after {| funcs := funcs c; handle := handle c; timers := cancel_handle (handle c) (timers c); next_handle := next_handle c |}.

Definition do_act (c : cycler) (a : act) : cycler :=
  match a with Append p f => do_append p f c | Remove f => do_remove f c | Cancel => do_cancel c | Reschedule => do_reschedule c end.

Section Behaviour.
Variable acts : nat -> list act.

(** The loop of _run, :253-268: a list iterator is an index. [None]: it does not end within [fuel] calls *)
Fixpoint run_loop (fuel index : nat) (c : cycler) : option (cycler * list nat) :=
  match nth_error (funcs c) index with
  | None => Some (c, [])
  | Some (_, f) =>
      match fuel with
      | 0 => None
      | S fuel =>
          match run_loop fuel (S index) (fold_left do_act (acts f) c) with
          | None => None
          | Some (c, log) => Some (c, f :: log)
          end
      end
  end.
(** _run, :249-270 *)
Definition run (fuel : nat) (c : cycler) : option (cycler * list nat) :=
  match run_loop fuel 0 c with None => None | Some (c, log) => Some (call_after c, log) end.

(** The loop takes the timer away and calls _run *)
Definition fire (fuel t : nat) (c : cycler) : option (cycler * list nat) :=
  if existsb (Nat.eqb t) (timers c)
  then run fuel {| funcs := funcs c; handle := handle c; timers := filter (fun x => negb (x =? t)) (timers c); next_handle := next_handle c |}
  else Some (c, []).
(** _call_now, :353-363 *)
Definition call_now (fuel : nat) (c : cycler) : option (cycler * list nat) :=
  run fuel {| funcs := funcs c; handle := handle c; timers := cancel_handle (handle c) (timers c); next_handle := next_handle c |}.

Inductive op := Act (a : act) | Fire (t : nat) | CallNow.
Definition step (fuel : nat) (c : cycler) (o : op) : option (cycler * list nat) :=
  match o with Act a => Some (do_act c a, []) | Fire t => fire fuel t c | CallNow => call_now fuel c end.
(** The calls of each operation *)
Fixpoint history (fuel : nat) (c : cycler) (os : list op) : option (cycler * list (list nat)) :=
  match os with
  | [] => Some (c, [])
  | o :: os' =>
      match step fuel c o with
      | None => None
      | Some (c, log) => match history fuel c os' with None => None | Some (c, logs) => Some (c, log :: logs) end
      end
  end.
End Behaviour.
