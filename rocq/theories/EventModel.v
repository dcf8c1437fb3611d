(** Model of [Event], /repo/scarletio/core/traps/event.py. A waiter is the future made by one [await event]; futures and tasks
    as in FutureModel.v and TaskModel.v, reduced to what [Event] uses. *)

From Coq Require Import List Arith Bool.
Import ListNotations.

(** One [await event] call: its future and its task. *)
Inductive status :=
  | Pending                  (* suspended, the future is pending *)
  | Woken                    (* the future has its result, the task has not run yet *)
  | Marked                   (* so, and the task was cancelled meanwhile (task.py:116-130) *)
  | Cancelled                (* the future was cancelled (future.py:116-136) *)
  | Passed                   (* the await returned *)
  | Raised.                  (* the await raised CancelledError *)

Record ev := mk_ev { e_value : bool; e_waiters : list nat; e_stat : nat -> status; e_next : nat }.
Definition init : ev := mk_ev false [] (fun _ => Raised) 0.

Definition upd (f : nat -> status) (t : nat) (x : status) : nat -> status := fun u => if Nat.eqb u t then x else f u.

Inductive op := OWait | OSet | OClear | OCancel (t : nat) | OResume (t : nat).

(** The loop of event.py:61-62: [set_result_if_pending], future.py:428-435. *)
Fixpoint wake (ws : list nat) (f : nat -> status) : (nat -> status) * list nat :=
  match ws with
  | [] => (f, [])
  | w :: ws' =>
      match f w with
      | Pending => let '(g, l) := wake ws' (upd f w Woken) in (g, w :: l)
      | _ => wake ws' f
      end
  end.

(** The list: the waiters that were woken. *)
Definition step (s : ev) (x : op) : ev * list nat :=
  match x with
  | OWait =>                                    (* event.py:80-85 *)
      let t := e_next s in
      if e_value s then (mk_ev (e_value s) (e_waiters s) (upd (e_stat s) t Passed) (S t), [])
      else (mk_ev (e_value s) (e_waiters s ++ [t]) (upd (e_stat s) t Pending) (S t), [])
  | OSet =>                                     (* event.py:56-64 *)
      if e_value s then (s, [])
      else let '(f, l) := wake (e_waiters s) (e_stat s) in (mk_ev true [] f (e_next s), l)
  | OClear => (mk_ev false (e_waiters s) (e_stat s) (e_next s), [])     (* event.py:71 *)
  | OCancel t =>
      if t <? e_next s then
        (mk_ev (e_value s) (e_waiters s)
           (match e_stat s t with Pending => upd (e_stat s) t Cancelled | Woken => upd (e_stat s) t Marked | _ => e_stat s end)
           (e_next s), [])
      else (s, [])
  | OResume t =>
      if t <? e_next s then
        (mk_ev (e_value s) (e_waiters s)
           (match e_stat s t with Woken => upd (e_stat s) t Passed | Marked | Cancelled => upd (e_stat s) t Raised | _ => e_stat s end)
           (e_next s), [])
      else (s, [])
  end.

Fixpoint exec (s : ev) (ops : list op) : ev * list nat :=
  match ops with
  | [] => (s, [])
  | x :: ops' => let '(s1, l1) := step s x in let '(s2, l2) := exec s1 ops' in (s2, l1 ++ l2)
  end.
