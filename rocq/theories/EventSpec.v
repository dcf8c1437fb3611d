(** Vocabulary for C50: a flag, and one automaton per waiter that knows nothing of the others. *)

From Coq Require Import List Arith Bool.
From Verif Require Import EventModel.
Import ListNotations.

Definition flag (ops : list op) : bool :=
  fold_left (fun b x => match x with OSet => true | OClear => false | _ => b end) ops false.

Definition waits (ops : list op) : nat := length (filter (fun x => match x with OWait => true | _ => false end) ops).

(** What happens to waiter [t]. *)
Definition waiter_step (t : nat) (st : status) (x : op) : status :=
  match x, st with
  | OSet, Pending => Woken
  | OCancel u, Pending => if Nat.eqb u t then Cancelled else st
  | OCancel u, Woken => if Nat.eqb u t then Marked else st
  | OResume u, Woken => if Nat.eqb u t then Passed else st
  | OResume u, Marked | OResume u, Cancelled => if Nat.eqb u t then Raised else st
  | _, _ => st
  end.
Definition waiter (t : nat) (after : list op) : status := fold_left (waiter_step t) after Pending.

(** Whether the waiter was woken at all: the first of [set] and its cancellation is [set]. *)
Fixpoint set_first (t : nat) (after : list op) : bool :=
  match after with
  | [] => false
  | OSet :: _ => true
  | OCancel u :: l => if Nat.eqb u t then false else set_first t l
  | _ :: l => set_first t l
  end.
