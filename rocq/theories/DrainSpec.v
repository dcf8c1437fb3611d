(** C82: what [drain] and the reader may rely on. *)

From Coq Require Import List Arith Bool.
From Verif Require Import DrainModel.
Import ListNotations.

Definition waiting (s : state) (i : nat) : Prop := nth_error (waiters s) i = Some Pending.

(** Histories in which one task writes, and the received data is taken in time. *)
Inductive calm : state -> list op -> Prop :=
| calm_nil s : calm s []
| calm_cons s o os : (match o with
                      | Drain | Drain_helper => forall i, ~ waiting s i
                      | Received big => big = false
                      | Want_data => False
                      | _ => True
                      end) -> calm (fst (step s o)) os -> calm s (o :: os).

(** Histories in which the task does not write, and those in which it does not read. *)
Definition read_only (o : op) : Prop := match o with Pause_writing | Resume_writing => False | _ => True end.
