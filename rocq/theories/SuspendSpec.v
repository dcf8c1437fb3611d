(** What a thread in the [with] block relies on. *)

From Coq Require Import List Arith Bool.
From Verif Require Import SuspendModel.
Import ListNotations.

Definition inside (w : world) (c : nat) : Prop := user_of w c = Inside.

(** Each context is entered at most once. *)
Definition once (l : list op) : Prop := forall before c rest, l = before ++ Enter c :: rest -> ~ In (Enter c) before.

(** Contexts are entered only while the loop is running. *)
Definition while_running (l : list op) : Prop := forall before c rest, l = before ++ Enter c :: rest -> running (run init before) = true.

(** A part of an execution in which the thread does not leave its block. *)
Definition stays_in (c : nat) (l : list op) : Prop := ~ In (Exit c) l.
