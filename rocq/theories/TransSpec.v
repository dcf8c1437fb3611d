(** C42, C43: what the socket and the protocol see. *)

From Coq Require Import List Arith Bool NArith.
From Verif Require Import Bytes TransModel.
Import ListNotations.

(** All bytes passed to the [write] calls which did not raise, in order. *)
Definition data_of (o : op) : bytes := match o with Write d _ => content d | _ => [] end.
Fixpoint accepted (os : list op) (rs : list bool) : bytes :=
  match os, rs with
  | o :: os', r :: rs' => (if r then data_of o else []) ++ accepted os' rs'
  | _, _ => []
  end.

(** bytes and bytearray: one byte per item. *)
Definition plain (o : op) : Prop := match o with Write d _ => width d = 1 | _ => True end.

Definition prefix {A} (a b : list A) : Prop := exists c, b = a ++ c.

(** Nothing fails and nobody aborts. *)
Definition graceful (o : op) : Prop :=
  match o with Write _ Failed | Writable Failed | Abort _ | Read_failed => False | _ => True end.
(** The socket becomes writable and takes something. *)
Definition takes (o : op) : Prop := match o with Writable (Took (S _)) => True | _ => False end.

(** The calls on the protocol in order: pause and resume by turns, then at most one connection_lost, after which none follows. *)
Fixpoint alternate (is_paused : bool) (l : list call) : Prop :=
  match l with
  | [] => True
  | Pause_writing :: l' => is_paused = false /\ alternate true l'
  | Resume_writing :: l' => is_paused = true /\ alternate false l'
  | Connection_lost _ :: l' => l' = []
  end.
(** Whether the protocol was told to pause last. *)
Fixpoint told (l : list call) : bool := (* latest first *)
  match l with [] => false | Pause_writing :: _ => true | Resume_writing :: _ => false | Connection_lost _ :: l' => told l' end.

Definition buffered (s : state) : bytes := flat_map content (buffer s).
