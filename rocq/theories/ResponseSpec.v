(** What users of responses rely on. *)

From Coq Require Import List Arith Bool.
From Verif Require Import ResponseModel.
Import ListNotations.

(** The connection waits to be used for another request. *)
Definition kept (w : world) : Prop := conn w = Pooled /\ transport w = true.
Definition whole_request (w : world) : Prop := write w = Written.
Definition whole_response (w : world) : Prop := complete w = true.

Definition no_cancel (l : list op) : Prop := forall i, ~ In (CancelRead i) l.

(** Only one task reads, once after the other. *)
Definition one_reader (l : list op) : Prop := exists i, forall j, In (Read j) l -> j = i.
