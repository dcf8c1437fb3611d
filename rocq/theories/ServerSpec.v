(** What the users of a server see, in terms of the calls made only. *)
From Coq Require Import List ZArith Bool Arith Lia.
From Verif Require Import ServerModel.
Import ListNotations.

Fixpoint attached (os : list sv_op) : nat :=
  match os with [] => 0 | SAttach :: r => S (attached r) | _ :: r => attached r end.

Fixpoint detached (os : list sv_op) : nat :=
  match os with [] => 0 | SDetach :: r => S (detached r) | _ :: r => detached r end.

(** Only connections which were made are lost. *)
Definition legit (os : list sv_op) : Prop :=
  forall n, detached (firstn n os) <= attached (firstn n os).

Definition closed (os : list sv_op) : Prop := In SClose os.

Definition no_connection (os : list sv_op) : Prop := attached os = detached os.

(** The server is closed and its last connection ended. *)
Definition finished (os : list sv_op) : Prop := closed os /\ no_connection os.

(** What became of the waiter number [w]. *)
Definition waiter (os : list sv_op) (w : nat) (x : wstate) : Prop :=
  nth_error (sv_futures (sv_after os)) w = Some x.
