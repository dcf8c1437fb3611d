(** C37, C38, C39, C80: who has a connection. *)

From Coq Require Import List Arith Bool.
From Verif Require Import PoolModel.
Import ListNotations.

(** The connections which requests have. *)
Definition holds (s : state) (c p : nat) : Prop := exists k, nth_error (conns s) c = Some k /\ conn_proto k = Some p.
(** The connections which wait in the pool. *)
Definition idle (s : state) (k : key) (i : item) : Prop := exists b, In (k, b) (hosts s) /\ In i (available b).

Definition reachable (force : bool) (s : state) : Prop := exists os, s = fst (run force initial os).

(** A connection which works: the transport was not closed and did not end, and the other side sent nothing unasked. *)
Definition dead (p : proto) : Prop := closing p = true \/ lost p = true.

(** What a connection of the pool has to be like at a time. *)
Definition usable (s : protos) (now : nat) (i : item) : Prop :=
  transport (s (proto_of i)) = true /\ should_close (s (proto_of i)) = false /\ now <= expiration i.

(** The histories with secure hosts only, in which the loop runs and each transport can be paused. *)
Definition careful (o : op) : Prop :=
  match o with
  | Connect k _ | Created k => secure k = true
  | Del _ running | Close running => running = true
  | Happens _ Unpausable => False
  | _ => True
  end.

(** How many times a connection was given out. *)
Definition gets (p : nat) (r : out) : nat := match r with Got q _ => if Nat.eqb q p then 1 else 0 | _ => 0 end.
Fixpoint count (p : nat) (rs : list out) : nat := match rs with [] => 0 | r :: rs => gets p r + count p rs end.
