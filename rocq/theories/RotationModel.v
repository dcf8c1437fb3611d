(** Model of the rotation of host infos: /repo/scarletio/http_client/host_info_basket.py:12-135. A generator is run to its end. *)

From Coq Require Import List Arith Bool.
Import ListNotations.

Section Basket.
Context {A : Type}.

Record basket := { host_infos : list A; rotation_start_index : nat }.

(** :30-43, :47-63 *)
Definition new_basket (l : list A) : basket := {| host_infos := l; rotation_start_index := 0 |}.

(** itertools.islice(l, start, stop) *)
Definition islice (l : list A) (start stop : nat) : list A := firstn (stop - start) (skipn start l).

(** iter_next_rotation, :114-135 *)
Definition iter_next_rotation (b : basket) : basket * list A :=
  let length := length (host_infos b) in
  let start := rotation_start_index b in
  let new_start := start + 1 in
  let new_start := if new_start =? length then 0 else new_start in
  ({| host_infos := host_infos b; rotation_start_index := new_start |}, islice (host_infos b) start length ++ islice (host_infos b) 0 start).

(** [n] iterations before this one *)
Fixpoint iterate (n : nat) (b : basket) : basket := match n with 0 => b | S n => iterate n (fst (iter_next_rotation b)) end.
End Basket.
