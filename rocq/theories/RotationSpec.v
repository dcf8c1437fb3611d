(** C52: rotations. *)
From Coq Require Import List Arith.
Import ListNotations.

(** The [n]th cyclic rotation puts the first one to the end [n] times. *)
Fixpoint rotated {A} (n : nat) (l : list A) : list A := match n with 0 => l | S n => match rotated n l with [] => [] | x :: r => r ++ [x] end end.
