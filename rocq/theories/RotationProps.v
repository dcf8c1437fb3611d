(** C52 *)
From Coq Require Import List Arith Permutation.
From Verif Require Import RotationModel RotationSpec RotationProofs.
Import ListNotations.

(** The [n]th iteration over a basket yields the [n]th cyclic rotation of its addresses. *)
Theorem C52_fair A (l : list A) n : snd (iter_next_rotation (iterate n (new_basket l))) = rotated n l.
Proof. exact (fair l n). Qed.
Print Assumptions C52_fair.

(** So each iteration yields every address once. *)
Theorem C52_every_address A (l : list A) n : Permutation (snd (iter_next_rotation (iterate n (new_basket l)))) l.
Proof. rewrite fair. apply rotated_perm. Qed.
Print Assumptions C52_every_address.

Example C52_nonvacuous : map (fun n => snd (iter_next_rotation (iterate n (new_basket [1; 2; 3])))) [0; 1; 2; 3] = [[1; 2; 3]; [2; 3; 1]; [3; 1; 2]; [1; 2; 3]].
Proof. reflexivity. Qed.
