(** What the users of shield see: the outcomes of futures and the callbacks which are run. *)
From Coq Require Import List Bool Arith Lia.
From Verif Require Import ShieldModel.
Import ListNotations.

(** [shield(f)] gave [g]. *)
Definition made os f g : Prop := In (HShield f, SId g) (combine os (s_outs os)).
(** [f] was made otherwise. *)
Definition plain os f : Prop := In (HNew, SId f) (combine os (s_outs os)).

Definition outcome_of os f : option outcome := out (mem (s_after os) f).
(** The user (or the task itself) set an outcome of [f]. *)
Definition set_by_user os f x : Prop := In (HFinish f x) os.
(** The event loop has nothing to run. *)
Definition idle os : Prop := ready (s_after os) = [].

Definition pair_dec (a b : nat * nat) : {a = b} + {a <> b}.
Proof. decide equality; apply Nat.eq_dec. Defined.
(** How often a callback ran, and how often it was added to an existing future. *)
Definition ran os f n : nat := count_occ pair_dec (log (s_after os)) (f, n).
Fixpoint registered (s : heap) (os : list s_op) (f n : nat) : nat :=
  match os with
  | [] => 0
  | o :: r => (match o with HCallback g m => if (g =? f) && (m =? n) && (g <? next s) then 1 else 0 | _ => 0 end) + registered (fst (s_step s o)) r f n
  end.
