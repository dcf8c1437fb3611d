(** What C13-C17 say about queues. *)

From Coq Require Import List Arith Bool.
From Verif Require Import QueueModel.
Import ListNotations.

(** Elements accepted by the queue (return value 0 or 2), and elements handed to consumers, in order. *)
Definition accepted (evs : list event) : list nat :=
  flat_map (fun e => match e with EvPut v 1 => [] | EvPut v _ => [v] | _ => [] end) evs.
Definition taken (evs : list event) : list nat :=
  flat_map (fun e => match e with EvTook v => [v] | _ => [] end) evs.

(** Elements given to a waiting consumer that did not run since. *)
Definition in_flight (s : queue) : list nat :=
  flat_map (fun g => if g_flag g then [] else match q_fut s (g_fut g) with FElem v => [v] | _ => [] end) (q_gets s).

(** There is one consumer: no take begins before the one before it is over. Blocking puts only on an unbounded queue. *)
Fixpoint one_consumer (s : queue) (ops : list op) : Prop :=
  match ops with
  | [] => True
  | o :: ops' =>
      match o with
      | OGet | ONext | OGetNoWait => q_gets s = []
      | OPutWait _ => q_max s = None
      | _ => True
      end /\ one_consumer (fst (step s o)) ops'
  end.

(** Number of cancellations of a consumer. *)
Fixpoint cancellations (ops : list op) : nat :=
  match ops with
  | [] => 0
  | OCancelGet _ :: ops' => S (cancellations ops')
  | _ :: ops' => cancellations ops'
  end.

(** [a] is [b] with some elements left out. *)
Inductive sub {A} : list A -> list A -> Prop :=
  | sub_nil : sub [] []
  | sub_keep : forall x a b, sub a b -> sub (x :: a) (x :: b)
  | sub_skip : forall x a b, sub a b -> sub a (x :: b).

(** Nothing can run: every suspended call waits for a future that is not done. *)
Definition stuck (s : queue) : Prop :=
  (forall g, In g (q_gets s) -> q_fut s (g_fut g) = FPending) /\
  (forall p, In p (q_puts s) -> q_fut s (p_fut p) = FPending).
