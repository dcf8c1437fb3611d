(** What users of datagram sockets rely on. *)

From Coq Require Import List Arith Bool.
From Verif Require Import DgramModel.
Import ListNotations.

(** The datagrams asked to be sent, with where each of them should go: the one address of the socket, or the one which is given. *)
Definition asked (f : option nat) (a : op) : list (nat * option nat) :=
  match a with
  | SendTo 0 _ _ => []
  | SendTo d (Some g) _ => match f with Some f => if g =? f then [(d, Some f)] else [] | None => [(d, Some g)] end
  | SendTo d None _ => [(d, f)]
  | _ => []
  end.
Definition requests (f : option nat) (l : list op) : list (nat * option nat) := flat_map (asked f) l.

(** [sub a b]: [a] is [b] with some of its items left out. *)
Inductive sub {A} : list A -> list A -> Prop :=
| sub_nil l : sub [] l
| sub_keep x a b : sub a b -> sub (x :: a) (x :: b)
| sub_skip x a b : sub a b -> sub a (x :: b).

(** The socket never fails with what is not an OSError, and there is an address. *)
Definition tame (p : bool) (f : option nat) (a : op) : Prop :=
  match a with
  | SendTo _ g x => x <> Fatal /\ (p = true \/ f <> None \/ g <> None)
  | Ready l => ~ In Fatal l
  | Close | Abort => False
  | _ => True
  end.
(** It takes everything, now or later. *)
Definition smooth (p : bool) (f : option nat) (a : op) : Prop :=
  tame p f a /\ match a with SendTo _ _ x => x <> OSError | Ready l => ~ In OSError l | _ => True end.

(** * Receiving *)

(** The datagrams which came from [a], in order. *)
Definition from (a : nat) (l : list pop) : list nat := flat_map (fun e => match e with Receive d b => if b =? a then [d] else [] | _ => [] end) l.
Definition sender (a : nat) (l : list pop) : Prop := exists d, In (Receive d a) l.

(** What the readers of [r] have of [a]. *)
Definition content (r : readers) (a : nat) : list nat := flat_map (fun e => if fst e =? a then snd e else []) (by_address r).

(** The call [i] was made once, for [a]. *)
Definition call_of (i : nat) (a : option nat) (l : list pop) : Prop := forall b, In (Wait i b) l -> b = a.
