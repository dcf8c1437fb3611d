(** C26, C27, C73, C74: names of RFC 1035 (4.1.4), by the bytes they are read from. *)

From Coq Require Import List Arith Bool NArith Relations.
From Verif Require Import Bytes FrameSpec FrameModel DnsModel.
Import ListNotations.

Definition at_ (data : bytes) (i : nat) (b : N) : Prop := nth_error data i = Some b.

(** A pointer: two ones, then the offset in 14 bits. *)
Definition points (data : bytes) (i target : nat) : Prop :=
  exists b c, at_ data i (192 + b) /\ (b < 64)%N /\ at_ data (S i) c /\ target = N.to_nat (256 * b + c).

(** A label of [length label] bytes at [i]. *)
Definition label_at (data : bytes) (i : nat) (label : bytes) : Prop :=
  exists pre post, data = pre ++ (N.of_nat (length label) :: label) ++ post /\ length pre = i /\ 0 < length label < 64.

(** The name at [i], and where what follows it starts. *)
Inductive name_at (data : bytes) : nat -> list bytes -> nat -> Prop :=
| Name_root : forall i, at_ data i 0 -> name_at data i [] (S i)
| Name_label : forall i label labels next, label_at data i label -> name_at data (S i + length label) labels next ->
    name_at data i (label :: labels) next
| Name_pointer : forall i target labels next, points data i target -> name_at data target labels next ->
    name_at data i labels (S (S i)).

(** As it is written by servers: a pointer is to a name which is wholly before it. *)
Inductive prior_name (data : bytes) : nat -> list bytes -> nat -> Prop :=
| Prior_root : forall i, at_ data i 0 -> prior_name data i [] (S i)
| Prior_label : forall i label labels next, label_at data i label -> prior_name data (S i + length label) labels next ->
    prior_name data i (label :: labels) next
| Prior_pointer : forall i target labels next, points data i target -> prior_name data target labels next -> next <= i ->
    prior_name data i labels (S (S i)).

(** From where to where a reader of names goes. *)
Definition goes (data : bytes) (i j : nat) : Prop :=
  (exists label, label_at data i label /\ j = S i + length label) \/ points data i j.
Definition acyclic (data : bytes) : Prop := forall i, ~ clos_trans nat (goes data) i i.

Definition valid_labels (labels : list bytes) : Prop := Forall (fun l => 0 < length l < 64) labels.
Definition valid_question (q : question) : Prop :=
  valid_labels (q_labels q) /\ (q_type q < 65536)%N /\ (q_class q < 65536)%N.
Definition valid_record (r : resource_record) : Prop :=
  valid_labels (r_labels r) /\ (r_type r < 65536)%N /\ (r_class r < 65536)%N /\ (r_validity r < 4294967296)%N /\
  (size (r_data r) < 65536)%N.
Definition valid_query (q : query) : Prop :=
  (transaction_id q < 65536)%N /\ (size (questions q) < 65536)%N /\ (size (additional q) < 65536)%N /\
  Forall valid_question (questions q) /\ Forall valid_record (additional q).

(** Labels written one after the other, each after its length, and a zero. *)
Definition built (labels : list bytes) : bytes := flat_map (fun l => N.of_nat (length l) :: l) labels ++ [0%N].
