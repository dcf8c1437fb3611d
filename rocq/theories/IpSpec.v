(** C28, C29, C77: addresses as text. *)

From Coq Require Import List Arith Bool NArith.
From Verif Require Import Bytes Text QuoteModel.
Import ListNotations.

(** Numbers of the base, the first is the highest. *)
Definition horner (base : N) (l : list N) : N := fold_left (fun a x => (a * base + x)%N) l 0%N.

(** Texts with a separator between them. *)
Fixpoint joined (sep : N) (l : list str) : str :=
  match l with [] => [] | [p] => p | p :: l' => p ++ sep :: joined sep l' end.

(** RFC 4291 2.2: a group is one to four hexadecimal digits. *)
Inductive digit : N -> N -> Prop :=
| Digit_09 : forall c, (48 <= c <= 57)%N -> digit c (c - 48)
| Digit_af : forall c, (97 <= c <= 102)%N -> digit c (c - 87).
Inductive any_digit : N -> N -> Prop :=
| Any_lower : forall c d, digit c d -> any_digit c d
| Any_AF : forall c, (65 <= c <= 70)%N -> any_digit c (c - 55).
Definition group_text (digit : N -> N -> Prop) (p : str) (v : N) : Prop :=
  1 <= length p <= 4 /\ exists ds, Forall2 digit p ds /\ v = horner 16 ds.

(** Eight groups, or two colons for the zeros which are missing to eight. *)
Inductive denotes (digit : N -> N -> Prop) : str -> N -> Prop :=
| Denotes_full : forall ps gs, Forall2 (group_text digit) ps gs -> length gs = 8 -> denotes digit (joined 58 ps) (horner 65536 gs)
| Denotes_short : forall ps gs qs hs, Forall2 (group_text digit) ps gs -> Forall2 (group_text digit) qs hs ->
    length gs + length hs < 8 ->
    denotes digit (joined 58 ps ++ [58; 58]%N ++ joined 58 qs) (horner 65536 (gs ++ repeat 0%N (8 - (length gs + length hs)) ++ hs)).
