(** C59, C75, C76. *)

From Coq Require Import List Arith Bool NArith Sorted.
From Verif Require Import Bytes Text QuoteModel QuoteSpec NameModel.
Import ListNotations.
From Coq Require Import String.

(** What python says of ascii characters. *)
Definition ascii_digit (c : N) : bool := (N.leb 48 c && N.leb c 57)%N.
Definition ascii_alnum (c : N) : bool := (ascii_digit c || (N.leb 65 c && N.leb c 90) || (N.leb 97 c && N.leb c 122))%N.
Definition ascii_printable (c : N) : bool := (N.leb 32 c && N.leb c 126)%N.
Definition agrees (f g : N -> bool) : Prop := forall c, ascii c -> f c = g c.

Definition has_prefix (l : bytes) : Prop := exists a b, l = a ++ chars "xn--" ++ b.
Definition plain_label (l : bytes) : Prop := 0 < List.length l < 64 /\ Forall ascii l /\ ~ has_prefix l.

(** The codec does nothing to ascii labels without its prefix. *)
Definition decodes (idna_decode : bytes -> option str) : Prop :=
  forall l, Forall ascii l -> ~ has_prefix l -> idna_decode l = Some l.

(** The position of the first entry which an address matches. *)
Definition entry_matches (e : sort_element) (a : address) : Prop :=
  a_type a = s_type e /\ N.land (a_value a) (s_mask e) = s_value e.
Inductive rank : list sort_element -> address -> nat -> Prop :=
| Rank_here : forall e l a, entry_matches e a -> rank (e :: l) a 0
| Rank_next : forall e l a k, ~ entry_matches e a -> rank l a k -> rank (e :: l) a (S k)
| Rank_end : forall a, rank [] a 0.

(** A stable sort by the position. *)
Definition ordered_by (sort_list : list sort_element) (before after : list address) : Prop :=
  StronglySorted (fun a b => forall i j, rank sort_list a i -> rank sort_list b j -> i <= j) after /\
  forall (f : address -> bool) k, (forall a, f a = true <-> rank sort_list a k) -> filter f after = filter f before.
