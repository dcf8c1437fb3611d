(** C46: names for which the deduplication works. *)

From Coq Require Import List Arith Bool NArith.
From Verif Require Import Bytes Text DedupModel.
Import ListNotations.

(** " (12)" *)
Definition numbered (t : list N) : Prop := exists d, t = [32; 40]%N ++ d ++ [41%N] /\ d <> [] /\ Forall (fun c => is_digit c = true) d.
(** A name of one line, without two such numbers following each other. *)
Definition simple (l : name) : Prop :=
  ~ In 10%N l /\ forall a n m b, numbered n -> numbered m -> l <> a ++ n ++ m ++ b.
(** The name with its number replaced, removed, or with a number inserted; the extension has no directory. *)
Definition number_or_not (t : name) : Prop := t = [] \/ numbered t.
Definition renumbered (l r : name) : Prop :=
  exists p n m x, l = p ++ n ++ x /\ r = p ++ m ++ x /\ number_or_not n /\ number_or_not m /\ (x = [] \/ exists e, x = 46%N :: e /\ ~ In 47%N e).
(** No number starts with a zero. *)
Definition natural (l : name) : Prop := forall a d b, l = a ++ [32; 40]%N ++ d ++ [41%N] ++ b -> Forall (fun c => is_digit c = true) d -> forall d', d <> 48%N :: d'.
