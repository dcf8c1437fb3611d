From Coq Require Import List Arith Bool NArith Lia.
From Verif Require Import Bytes MultiModel MultiSpec MultiProofs.
Import ListNotations.

(** C34: every history of the dictionary is one of a map from keys to lists, the lists have no duplicates, and a key is there if it
    has values. *)
Theorem C34_history : forall (K V : Type) (keq : K -> K -> bool) (veq : V -> V -> bool),
  (forall a b, reflect (a = b) (keq a b)) -> (forall a b, reflect (a = b) (veq a b)) ->
  forall os, let '(d, rs) := run K K V (fun k => k) keq veq [] os in
  exists m, history (fun k => k) (fun _ => []) os rs m /\ (forall k, NoDup (m k)) /\
    (forall k, get K K V (fun k => k) keq d k = match m k with [] => None | vs => Some vs end).
Proof.
  intros K V keq veq Hk Hv os. pose proof (histories K K V (fun k => k) keq veq Hk Hv os) as H.
  destruct (run K K V (fun k => k) keq veq [] os) as [d rs]. exact H.
Qed.
Print Assumptions C34_history.

Theorem C34_copy : forall (K V : Type) (keq : K -> K -> bool), (forall a b, reflect (a = b) (keq a b)) ->
  forall l : dict K V, NoDup (map fst l) -> forall k vs, In (k, vs) l -> get K K V (fun k => k) keq (of_multi K K V (fun k => k) keq l) k = Some vs.
Proof. intros K V keq Hk. exact (of_multi_ok K K V (fun k => k) keq Hk). Qed.
Print Assumptions C34_copy.

Example C34_nonvacuous : run nat nat nat (fun k => k) Nat.eqb Nat.eqb []
    [OSet 1 10; OSet 2 20; OSet 1 11; OSet 1 10; OGetAll 1; OPop 1 false; OItem 1; OPopItem; ODel 1; OItem 1; OLen] =
  ([], [Done; Done; Done; Done; Values [10; 11]; Value 10; Value 11; Pair 2 20; Done; KeyError; Count 0]).
Proof. vm_compute. reflexivity. Qed.

(** C35 *)
Theorem C35_history : forall (S V : Type) (fold : S -> S) (seq : S -> S -> bool) (veq : V -> V -> bool),
  (forall a b, reflect (a = b) (seq a b)) -> (forall a b, reflect (a = b) (veq a b)) ->
  forall os, let '(d, rs) := run S S V fold seq veq [] os in
  exists m, history fold (fun _ => []) os rs m /\ (forall k, NoDup (m k)) /\
    (forall k, get S S V fold seq d k = match m (fold k) with [] => None | vs => Some vs end).
Proof.
  intros S V fold seq veq Hk Hv os. pose proof (histories S S V fold seq veq Hk Hv os) as H.
  destruct (run S S V fold seq veq [] os) as [d rs]. exact H.
Qed.
Print Assumptions C35_history.

(** The spelling of the keys makes no difference to the results but the spelling of the keys in them. *)
Theorem C35_spelling : forall (S V : Type) (fold : S -> S) (seq : S -> S -> bool) (veq : V -> V -> bool) os os',
  Forall2 (like_op fold) os os' ->
  Forall2 (like_out fold) (snd (run S S V fold seq veq [] os)) (snd (run S S V fold seq veq [] os')).
Proof. intros S V fold seq veq os os' H. apply spelling; [exact H|constructor]. Qed.
Print Assumptions C35_spelling.

(** A fold, and strings with their bytes as hash. *)
Definition lower (s : list N) : list N := map (fun c => if (N.leb 65 c && N.leb c 90)%N then (c + 32)%N else c) s.

(** [key in d] looks the plain string up. *)
Theorem C35_contains_refuted : exists os k,
  let d := fst (run (list N) (list N) nat lower beqb Nat.eqb [] os) in
  get (list N) (list N) nat lower beqb d k <> None /\ contains (list N) (list N) nat lower beqb (fun s => s) beqb d k = false.
Proof. exists [OSet [65%N] 1], [65%N]. vm_compute. split; [discriminate|reflexivity]. Qed.
Print Assumptions C35_contains_refuted.

(** Missing: keys with letters that the fold changes. *)
Theorem C35_contains_partial : forall (S H V : Type) (fold : S -> S) (seq : S -> S -> bool) (hash : S -> H) (heq : H -> H -> bool),
  (forall a b, reflect (a = b) (seq a b)) -> (forall a b, reflect (a = b) (heq a b)) -> forall (d : dict S V) k,
  (contains S H V fold seq hash heq d k = true -> get S S V fold seq d k <> None) /\
  (fold k = k -> get S S V fold seq d k <> None -> contains S H V fold seq hash heq d k = true).
Proof.
  intros S H V fold seq hash heq Hs Hh d k. split; [apply contains_sound|]. intros E G. rewrite contains_folded by assumption.
  destruct (get S S V fold seq d k); [reflexivity|contradiction].
Qed.
Print Assumptions C35_contains_partial.

(** Made of a MultiValueDictionary with 'A' and 'a' only the values of one of them stay. *)
Theorem C35_construct_refuted : exists l : dict (list N) nat, NoDup (map fst l) /\ exists k vs v, In (k, vs) l /\ In v vs /\
  match get (list N) (list N) nat lower beqb (of_multi (list N) (list N) nat lower beqb l) k with Some vs' => ~ In v vs' | None => True end.
Proof.
  exists [([65%N], [1]); ([97%N], [2])]. split; [repeat constructor; cbn; intuition discriminate|].
  exists [65%N], [1], 1. split; [left; reflexivity|]. split; [left; reflexivity|]. vm_compute. intros [H|[]]. discriminate.
Qed.
Print Assumptions C35_construct_refuted.

(** Missing: other dictionaries with keys that differ only in case. *)
Theorem C35_construct_partial : forall (S V : Type) (fold : S -> S) (seq : S -> S -> bool), (forall a b, reflect (a = b) (seq a b)) ->
  forall l : dict S V, NoDup (map (fun p => fold (fst p)) l) -> forall k vs, In (k, vs) l ->
  get S S V fold seq (of_multi S S V fold seq l) k = Some vs.
Proof. intros S V fold seq Hs. exact (of_multi_ok S S V fold seq Hs). Qed.
Print Assumptions C35_construct_partial.

Example C35_nonvacuous :
  snd (run (list N) (list N) nat lower beqb Nat.eqb [] [OSet [65; 66]%N 1; OSet [97; 98]%N 2; OGetAll [97; 66]%N; OItems]) =
  [Done; Done; Values [1; 2]; Pairs [([65; 66]%N, 1); ([65; 66]%N, 2)]].
Proof. vm_compute. reflexivity. Qed.

(** C78: [!=] is not the opposite of [==] *)
Theorem C78_ne_refuted : exists a b, string_eq (list N) lower beqb a b = true /\ string_ne (list N) beqb a b = true.
Proof. exists [65%N], [97%N]. vm_compute. auto. Qed.
Print Assumptions C78_ne_refuted.

(** Missing: strings which differ only in case. *)
Theorem C78_ne_partial : forall (S : Type) (fold : S -> S) (seq : S -> S -> bool), (forall a b, reflect (a = b) (seq a b)) ->
  forall a b, (fold a = fold b -> a = b) -> string_ne S seq a b = negb (string_eq S fold seq a b).
Proof.
  intros S fold seq Hs a b H. unfold string_ne, string_eq. f_equal. destruct (Hs a b) as [Q|NQ], (Hs (fold a) (fold b)) as [E|NE]; try reflexivity.
  - destruct NE. rewrite Q. reflexivity.
  - destruct NQ. apply H. exact E.
Qed.
Print Assumptions C78_ne_partial.

(** [==] is an equivalence and equal strings have the same hash (that of the fold). *)
Theorem C78_eq_hash : forall (S H : Type) (fold : S -> S) (seq : S -> S -> bool) (hash : S -> H), (forall a b, reflect (a = b) (seq a b)) ->
  (forall a, string_eq S fold seq a a = true) /\ (forall a b, string_eq S fold seq a b = string_eq S fold seq b a) /\
  (forall a b c, string_eq S fold seq a b = true -> string_eq S fold seq b c = true -> string_eq S fold seq a c = true) /\
  (forall a b, string_eq S fold seq a b = true -> hash (fold a) = hash (fold b)).
Proof.
  intros S H fold seq hash Hs. unfold string_eq. repeat split.
  - intros a. destruct (Hs (fold a) (fold a)); [reflexivity|contradiction].
  - intros a b. destruct (Hs (fold a) (fold b)), (Hs (fold b) (fold a)); congruence.
  - intros a b c. destruct (Hs (fold a) (fold b)), (Hs (fold b) (fold c)), (Hs (fold a) (fold c)); congruence.
  - intros a b. destruct (Hs (fold a) (fold b)); congruence.
Qed.
Print Assumptions C78_eq_hash.

Example C78_nonvacuous : string_eq (list N) lower beqb [65; 66]%N [97; 66]%N = true /\ string_ne (list N) beqb [65]%N [66]%N = true /\ lower [65; 91]%N = [97; 91]%N.
Proof. vm_compute. auto. Qed.
