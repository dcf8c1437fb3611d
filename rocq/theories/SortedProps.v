From Coq Require Import List Arith Bool NArith Lia Permutation Sorted.
From Verif Require Import SortedModel SortedSpec SortedProofs.
Import ListNotations.

(** C36 *)
Theorem C36_history : forall (T U : Type) (lt eqb : T -> T -> bool) (key : T -> U) (ltU eqU : U -> U -> bool),
  ordered T lt eqb -> keyed T U lt key ltU eqU -> forall os, Forall (sound T U lt) os -> forall s, in_order T lt (reversed s) (elements s) ->
  let '(s', rs) := run T U lt eqb key ltU eqU s os in history T U lt eqb key eqU s os rs s'.
Proof. exact histories. Qed.
Print Assumptions C36_history.

Theorem C36_init : forall (T : Type) (lt eqb : T -> T -> bool), ordered T lt eqb -> forall i r,
  match i with Some (Sorted_list s) => in_order T lt (reversed s) (elements s) | _ => True end ->
  reversed (init T lt i r) = r /\ in_order T lt r (elements (init T lt i r)) /\
  Permutation (elements (init T lt i r)) (match i with None => [] | Some i => all_of T i end).
Proof. exact init_ok. Qed.
Print Assumptions C36_init.

(** Numbers with a tag that is not compared, and the number as key. *)
Definition nlt (a b : nat * nat) : bool := Nat.ltb (fst a) (fst b).
Definition neq (a b : nat * nat) : bool := Nat.eqb (fst a) (fst b).

Lemma numbers_ordered : ordered (nat * nat) nlt neq /\ keyed (nat * nat) nat nlt fst Nat.ltb Nat.eqb.
Proof.
  assert (E : forall a b, Nat.eqb a b = negb (Nat.ltb a b) && negb (Nat.ltb b a)).
  { intros a b. destruct (Nat.eqb_spec a b), (Nat.ltb_spec a b), (Nat.ltb_spec b a); try reflexivity; lia. }
  unfold nlt, neq. split; split.
  - intros [a ?]. apply Nat.ltb_irrefl.
  - intros [a ?] [b ?] [c ?]. cbn [fst]. rewrite !Nat.ltb_lt. lia.
  - intros [a ?] [b ?]. apply E.
  - intros [a ?] [b ?] [c ?]. cbn [fst]. rewrite !Nat.ltb_lt. lia.
  - exact E.
  - intros a b c. rewrite !Nat.ltb_lt. lia.
  - intros a. apply Nat.ltb_irrefl.
  - auto.
Qed.

Example C36_nonvacuous : ordered (nat * nat) nlt neq /\ keyed (nat * nat) nat nlt fst Nat.ltb Nat.eqb /\
  run (nat * nat) nat nlt neq fst Nat.ltb Nat.eqb (init (nat * nat) nlt (Some (Plain [(3, 0); (1, 0); (2, 0)])) false)
    [Add (2, 1); Extend (Sorted_list (Build_slist true [(9, 0); (2, 2); (0, 0)])); Contains (2, 7); Index (3, 0); Set_reverse true; Relative_index (3, 0); Remove (9, 0); Pop 2] =
  (Build_slist true [(3, 0); (2, 2); (1, 0); (0, 0)],
   [Done; Done; Yes true; At (Some 4); Done; Number 1; Done; Found (Some (2, 1))]).
Proof. split; [apply numbers_ordered|]. split; [apply numbers_ordered|]. vm_compute. reflexivity. Qed.

(** C79: extending a list with itself does not end. *)
Theorem C79_extend_self_refuted : exists l : list nat, forall fuel, extend_self nat Nat.ltb fuel false 0 l 0 = None.
Proof. exists [1]. intros fuel. apply extend_self_long. cbn. lia. Qed.
Print Assumptions C79_extend_self_refuted.

(** It never does. *)
Theorem C79_extend_self_never : forall (T : Type) (lt : T -> T -> bool) r l, l <> [] -> forall fuel, extend_self T lt fuel r 0 l 0 = None.
Proof. intros T lt r l H fuel. apply extend_self_long. destruct l; [contradiction|cbn; lia]. Qed.
Print Assumptions C79_extend_self_never.

(** Missing: the list itself (of the other iterables [extend] is a total function). *)
Theorem C79_extend_partial : forall (T : Type) (lt eqb : T -> T -> bool), ordered T lt eqb -> forall s i, in_order T lt (reversed s) (elements s) ->
  match i with Sorted_list s => in_order T lt (reversed s) (elements s) | Plain _ => True end ->
  in_order T lt (reversed s) (elements (extend T lt s i)) /\ Permutation (elements (extend T lt s i)) (all_of T i ++ elements s).
Proof. exact extend_ok. Qed.
Print Assumptions C79_extend_partial.

Example C79_nonvacuous : extend_self nat Nat.ltb 50 false 0 [1; 2] 0 = None /\ extend_self nat Nat.ltb 50 false 0 [] 0 = Some [].
Proof. vm_compute. auto. Qed.
