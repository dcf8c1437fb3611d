(** C36: a sorted multiset. *)

From Coq Require Import List Arith Bool NArith Permutation Sorted.
From Verif Require Import SortedModel.
Import ListNotations.

Section Spec.
Variables (T U : Type) (lt eqb : T -> T -> bool) (key : T -> U) (ltU eqU : U -> U -> bool).

(** A total order of the elements, up to [==]; the keys follow it. *)
Record ordered : Prop := {
  lt_irrefl : forall a, lt a a = false;
  lt_trans : forall a b c, lt a b = true -> lt b c = true -> lt a c = true;
  lt_total : forall a b, eqb a b = negb (lt a b) && negb (lt b a);
  lt_weak : forall a b c, lt a b = true -> lt a c = true \/ lt c b = true }.
Record keyed : Prop := {
  key_total : forall a b, eqU a b = negb (ltU a b) && negb (ltU b a);
  key_weak : forall a b c, ltU a b = true -> ltU a c = true \/ ltU c b = true;
  key_irrefl : forall a, ltU a a = false;
  key_order : forall a b, ltU (key a) (key b) = true -> lt a b = true }.

(** No element is followed by one which should be before it. *)
Definition in_order (r : bool) (l : list T) : Prop := StronglySorted (fun a b => (if r then lt a b else lt b a) = false) l.

Definition has (p : T -> bool) (l : list T) : Prop := exists x, In x l /\ p x = true.

(** One element that satisfies [p] taken out. *)
Definition taken (p : T -> bool) (l : list T) (x : T) (l' : list T) : Prop := p x = true /\ Permutation l (x :: l').

Definition all_of (i : iterable T) : list T := match i with Plain l => l | Sorted_list s => elements s end.

Inductive allowed : slist T -> op T U -> out T -> slist T -> Prop :=
| A_add_new : forall r l l' v, ~ has (fun x => eqb x v) l -> Permutation l' (v :: l) ->
    allowed (Build_slist r l) (Add v) Done (Build_slist r l')
| A_add_over : forall r l l' v x l1, taken (fun x => eqb x v) l x l1 -> Permutation l' (v :: l1) ->
    allowed (Build_slist r l) (Add v) Done (Build_slist r l')
| A_remove_no : forall r l v, ~ has (fun x => eqb x v) l -> allowed (Build_slist r l) (Remove v) Done (Build_slist r l)
| A_remove : forall r l l' v x, taken (fun x => eqb x v) l x l' -> allowed (Build_slist r l) (Remove v) Done (Build_slist r l')
| A_extend : forall r l l' i, Permutation l' (all_of i ++ l) -> allowed (Build_slist r l) (Extend i) Done (Build_slist r l')
| A_reverse : forall r r' l l', Permutation l' l -> allowed (Build_slist r l) (Set_reverse r') Done (Build_slist r' l')
| A_resort : forall r l l', Permutation l' l -> allowed (Build_slist r l) Resort Done (Build_slist r l')
| A_contains : forall s v b, (b = true <-> has (fun x => eqb x v) (elements s)) -> allowed s (Contains v) (Yes b) s
| A_index_no : forall s v, ~ has (fun x => eqb x v) (elements s) -> allowed s (Index v) (At None) s
| A_index : forall s v a x b, elements s = a ++ x :: b -> eqb x v = true -> ~ has (fun x => eqb x v) a ->
    allowed s (Index v) (At (Some (length a))) s
| A_relative : forall s v a b, elements s = a ++ b ->
    Forall (fun x => (if reversed s then lt v x else lt x v) = true) a -> Forall (fun x => (if reversed s then lt v x else lt x v) = false) b ->
    allowed s (Relative_index v) (Number (length a)) s
| A_get_no : forall s k, ~ has (fun x => eqU (key x) k) (elements s) -> allowed s (Get k) (Found None) s
| A_get : forall s k x, In x (elements s) -> eqU (key x) k = true -> allowed s (Get k) (Found (Some x)) s
| A_pop_no : forall s k, ~ has (fun x => eqU (key x) k) (elements s) -> allowed s (Pop k) (Found None) s
| A_pop : forall r l l' k x, taken (fun x => eqU (key x) k) l x l' -> allowed (Build_slist r l) (Pop k) (Found (Some x)) (Build_slist r l').

Inductive history : slist T -> list (op T U) -> list (out T) -> slist T -> Prop :=
| H_nil : forall s, history s [] [] s
| H_cons : forall s o r s1 os rs s2, allowed s o r s1 -> in_order (reversed s1) (elements s1) -> history s1 os rs s2 -> history s (o :: os) (r :: rs) s2.

(** The SortedList-s which are given as iterable are in order. *)
Definition sound (o : op T U) : Prop := match o with Extend (Sorted_list s) => in_order (reversed s) (elements s) | _ => True end.
End Spec.
