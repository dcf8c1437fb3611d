From Coq Require Import List Arith Bool.
From Verif Require Import WeakSetModel WeakSetSpec WeakSetProofs.
Import ListNotations.

(** * C155: a weak set is a set from which objects disappear when they die *)

(** All results, in every order of operations, deaths and iterations, are those of sets without references. *)
Theorem C155_set_partial : forall l, Forall apart l -> exists m, history abs_init l (snd (run init l)) m.
Proof. exact weak_sets. Qed.
Print Assumptions C155_set_partial.

(** What the sets have at the end follows from what was done and from the results. *)
Theorem C155_determined : forall l xs m1 m2, history abs_init l xs m1 -> history abs_init l xs m2 -> alike m1 m2.
Proof. exact weak_determined. Qed.
Print Assumptions C155_determined.

Example C155_nonvacuous :
  let l := [WAdd 0 1; WAdd 0 2; WAdd 0 3; WAdd 1 3; WAdd 1 4; WBegin 0; WDie [2]; WIn 0 1; WIn 0 2; WList 0; WIAnd 0 1; WEnd 0; WXor 2 0 1; WList 0; WList 2; WPop 0 []] in
  Forall apart l /\
  snd (run init l) = [Done; Done; Done; Done; Done; Done; Done; Is true; Impossible; Values [1; 3]; Done; Done; Done; Values [3]; Values [4]; Value 3].
Proof. split; [repeat constructor|vm_compute; reflexivity]. Qed.

(** * C156: the length of a weak set is the number of its live elements *)

Theorem C156_len_partial : forall l s m, Forall apart l -> calm l -> history abs_init l (snd (run init l)) m ->
  exists n, size (has m s) n /\ snd (run init (l ++ [WLen s])) = snd (run init l) ++ [Count n].
Proof. exact len_right. Qed.
Print Assumptions C156_len_partial.

Example C156_nonvacuous :
  let l := [WAdd 0 1; WAdd 0 2; WAdd 0 3; WBegin 0; WDie [2]; WDiscard 0 1; WAdd 0 5; WAdd 0 6] in
  Forall apart l /\ calm l /\ snd (run init (l ++ [WLen 0])) = [Done; Done; Done; Done; Done; Done; Done; Done; Count 3].
Proof.
  split; [repeat constructor|]. split; [|vm_compute; reflexivity].
  intros before a rest E. assert (M : In a (before ++ a :: rest)) by (apply in_or_app; right; left; reflexivity). rewrite <- E in M. cbn in M.
  repeat (destruct M as [<-|M]; [exact I|]). contradiction.
Qed.

(** [s ^= t] while [t] is iterated and one of its elements has died enters the dead reference of [t] among the pending removals
    of [s], whose length becomes too small: it is 0 although the set has an element. *)
Theorem C156_xor_refuted : exists l s m, Forall apart l /\ history abs_init l (snd (run init l)) m /\ has m s 1 = true /\
  snd (run init (l ++ [WLen s])) = snd (run init l) ++ [Count 0].
Proof.
  exists [WAdd 0 1; WAdd 1 2; WBegin 1; WDie [2]; WIXor 0 1], 0.
  assert (F : Forall apart [WAdd 0 1; WAdd 1 2; WBegin 1; WDie [2]; WIXor 0 1]) by (repeat constructor; cbn; discriminate).
  destruct (weak_sets _ F) as (m & H). exists m. split; [exact F|]. split; [exact H|]. split; [|vm_compute; reflexivity].
  destruct (alike_abs _ m F H) as (E & _). rewrite E. reflexivity.
Qed.
Print Assumptions C156_xor_refuted.

(** For an empty set it becomes negative, so [len] raises a ValueError, as does the use of the set in a condition. *)
Theorem C156_negative_refuted : exists l s, Forall apart l /\ snd (run init (l ++ [WLen s])) = snd (run init l) ++ [ValueError].
Proof.
  exists [WAdd 1 2; WBegin 1; WDie [2]; WIXor 0 1], 0. split; [repeat constructor; cbn; discriminate|vm_compute; reflexivity].
Qed.
Print Assumptions C156_negative_refuted.

(** [pop] within an iteration drops dead references which are pending, and leaves them pending. *)
Theorem C156_pop_refuted : exists l s m, Forall apart l /\ history abs_init l (snd (run init l)) m /\ size (has m s) 1 /\
  snd (run init (l ++ [WLen s])) = snd (run init l) ++ [Count 0].
Proof.
  exists [WAdd 0 1; WAdd 0 2; WAdd 0 3; WBegin 0; WDie [1]; WPop 0 []], 0.
  assert (F : Forall apart [WAdd 0 1; WAdd 0 2; WAdd 0 3; WBegin 0; WDie [1]; WPop 0 []]) by repeat constructor.
  destruct (weak_sets _ F) as (m & H). exists m. split; [exact F|]. split; [exact H|]. split; [|vm_compute; reflexivity].
  destruct (alike_abs _ m F H) as (E & _). exists [3]. split; [|reflexivity]. split; [repeat constructor; intros []|]. intros o. rewrite E. cbn.
  rewrite orb_false_r, Nat.eqb_eq. split; [intros [->|[]]; reflexivity|auto].
Qed.
Print Assumptions C156_pop_refuted.

(** * C157: comparisons of weak sets *)

(** [s == t] and [s <= t] of sets over which no iteration is running *)
Theorem C157_compare_partial : forall l s t m, Forall apart l -> history abs_init l (snd (run init l)) m -> open_after l s = 0 -> open_after l t = 0 ->
  exists b c, snd (run init (l ++ [WEq s t; WLe s t])) = snd (run init l) ++ [Is b; Is c] /\
    (b = true <-> forall q, has m s q = has m t q) /\ (c = true <-> forall q, has m s q = true -> has m t q = true).
Proof. exact compare_right. Qed.
Print Assumptions C157_compare_partial.

Example C157_nonvacuous :
  let l := [WAdd 0 1; WAdd 0 2; WBegin 0; WDie [2]; WEnd 0; WAdd 1 3; WAdd 1 1] in
  Forall apart l /\ open_after l 0 = 0 /\ open_after l 1 = 0 /\
  snd (run init (l ++ [WEq 0 1; WLe 0 1; WLe 1 0; WDiscard 1 3; WEq 0 1])) = [Done; Done; Done; Done; Done; Done; Done; Is false; Is true; Is false; Done; Is true].
Proof. split; [repeat constructor|]. vm_compute. auto. Qed.

(** While one of them is iterated, an element which has died since still counts: sets with the same elements are not equal, and
    the one is not part of the other. *)
Theorem C157_iterated_refuted : exists l s t m, Forall apart l /\ history abs_init l (snd (run init l)) m /\ (forall q, has m s q = has m t q) /\
  snd (run init (l ++ [WEq s t; WLe s t])) = snd (run init l) ++ [Is false; Is false].
Proof.
  exists [WAdd 0 1; WAdd 0 2; WAdd 1 1; WBegin 0; WDie [2]], 0, 1.
  assert (F : Forall apart [WAdd 0 1; WAdd 0 2; WAdd 1 1; WBegin 0; WDie [2]]) by repeat constructor.
  destruct (weak_sets _ F) as (m & H). exists m. split; [exact F|]. split; [exact H|]. split; [|vm_compute; reflexivity].
  destruct (alike_abs _ m F H) as (E & _). intros q. rewrite !E. reflexivity.
Qed.
Print Assumptions C157_iterated_refuted.

(** * C158: a weak set changed by itself *)

(** [s -= s] of a set over which no iteration is running works only if there is nothing to do. *)
Theorem C158_sub_self : forall l s m, Forall apart l -> history abs_init l (snd (run init l)) m -> open_after l s = 0 ->
  exists x, snd (run init (l ++ [WISub s s])) = snd (run init l) ++ [x] /\
    (x = Done <-> empty (has m s)) /\ (x = RuntimeError <-> ~ empty (has m s)).
Proof. exact isub_self_right. Qed.
Print Assumptions C158_sub_self.

(** [s -= s] and [s ^= s] should leave an empty set: a RuntimeError comes, after one of the elements is removed. *)
Theorem C158_self_refuted : exists l s, Forall apart l /\
  snd (run init (l ++ [WISub s s; WList s])) = snd (run init l) ++ [RuntimeError; Values [2; 3]] /\
  snd (run init (l ++ [WIXor s s; WList s])) = snd (run init l) ++ [RuntimeError; Values [2; 3]].
Proof. exists [WAdd 0 1; WAdd 0 2; WAdd 0 3], 0. split; [repeat constructor|]. vm_compute. auto. Qed.
Print Assumptions C158_self_refuted.

Example C158_nonvacuous :
  snd (run init [WAdd 0 1; WDie [1]; WISub 0 0; WAdd 0 2; WISub 0 0]) = [Done; Done; Done; Done; RuntimeError].
Proof. vm_compute. reflexivity. Qed.

(** * C159: copies of weak sets *)

(** While no element dies the copy has the elements of the set. *)
Theorem C159_copy_partial : forall l s m deaths, Forall apart l -> history abs_init l (snd (run init l)) m -> open_after l s = 0 ->
  (forall n o, In o (deaths n) -> has m s o = false) ->
  exists k, copy deaths (gone (fst (run init l))) (sets (fst (run init l)) s) = Some k /\ lists (has m s) k.
Proof. exact copy_right. Qed.
Print Assumptions C159_copy_partial.

(** If one dies meanwhile, a RuntimeError comes: the set is not marked as iterated. *)
Theorem C159_copy_refuted : exists l s deaths, Forall apart l /\ copy deaths (gone (fst (run init l))) (sets (fst (run init l)) s) = None.
Proof. exists [WAdd 0 1; WAdd 0 2], 0, (fun n => match n with 1 => [2] | _ => [] end). split; [repeat constructor|reflexivity]. Qed.
Print Assumptions C159_copy_refuted.

Example C159_nonvacuous :
  let w := fst (run init [WAdd 0 1; WAdd 0 2; WAdd 0 3; WDie [2]]) in
  copy (fun n => match n with 1 => [7] | _ => [] end) (gone w) (sets w 0) = Some [1; 3].
Proof. reflexivity. Qed.
