(** What sets of vanishing objects are: sets from which an object disappears when it dies. Nothing here knows about references,
    callbacks or pending removals. *)

From Coq Require Import List Arith Bool.
From Verif Require Import WeakSetModel.
Import ListNotations.

(** Which objects a variable's set has, how many iterations over it are open, and which objects are dead. *)
Record aworld := mk_aworld { has : nat -> nat -> bool; opened : nat -> nat; dead : list nat }.

Definition abs_init : aworld := mk_aworld (fun _ _ => false) (fun _ => 0) [].

Definition change {A} (f : nat -> A) (s : nat) (v : A) : nat -> A := fun t => if t =? s then v else f t.

(** [s] gets the members [f]; it is the same set as before, or a new one. *)
Definition update (m : aworld) (s : nat) (f : nat -> bool) : aworld := mk_aworld (change (has m) s f) (opened m) (dead m).
Definition renew (m : aworld) (s : nat) (f : nat -> bool) : aworld := mk_aworld (change (has m) s f) (change (opened m) s 0) (dead m).
Definition reopen (m : aworld) (s n : nat) : aworld := mk_aworld (has m) (change (opened m) s n) (dead m).

Definition lists (f : nat -> bool) (l : list nat) : Prop := NoDup l /\ forall o, In o l <-> f o = true.
Definition size (f : nat -> bool) (n : nat) : Prop := exists l, lists f l /\ length l = n.
Definition empty (f : nat -> bool) : Prop := forall o, f o = false.

(** [after m a x m']: the operation [a] on the sets [m] may give [x] and leaves the sets [m']. The result of [len] is not
    restricted here; comparisons are while neither of the sets is iterated. *)
Inductive after (m : aworld) : op -> out -> aworld -> Prop :=
| A_dead s o a : In a [WAdd s o; WDiscard s o; WRemove s o; WIn s o] -> mem o (dead m) = true -> after m a Impossible m
| A_add s o : mem o (dead m) = false -> after m (WAdd s o) Done (update m s (fun q => (q =? o) || has m s q))
| A_discard s o : mem o (dead m) = false -> after m (WDiscard s o) Done (update m s (fun q => negb (q =? o) && has m s q))
| A_remove s o : mem o (dead m) = false -> has m s o = true -> after m (WRemove s o) Done (update m s (fun q => negb (q =? o) && has m s q))
| A_remove_missing s o : mem o (dead m) = false -> has m s o = false -> after m (WRemove s o) KeyError m
| A_in s o : mem o (dead m) = false -> after m (WIn s o) (Is (has m s o)) m
| A_len s x : x = ValueError \/ (exists n, x = Count n) -> after m (WLen s) x m
| A_pop s which o : has m s o = true -> after m (WPop s which) (Value o) (update m s (fun q => negb (q =? o) && has m s q))
| A_pop_empty s which : empty (has m s) -> after m (WPop s which) KeyError m
| A_clear s : after m (WClear s) Done (update m s (fun _ => false))
| A_list s l : lists (has m s) l -> after m (WList s) (Values l) m
| A_begin s : after m (WBegin s) Done (reopen m s (S (opened m s)))
| A_end s : after m (WEnd s) Done (reopen m s (opened m s - 1))
| A_die l : after m (WDie l) Done (mk_aworld (fun s o => negb (mem o l) && has m s o) (opened m) (l ++ dead m))
| A_copy r s : after m (WCopy r s) Done (renew m r (has m s))
| A_and r s t : after m (WAnd r s t) Done (renew m r (fun q => has m s q && has m t q))
| A_or r s t : after m (WOr r s t) Done (renew m r (fun q => has m s q || has m t q))
| A_sub r s t : after m (WSub r s t) Done (renew m r (fun q => has m s q && negb (has m t q)))
| A_xor r s t : after m (WXor r s t) Done (renew m r (fun q => xorb (has m s q) (has m t q)))
| A_iand s t : after m (WIAnd s t) Done (update m s (fun q => has m s q && has m t q))
| A_ior s t : after m (WIOr s t) Done (update m s (fun q => has m s q || has m t q))
| A_isub s t : after m (WISub s t) Done (update m s (fun q => has m s q && negb (has m t q)))
| A_ixor s t : after m (WIXor s t) Done (update m s (fun q => xorb (has m s q) (has m t q)))
| A_eq s t b : (opened m s = 0 -> opened m t = 0 -> b = true <-> forall q, has m s q = has m t q) -> after m (WEq s t) (Is b) m
| A_le s t b : (opened m s = 0 -> opened m t = 0 -> b = true <-> forall q, has m s q = true -> has m t q = true) -> after m (WLe s t) (Is b) m
| A_disjoint s t b : (b = true <-> forall q, has m s q = true -> has m t q = false) -> after m (WDisjoint s t) (Is b) m.

Definition alike (m m' : aworld) : Prop :=
  (forall s o, has m s o = has m' s o) /\ (forall s, opened m s = opened m' s) /\ dead m = dead m'.

Inductive history : aworld -> list op -> list out -> aworld -> Prop :=
| H_nil m m' : alike m m' -> history m [] [] m'
| H_cons m a x m1 m2 l xs m' : after m a x m1 -> alike m1 m2 -> history m2 l xs m' -> history m (a :: l) (x :: xs) m'.

(** The operations which change a set in place by itself are left out. *)
Definition apart (a : op) : Prop := match a with WISub s t | WIXor s t => s <> t | _ => True end.

(** How many iterations over [s] are open after the operations. *)
Definition opened_by (s : nat) (a : op) (n : nat) : nat :=
  match a with
  | WBegin t => if t =? s then S n else n
  | WEnd t => if t =? s then n - 1 else n
  | WCopy r _ | WAnd r _ _ | WOr r _ _ | WSub r _ _ | WXor r _ _ => if r =? s then 0 else n
  | _ => n
  end.
Definition open_after (l : list op) (s : nat) : nat := fold_left (fun n a => opened_by s a n) l 0.

(** Nothing is popped from a set while it is iterated, nor is a set changed by [-=] or [^=] with another one which is iterated. *)
Definition calm (l : list op) : Prop :=
  forall before a rest, l = before ++ a :: rest ->
    match a with WPop s _ => open_after before s = 0 | WISub _ t | WIXor _ t => open_after before t = 0 | _ => True end.
