(** Model of SortedList: /repo/scarletio/utils/sorted_list.py:7-392.

    [lt] and [eqb] are the comparisons of the elements, [ltU] and [eqU] those of the keys of [keyed_relative_index], [get] and [pop].
    [sorted] is modelled by insertion; only that its result is a sorted permutation is used. *)

From Coq Require Import List Arith Bool NArith.
Import ListNotations.

Section Sorted.
Variables (T U : Type) (lt eqb : T -> T -> bool) (key : T -> U) (ltU eqU : U -> U -> bool).

Record slist := { reversed : bool; elements : list T }.

(** The loops of relative_index, :245-266, keyed_relative_index, :288-308, and extend, :169-180 and :190-200. [p]: the comparison of the
    element at [half] with the value is true. *)
Fixpoint bisect (fuel : nat) (p : T -> bool) (l : list T) (bot top : nat) : nat :=
  match fuel with
  | 0 => bot
  | S fuel =>
      if Nat.ltb bot top then
        let half := Nat.div2 (bot + top) in
        match nth_error l half with
        | None => bot (* IndexError *)
        | Some x => if p x then bisect fuel p l (half + 1) top else bisect fuel p l bot half
        end
      else bot
  end.

(** [self[half] > value] or [self[half] < value] *)
Definition before (r : bool) (value x : T) : bool := if r then lt value x else lt x value.
Definition before_key (r : bool) (value : U) (x : T) : bool := if r then ltU value (key x) else ltU (key x) value.

Definition relative_index (s : slist) (value : T) : nat :=
  bisect (length (elements s)) (before (reversed s) value) (elements s) 0 (length (elements s)).
Definition keyed_relative_index (s : slist) (value : U) : nat :=
  bisect (length (elements s)) (before_key (reversed s) value) (elements s) 0 (length (elements s)).

Definition insert_at (i : nat) (v : T) (l : list T) : list T := firstn i l ++ v :: skipn i l.
Definition replace_at (i : nat) (v : T) (l : list T) : list T := firstn i l ++ v :: skipn (S i) l.
Definition delete_at (i : nat) (l : list T) : list T := firstn i l ++ skipn (S i) l.

Definition with_elements (s : slist) (l : list T) : slist := {| reversed := reversed s; elements := l |}.

(** add, :95-119 *)
Definition add (s : slist) (value : T) : slist :=
  let index := relative_index s value in
  with_elements s
    match nth_error (elements s) index with
    | None => elements s ++ [value]
    | Some element => if eqb element value then replace_at index value (elements s) else insert_at index value (elements s)
    end.

(** remove, :122-145 *)
Definition remove (s : slist) (value : T) : slist :=
  let index := relative_index s value in
  match nth_error (elements s) index with
  | None => s
  | Some element => if eqb element value then with_elements s (delete_at index (elements s)) else s
  end.

(** [sorted(iterable, reverse = r)] *)
Fixpoint insort (r : bool) (v : T) (l : list T) : list T :=
  match l with [] => [v] | x :: l' => if before r v x then x :: insort r v l' else v :: l end.
Definition sorted (r : bool) (l : list T) : list T := fold_right (insort r) [] l.

(** What extend is given: any iterable, or a SortedList. *)
Inductive iterable := Plain (l : list T) | Sorted_list (s : slist).

(** extend, :161-167 and :182-188 *)
Definition extend_order (r : bool) (i : iterable) : list T :=
  match i with
  | Plain l => sorted r l
  | Sorted_list s => if Bool.eqb (reversed s) r then elements s else rev (elements s)
  end.

(** extend, :168-181 and :190-202; [bot] stays between the values *)
Fixpoint extend_loop (r : bool) (values : list T) (l : list T) (bot : nat) : list T :=
  match values with
  | [] => l
  | value :: values =>
      let bot := bisect (length l) (before r value) l bot (length l) in
      extend_loop r values (insert_at bot value l) bot
  end.
Definition extend (s : slist) (i : iterable) : slist :=
  with_elements s (extend_loop (reversed s) (extend_order (reversed s) i) (elements s) 0).

(** extend of the list itself: the iterator of the list reads the list which grows. [None]: not ended within [fuel] steps. *)
Fixpoint extend_self (fuel : nat) (r : bool) (i : nat) (l : list T) (bot : nat) : option (list T) :=
  match nth_error l i with
  | None => Some l
  | Some value =>
      match fuel with
      | 0 => None
      | S fuel => let bot := bisect (length l) (before r value) l bot (length l) in extend_self fuel r (S i) (insert_at bot value l) bot
      end
  end.

(** __init__, :30-45 *)
Definition init (i : option iterable) (r : bool) : slist :=
  match i with
  | None => {| reversed := r; elements := [] |}
  | Some i => let s := extend {| reversed := r; elements := [] |} i in with_elements s (sorted r (elements s))
  end.

(** __contains__, :205-215 *)
Definition contains (s : slist) (value : T) : bool :=
  match nth_error (elements s) (relative_index s value) with None => false | Some x => eqb x value end.

(** index, :218-225; [None]: ValueError *)
Definition index (s : slist) (value : T) : option nat :=
  let index := relative_index s value in
  match nth_error (elements s) index with None => None | Some x => if eqb x value then Some index else None end.

(** get, :334-361, and pop, :364-392; [None]: the default *)
Definition get (s : slist) (value : U) : option T :=
  match nth_error (elements s) (keyed_relative_index s value) with
  | None => None
  | Some element => if eqU (key element) value then Some element else None
  end.
Definition pop (s : slist) (value : U) : slist * option T :=
  let index := keyed_relative_index s value in
  match nth_error (elements s) index with
  | None => (s, None)
  | Some element => if eqU (key element) value then (with_elements s (delete_at index (elements s)), Some element) else (s, None)
  end.

Inductive op :=
| Add (v : T) | Remove (v : T) | Extend (i : iterable) | Set_reverse (r : bool) | Resort
| Contains (v : T) | Index (v : T) | Relative_index (v : T) | Get (k : U) | Pop (k : U).
Inductive out := Done | Yes (b : bool) | At (i : option nat) | Number (n : nat) | Found (x : option T).

Definition step (s : slist) (o : op) : slist * out :=
  match o with
  | Add v => (add s v, Done)
  | Remove v => (remove s v, Done)
  | Extend i => (extend s i, Done)
  | Set_reverse r => (if Bool.eqb (reversed s) r then s else {| reversed := r; elements := rev (elements s) |}, Done) (* :87-93 *)
  | Resort => (with_elements s (sorted (reversed s) (elements s)), Done)                                              (* :326-331 *)
  | Contains v => (s, Yes (contains s v))
  | Index v => (s, At (index s v))
  | Relative_index v => (s, Number (relative_index s v))
  | Get k => (s, Found (get s k))
  | Pop k => let '(s, x) := pop s k in (s, Found x)
  end.

Fixpoint run (s : slist) (os : list op) : slist * list out :=
  match os with [] => (s, []) | o :: os' => let '(s1, r) := step s o in let '(s2, rs) := run s1 os' in (s2, r :: rs) end.
End Sorted.

Arguments reversed {T}. Arguments elements {T}. Arguments Build_slist {T}.
Arguments Plain {T}. Arguments Sorted_list {T}.
Arguments Add {T U}. Arguments Remove {T U}. Arguments Extend {T U}. Arguments Set_reverse {T U}. Arguments Resort {T U}. Arguments Contains {T U}.
Arguments Index {T U}. Arguments Relative_index {T U}. Arguments Get {T U}. Arguments Pop {T U}.
Arguments Done {T}. Arguments Yes {T}. Arguments At {T}. Arguments Number {T}. Arguments Found {T}.
