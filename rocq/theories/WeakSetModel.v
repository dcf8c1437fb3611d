(** Model of [WeakSet] (scarletio/utils/weak_set.py), with [add_to_pending_removals] of scarletio/utils/weak_core.py 93-113.

    Objects are numbers and are compared by identity. Variables, which are numbers too, hold weak sets. A running iteration over
    a set is a suspended generator; only their number is kept, not where they are. Garbage collection is the operation [WDie l],
    between two operations; only [copy_loop] lets objects die within an operation. The order of the underlying [set] is that of
    a list.

    Not modelled: operands which are not weak sets, objects which can not be referred to weakly, [__repr__] and [__reduce__].
    When a variable gets a new set the iterations over the earlier one are forgotten. *)

From Coq Require Import List Arith Bool.
Import ListNotations.

(** A reference: which one it is, and to what. *)
Definition ref := (nat * nat)%type.

Record wset := mk_wset {
  tab : list ref;    (* the underlying set *)
  pend : list ref;   (* _pending_removals, [] for None *)
  iters : nat        (* _iterating *)
}.

Record world := mk_world { sets : nat -> wset; gone : list nat; fresh : nat }.

Definition mem (o : nat) (l : list nat) : bool := existsb (Nat.eqb o) l.
Definition live (d : list nat) (r : ref) : bool := negb (mem (snd r) d).
Definition same_ref (a b : ref) : bool := (fst a =? fst b) && (snd a =? snd b).

(** Equality of references: by what they refer to if both are alive, by identity otherwise. *)
Definition ref_eqb (d : list nat) (a b : ref) : bool := same_ref a b || live d a && live d b && (snd a =? snd b).

Definition no_set : wset := mk_wset [] [] 0.
Definition init : world := mk_world (fun _ => no_set) [] 0.

Definition store (w : world) (s : nat) (x : wset) : world :=
  mk_world (fun t => if t =? s then x else sets w t) (gone w) (fresh w).

(** weak_core.py 93-113 *)
Definition add_pending (x : wset) (r : ref) : wset :=
  mk_wset (tab x) (if existsb (same_ref r) (pend x) then pend x else pend x ++ [r]) (iters x).

(** set.discard *)
Definition set_discard (d : list nat) (x : wset) (r : ref) : wset :=
  mk_wset (filter (fun q => negb (ref_eqb d q r)) (tab x)) (pend x) (iters x).

(** _commit_removals, 83-101 *)
Definition commit (d : list nat) (x : wset) : wset :=
  match iters x with
  | 0 => fold_left (set_discard d) (pend x) (mk_wset (tab x) [] 0)
  | _ => x
  end.

Definition elements (d : list nat) (x : wset) : list nat := map snd (filter (live d) (tab x)).

(** __iter__, 330-355, from its start to its end *)
Definition iterate (d : list nat) (x : wset) : wset * list nat :=
  let y := fold_left (fun y r => if live d r then y else add_pending y r) (tab x) x in
  (commit d y, elements d x).

(** __contains__, 135-143; the object is alive *)
Definition contains (d : list nat) (x : wset) (o : nat) : bool := existsb (fun r => live d r && (snd r =? o)) (tab x).

(** add, 658-674: set.add keeps the element which is there *)
Definition add (d : list nat) (n : nat) (x : wset) (o : nat) : wset :=
  if contains d x o then x else mk_wset (tab x ++ [(n, o)]) (pend x) (iters x).

(** discard, 772-787 *)
Definition discard (d : list nat) (x : wset) (o : nat) : wset :=
  mk_wset (filter (fun r => negb (live d r && (snd r =? o))) (tab x)) (pend x) (iters x).

Fixpoint take_nth (n : nat) (l : list ref) : option (ref * list ref) :=
  match l with
  | [] => None
  | r :: l => match n with
              | 0 => Some (r, l)
              | S n => match take_nth n l with Some (q, l) => Some (q, r :: l) | None => Some (r, l) end
              end
  end.

(** pop, 992-1012; [which] chooses what set.pop takes *)
Fixpoint pop_loop (fuel : nat) (d : list nat) (which : list nat) (t : list ref) : list ref * option nat :=
  match fuel with
  | 0 => (t, None)
  | S fuel =>
      match take_nth (hd 0 which) t with
      | None => (t, None)
      | Some (r, t) => if live d r then (t, Some (snd r)) else pop_loop fuel d (tl which) t
      end
  end.

(** A new set of the objects [l], which are different ones; new references are counted from [n]. *)
Definition make (n : nat) (l : list nat) : wset := mk_wset (combine (seq n (length l)) l) [] 0.

Inductive op :=
| WAdd (s o : nat) | WDiscard (s o : nat) | WRemove (s o : nat) | WIn (s o : nat) | WLen (s : nat) | WPop (s : nat) (which : list nat)
| WClear (s : nat) | WList (s : nat) | WBegin (s : nat) | WEnd (s : nat) | WDie (l : list nat)
| WCopy (r s : nat) | WAnd (r s t : nat) | WOr (r s t : nat) | WSub (r s t : nat) | WXor (r s t : nat)
| WIAnd (s t : nat) | WIOr (s t : nat) | WISub (s t : nat) | WIXor (s t : nat)
| WEq (s t : nat) | WLe (s t : nat) | WDisjoint (s t : nat).

Inductive out := Done | KeyError | RuntimeError | ValueError | Impossible | Value (o : nat) | Is (b : bool) | Count (n : nat) | Values (l : list nat).

(** __len__, 423-431: a negative one is a ValueError *)
Definition len (x : wset) : out := if length (tab x) <? length (pend x) then ValueError else Count (length (tab x) - length (pend x)).

(** __eq__, 151-153: of the underlying sets *)
Definition below (d : list nat) (a b : list ref) : bool := forallb (fun r => existsb (ref_eqb d r) b) a.
Definition eq (d : list nat) (x y : wset) : bool := (length (tab x) =? length (tab y)) && below d (tab x) (tab y).
(** __le__, 403-407 *)
Definition le (d : list nat) (x y : wset) : bool := (length (tab x) <=? length (tab y)) && below d (tab x) (tab y).

(** __isub__, 309-316, difference_update, 758-760, of another set *)
Definition isub (d : list nat) (x y : wset) : wset := fold_left (set_discard d) (tab y) x.

(** __isub__ of itself: the set changes while it is iterated, which is noticed at the next step *)
Definition isub_self (x : wset) : wset * out :=
  match tab x with [] => (x, Done) | _ :: t => (mk_wset t (pend x) (iters x), RuntimeError) end.

(** __ixor__, 358-373, symmetric_difference_update, 1104-1116, of another set; new references are counted from [n] *)
Definition ixor_one (d : list nat) (p : wset * nat) (r : ref) : wset * nat :=
  let '(x, n) := p in
  if live d r then
    if existsb (fun q => ref_eqb d q r) (tab x) then (set_discard d x r, n) else (add d n x (snd r), S n)
  else (add_pending x r, n).
Definition ixor (d : list nat) (n : nat) (x y : wset) : wset * nat := fold_left (ixor_one d) (tab y) (x, n).

(** The same of itself. *)
Fixpoint ixor_self (d : list nat) (before : list ref) (t : list ref) (x : wset) : wset * out :=
  match t with
  | [] => (x, Done)
  | r :: t => if live d r then (mk_wset (before ++ t) (pend x) (iters x), RuntimeError) else ixor_self d (before ++ [r]) t (add_pending x r)
  end.

Definition add_all (d : list nat) (p : wset * nat) (l : list nat) : wset * nat :=
  fold_left (fun p o => let '(x, n) := p in (add d n x o, S n)) l p.

(** The callback of a reference, 36-53, of the references to the objects [l] *)
Definition die (l d : list nat) (x : wset) : wset :=
  let dying := filter (fun r => live d r && mem (snd r) l) (tab x) in
  match iters x with
  | 0 => mk_wset (filter (fun r => negb (live d r && mem (snd r) l)) (tab x)) (pend x) 0
  | _ => fold_left add_pending dying x
  end.

Definition iterate_at (w : world) (s : nat) : world * list nat :=
  let '(x, l) := iterate (gone w) (sets w s) in (store w s x, l).

Definition fill (w : world) (r : nat) (l : list nat) : world * out :=
  (mk_world (fun t => if t =? r then make (fresh w) l else sets w t) (gone w) (fresh w + length l), Done).

Definition step (w : world) (a : op) : world * out :=
  let d := gone w in
  match a with
  | WAdd s o =>
      if mem o d then (w, Impossible)
      else let w := store w s (add d (fresh w) (sets w s) o) in (mk_world (sets w) d (S (fresh w)), Done)
  | WDiscard s o => if mem o d then (w, Impossible) else (store w s (discard d (sets w s) o), Done)
  | WRemove s o =>                                                                   (* 1015-1035 *)
      if mem o d then (w, Impossible)
      else if contains d (sets w s) o then (store w s (discard d (sets w s) o), Done) else (w, KeyError)
  | WIn s o => if mem o d then (w, Impossible) else (w, Is (contains d (sets w s) o))
  | WLen s => (w, len (sets w s))
  | WPop s which =>
      let '(t, v) := pop_loop (length (tab (sets w s))) d which (tab (sets w s)) in
      (store w s (mk_wset t (pend (sets w s)) (iters (sets w s))), match v with Some o => Value o | None => KeyError end)
  | WClear s => (store w s (mk_wset [] [] (iters (sets w s))), Done)                 (* 677-681 *)
  | WList s => let '(w, l) := iterate_at w s in (w, Values l)
  | WBegin s => (store w s (mk_wset (tab (sets w s)) (pend (sets w s)) (S (iters (sets w s)))), Done)
  | WEnd s =>
      match iters (sets w s) with
      | 0 => (w, Done)
      | S n => (store w s (commit d (mk_wset (tab (sets w s)) (pend (sets w s)) n)), Done)
      end
  | WDie l => (mk_world (fun s => die l d (sets w s)) (l ++ d) (fresh w), Done)
  | WCopy r s => fill w r (elements d (sets w s))                                    (* 684-696 *)
  | WAnd r s t => fill w r (filter (contains d (sets w s)) (elements d (sets w t)))  (* 103-115, 811-820 *)
  | WOr r s t =>                                                                     (* 480-484, 1167-1171 *)
      let l := elements d (sets w s) in
      let '(w, k) := iterate_at w t in
      fill w r (l ++ filter (fun o => negb (mem o l)) k)
  | WSub r s t =>                                                                    (* 626-650, 719-739 *)
      let '(w, k) := iterate_at w t in
      let '(w, l) := iterate_at w s in
      fill w r (filter (fun o => negb (mem o k)) l)
  | WXor r s t =>                                                                    (* 588-616, 1059-1080 *)
      let '(w, k) := iterate_at w t in
      let '(w, l) := iterate_at w s in
      fill w r (filter (fun o => negb (mem o k)) l ++ filter (fun o => negb (mem o l)) k)
  | WIAnd s t =>                                                                     (* 221-247, 852-873 *)
      let '(w, k) := iterate_at w t in
      let '(w, l) := iterate_at w s in
      (store w s (fold_left (discard d) (filter (fun o => negb (mem o k)) l) (sets w s)), Done)
  | WIOr s t =>                                                                      (* 270-306, 1181-1199 *)
      let k := elements d (sets w t) in
      let '(x, n) := add_all d (sets w s, fresh w) k in
      let w := store w s x in
      let '(w, _) := iterate_at w t in
      (mk_world (sets w) d n, Done)
  | WISub s t =>
      if s =? t then let '(x, out) := isub_self (sets w s) in (store w s x, out)
      else (store w s (isub d (sets w s) (sets w t)), Done)
  | WIXor s t =>
      if s =? t then let '(x, out) := ixor_self d [] (tab (sets w s)) (sets w s) in (store w s x, out)
      else let '(x, n) := ixor d (fresh w) (sets w s) (sets w t) in
           let w := store w s x in (mk_world (sets w) d n, Done)
  | WEq s t => (w, Is (eq d (sets w s) (sets w t)))
  | WLe s t => (w, Is (le d (sets w s) (sets w t)))                                  (* also 938-939 *)
  | WDisjoint s t =>                                                                 (* 897-915 *)
      let '(w, k) := iterate_at w t in
      let '(w, l) := iterate_at w s in
      (w, Is (forallb (fun o => negb (mem o k)) l))
  end.

Fixpoint run (w : world) (l : list op) : world * list out :=
  match l with
  | [] => (w, [])
  | a :: l => let '(w, o) := step w a in let '(w, os) := run w l in (w, o :: os)
  end.

(** copy, 684-696, in which objects die: [deaths n] before the n-th step. The set is not marked as iterated, so they are
    removed at once; the iterator notices that at its next step. [None]: RuntimeError. *)
Fixpoint copy_loop (n : nat) (deaths : nat -> list nat) (d : list nat) (x : wset) (rest : list ref) (acc : list nat) : option (list nat) :=
  let x' := die (deaths n) d x in
  let d' := deaths n ++ d in
  if length (tab x') =? length (tab x) then
    match rest with
    | [] => Some acc
    | r :: rest => copy_loop (S n) deaths d' x' rest (if live d' r then acc ++ [snd r] else acc)
    end
  else None.
Definition copy (deaths : nat -> list nat) (d : list nat) (x : wset) : option (list nat) := copy_loop 0 deaths d x (tab x) [].
