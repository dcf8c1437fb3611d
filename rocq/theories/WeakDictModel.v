(** Model of [WeakValueDictionary] (scarletio/utils/weak_value_dictionary.py) and
    [HybridValueDictionary] (scarletio/utils/hybrid_value_dictionary.py), with the
    helpers of scarletio/utils/weak_core.py.

    Keys and objects are numbers.  [weakable o] tells whether an object is stored
    weakly ([is_weakreferable], weak_core.py 14-34); in a [WeakValueDictionary] it
    is true of every object which can be stored at all.  [hybrid] tells which of
    the two classes is meant, they differ in [pop] only.

    A running iteration is a suspended generator; its local variable keeps the
    last yielded reference alive.  Garbage collection is the operation [WDie l]:
    the weak references to the objects [l] are cleared at once and then their
    callbacks are called.  An object which is stored strongly never dies.

    Simplified: when keys were both removed and added between two steps of an
    iteration without changing the size, CPython continues at a position of its
    own choice; that position is a parameter of the step.  [update], [repr] and
    comparison are not modelled.  Values are compared by identity. *)
From Coq Require Import List ZArith Bool Arith Lia.
Import ListNotations.

(** KeyedReferer, weak_core.py 150-177.  [r_hashed] tells whether the hash of the
    reference is known: hashing asks the object, which fails once it is dead,
    unless it was done before.  [KeyedReferer.__new__] does not hash. *)
Record ref := { r_id : nat; r_target : nat; r_key : nat; r_hashed : bool }.

Definition ref_eqb (a b : ref) : bool :=
  (r_id a =? r_id b) && (r_target a =? r_target b) && (r_key a =? r_key b) && Bool.eqb (r_hashed a) (r_hashed b).

(** A value of the underlying dict: a reference, or the object itself
    (hybrid_value_dictionary.py 395-404). *)
Inductive entry := Weak (r : ref) | Strong (o : nat).

(** A member of [_pending_removals]: a reference, or a [WeakHasher] around it
    (weak_core.py 38-79). *)
Inductive pending := PRef (r : ref) | PHasher (r : ref).

Definition pending_ref (p : pending) : ref := match p with PRef r => r | PHasher r => r end.

(** Equality in the set: dead references are equal if identical; WeakHasher.__eq__, 70-79. *)
Definition pending_eqb (a b : pending) : bool :=
  match a, b with
  | PRef r, PRef q => ref_eqb r q
  | PHasher r, PHasher q => ref_eqb r q
  | PHasher r, PRef q => ref_eqb r q
  | PRef r, PHasher q => ref_eqb r q
  end.

(** A started iteration: the generator's name, its position in the dict, the size and the version
    of the keys of the dict when the position was valid, and the reference it holds. *)
Record gen := { g_name : nat; g_pos : nat; g_size : nat; g_ver : nat; g_held : option ref }.

Record wdict := {
  tab : list (nat * entry);  (* the underlying dict, in its order *)
  pend : list pending;       (* _pending_removals, [] for None *)
  gens : list gen;           (* the running iterations; _iterating is their number *)
  dead : list nat;           (* the objects which are gone *)
  fresh : nat;               (* names of references *)
  ver : nat                  (* counts the changes of the set of keys *)
}.

Definition w_init : wdict := {| tab := []; pend := []; gens := []; dead := []; fresh := 0; ver := 0 |}.

Section WeakDict.
Variable hybrid : bool.
Variable weakable : nat -> bool.

Definition mem (o : nat) (l : list nat) : bool := existsb (Nat.eqb o) l.
Definition alive (d : list nat) (o : nat) : bool := negb (weakable o && mem o d).
(** Calling a reference: [None] for a dead one. *)
Definition deref (d : list nat) (e : entry) : option nat :=
  match e with
  | Weak r => if alive d (r_target r) then Some (r_target r) else None
  | Strong o => Some o
  end.

Fixpoint lookup (k : nat) (t : list (nat * entry)) : option entry :=
  match t with [] => None | (x, e) :: r => if x =? k then Some e else lookup k r end.
(** dict.__setitem__: the position of an existing key does not change. *)
Fixpoint put (k : nat) (e : entry) (t : list (nat * entry)) : list (nat * entry) :=
  match t with [] => [(k, e)] | (x, f) :: r => if x =? k then (x, e) :: r else (x, f) :: put k e r end.
(** dict.__delitem__ *)
Fixpoint del (k : nat) (t : list (nat * entry)) : list (nat * entry) :=
  match t with [] => [] | (x, f) :: r => if x =? k then r else (x, f) :: del k r end.

(** Deleting a key from the underlying dict. *)
Definition s_del (k : nat) (s : wdict) : wdict :=
  {| tab := del k (tab s); pend := pend s; gens := gens s; dead := dead s; fresh := fresh s; ver := S (ver s) |}.

(** add_to_pending_removals, weak_core.py 93-113: a reference which cannot be hashed is wrapped. *)
Definition add_pending (r : ref) (s : wdict) : wdict :=
  let p := if r_hashed r then PRef r else PHasher r in
  {| tab := tab s; pend := if existsb (pending_eqb p) (pend s) then pend s else pend s ++ [p];
     gens := gens s; dead := dead s; fresh := fresh s; ver := ver s |}.

(** [actual_value_reference is not value_reference]: a [WeakHasher] is no reference
    (weak_value_dictionary.py 231; hybrid_value_dictionary.py 190-198). *)
Definition same_object (e : entry) (p : pending) : bool :=
  match e, p with Weak r, PRef q => ref_eqb r q | _, _ => false end.

(** _commit_removals: weak_value_dictionary.py 211-237; hybrid_value_dictionary.py 172-202. *)
Definition commit_one (s : wdict) (p : pending) : wdict :=
  match lookup (r_key (pending_ref p)) (tab s) with
  | None => s
  | Some e => if same_object e p then s_del (r_key (pending_ref p)) s else s
  end.
Definition commit (s : wdict) : wdict :=
  match gens s with
  | _ :: _ => s
  | [] => fold_left commit_one (pend s)
            {| tab := tab s; pend := []; gens := gens s; dead := dead s; fresh := fresh s; ver := ver s |}
  end.

(** What is done about a dead reference found under a key: weak_value_dictionary.py 252-255,
    297-300, 495-498; hybrid_value_dictionary.py 218-221, 263-266, 477-480. *)
Definition found_dead (k : nat) (r : ref) (s : wdict) : wdict :=
  match gens s with _ :: _ => add_pending r s | [] => s_del k s end.

(** __setitem__: weak_value_dictionary.py 422-424; hybrid_value_dictionary.py 395-404. *)
Definition set_item (k o : nat) (s : wdict) : wdict :=
  let e := if weakable o then Weak {| r_id := fresh s; r_target := o; r_key := k; r_hashed := false |} else Strong o in
  {| tab := put k e (tab s); pend := pend s; gens := gens s; dead := dead s; fresh := S (fresh s);
     ver := match lookup k (tab s) with None => S (ver s) | Some _ => ver s end |}.

Inductive w_out :=
| WValue (o : nat) | WItem (k o : nat) | WItems (l : list (nat * nat)) | WBool (b : bool) | WCount (n : nat)
| WDone | WDefault | WKeyError | WStop | WRuntimeError | WTypeError | WValueError | WImpossible.

(** get: weak_value_dictionary.py 471-500; hybrid_value_dictionary.py 452-486.  With [miss] for the
    default or KeyError also [__getitem__]: 290-302; 257-272. *)
Definition get (k : nat) (miss : w_out) (s : wdict) : wdict * w_out :=
  match lookup k (tab s) with
  | None => (s, miss)
  | Some e =>
      match deref (dead s) e, e with
      | Some o, _ => (s, WValue o)
      | None, Weak r => (found_dead k r s, miss)
      | None, Strong _ => (s, miss)
      end
  end.

(** __contains__: weak_value_dictionary.py 242-257; hybrid_value_dictionary.py 207-224. *)
Definition contains (k : nat) (s : wdict) : wdict * w_out :=
  match lookup k (tab s) with
  | None => (s, WBool false)
  | Some e =>
      match deref (dead s) e, e with
      | Some _, _ => (s, WBool true)
      | None, Weak r => (found_dead k r s, WBool false)
      | None, Strong _ => (s, WBool false)
      end
  end.

(** __delitem__ is that of dict. *)
Definition del_item (k : nat) (s : wdict) : wdict * w_out :=
  match lookup k (tab s) with None => (s, WKeyError) | Some _ => (s_del k s, WDone) end.

(** pop, [default] telling whether one was given: weak_value_dictionary.py 528-558;
    hybrid_value_dictionary.py 512-548, where a missing key with a default makes [...] be unpacked. *)
Definition pop (k : nat) (default : bool) (s : wdict) : wdict * w_out :=
  let miss := if default then WDefault else WKeyError in
  match lookup k (tab s) with
  | None => (s, if hybrid && default then WTypeError else miss)
  | Some e => (s_del k s, match deref (dead s) e with Some o => WValue o | None => miss end)
  end.

(** popitem: weak_value_dictionary.py 562-583; hybrid_value_dictionary.py 551-575.  [dict.popitem]
    takes the last one. *)
Fixpoint popitem_loop (d : list nat) (rev_tab : list (nat * entry)) (n : nat) : list (nat * entry) * nat * w_out :=
  match rev_tab with
  | [] => ([], n, WKeyError)
  | (k, e) :: r => match deref d e with Some o => (r, S n, WItem k o) | None => popitem_loop d r (S n) end
  end.
Definition popitem (s : wdict) : wdict * w_out :=
  let '(r, n, x) := popitem_loop (dead s) (rev (tab s)) 0 in
  ({| tab := rev r; pend := pend s; gens := gens s; dead := dead s; fresh := fresh s; ver := n + ver s |}, x).

(** setdefault: weak_value_dictionary.py 587-612; hybrid_value_dictionary.py 578-607. *)
Definition setdefault (k o : nat) (s : wdict) : wdict * w_out :=
  match lookup k (tab s) with
  | None => (set_item k o s, WValue o)
  | Some e => match deref (dead s) e with Some v => (s, WValue v) | None => (set_item k o s, WValue o) end
  end.

(** clear: weak_value_dictionary.py 433-438; hybrid_value_dictionary.py 413-418. *)
Definition clear (s : wdict) : wdict :=
  {| tab := []; pend := []; gens := gens s; dead := dead s; fresh := fresh s; ver := S (ver s) |}.

(** __len__: weak_value_dictionary.py 333-340; hybrid_value_dictionary.py 303-310.  A negative number
    makes [len] raise ValueError. *)
Definition len (s : wdict) : w_out :=
  if length (tab s) <? length (pend s) then WValueError else WCount (length (tab s) - length (pend s)).

(** copy: weak_value_dictionary.py 442-467; hybrid_value_dictionary.py 421-449.  The result is given by its items. *)
Fixpoint copy_loop (t : list (nat * entry)) (s : wdict) : wdict * list (nat * nat) :=
  match t with
  | [] => (s, [])
  | (k, e) :: r =>
      match deref (dead s) e, e with
      | Some o, _ => let (s1, l) := copy_loop r s in (s1, (k, o) :: l)
      | None, Weak q => copy_loop r (add_pending q s)
      | None, Strong _ => copy_loop r s
      end
  end.
Definition copy (s : wdict) : wdict * w_out :=
  let (s1, l) := copy_loop (tab s) s in (commit s1, WItems l).

(** The generators of the iterators over items: weak_value_dictionary.py 136-152;
    hybrid_value_dictionary.py 87-109.  Those over keys (64-79; 15-30) and values (91-107; 42-61)
    run through the same steps. *)
Definition find_gen (g : nat) (l : list gen) : option gen := find (fun x => g_name x =? g) l.
Definition drop_gen (g : nat) (l : list gen) : list gen := filter (fun x => negb (g_name x =? g)) l.
Definition with_gens (l : list gen) (s : wdict) : wdict :=
  {| tab := tab s; pend := pend s; gens := l; dead := dead s; fresh := fresh s; ver := ver s |}.

(** The [finally] part: [_iterating -= 1] and [_commit_removals]. *)
Definition gen_end (g : nat) (s : wdict) : wdict := commit (with_gens (drop_gen g (gens s)) s).

Fixpoint scan (g : nat) (t : list (nat * entry)) (pos : nat) (s : wdict) : wdict * w_out :=
  match t with
  | [] => (gen_end g s, WStop)
  | (k, e) :: r =>
      match deref (dead s) e, e with
      | Some o, _ =>
          (with_gens ({| g_name := g; g_pos := S pos; g_size := length (tab s); g_ver := ver s;
                         g_held := match e with Weak q => Some q | Strong _ => None end |} :: drop_gen g (gens s)) s, WItem k o)
      | None, Weak q => scan g r (S pos) (add_pending q s)
      | None, Strong _ => scan g r (S pos) s
      end
  end.

Definition gen_next (g jump : nat) (s : wdict) : wdict * w_out :=
  match find_gen g (gens s) with
  | None =>
      let x := {| g_name := g; g_pos := 0; g_size := length (tab s); g_ver := ver s; g_held := None |} in
      scan g (tab s) 0 (with_gens (x :: gens s) s)
  | Some x =>
      if negb (g_size x =? length (tab s)) then (gen_end g s, WRuntimeError)
      else let pos := if g_ver x =? ver s then g_pos x else jump in
           scan g (skipn pos (tab s)) pos s
  end.

(** Leaving an iteration early: the generator is closed, which runs its [finally] part. *)
Definition gen_close (g : nat) (s : wdict) : wdict :=
  match find_gen g (gens s) with None => s | Some _ => gen_end g s end.

(** _WeakValueDictionaryCallback.__call__, weak_value_dictionary.py 38-57. *)
Definition callback (s : wdict) (r : ref) : wdict :=
  match gens s with
  | _ :: _ => add_pending r s
  | [] => match lookup (r_key r) (tab s) with None => s | Some _ => s_del (r_key r) s end
  end.

(** The references which exist: those in the dict and those held by generators. *)
Definition refs (s : wdict) : list ref :=
  flat_map (fun x => match snd x with Weak r => [r] | Strong _ => [] end) (tab s) ++
  flat_map (fun x => match g_held x with Some r => [r] | None => [] end) (gens s).

Definition die (l : list nat) (s : wdict) : wdict :=
  let hit := filter (fun r => alive (dead s) (r_target r) && mem (r_target r) l) (refs s) in
  fold_left callback hit
    {| tab := tab s; pend := pend s; gens := gens s; dead := l ++ dead s; fresh := fresh s; ver := ver s |}.

Inductive w_op :=
| WSet (k o : nat) | WDel (k : nat) | WGet (k : nat) | WGetItem (k : nat) | WIn (k : nat)
| WPop (k : nat) (default : bool) | WPopItem | WSetDefault (k o : nat) | WClear | WLen | WCopy
| WNext (g jump : nat) (* one step of the iteration g, which it starts if it is not running *)
| WClose (g : nat)     (* the iteration g is left *)
| WDie (l : list nat). (* garbage collection *)

(** A dead object cannot be stored. *)
Definition w_step (s : wdict) (o : w_op) : wdict * w_out :=
  match o with
  | WSet k v => if alive (dead s) v then (set_item k v s, WDone) else (s, WImpossible)
  | WDel k => del_item k s
  | WGet k => get k WDefault s
  | WGetItem k => get k WKeyError s
  | WIn k => contains k s
  | WPop k d => pop k d s
  | WPopItem => popitem s
  | WSetDefault k v => if alive (dead s) v then setdefault k v s else (s, WImpossible)
  | WClear => (clear s, WDone)
  | WLen => (s, len s)
  | WCopy => copy s
  | WNext g j => gen_next g j s
  | WClose g => (gen_close g s, WDone)
  | WDie l => (die l s, WDone)
  end.

Fixpoint w_run (s : wdict) (os : list w_op) : wdict * list w_out :=
  match os with
  | [] => (s, [])
  | o :: r => let (s1, x) := w_step s o in let (s2, xs) := w_run s1 r in (s2, x :: xs)
  end.
End WeakDict.
