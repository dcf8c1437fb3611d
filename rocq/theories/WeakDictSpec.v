(** What a dictionary of vanishing values is: a finite map from which a key disappears
    when its value dies.  Nothing here knows about references, callbacks or iterations. *)
From Coq Require Import List ZArith Bool Arith Lia.
From Verif Require Import WeakDictModel.
Import ListNotations.

Section Spec.
Variable weakable : nat -> bool.

Definition amap := nat -> option nat.
Definition empty : amap := fun _ => None.
Definition aput (k o : nat) (m : amap) : amap := fun x => if x =? k then Some o else m x.
Definition adel (k : nat) (m : amap) : amap := fun x => if x =? k then None else m x.
(** The objects [l] die. *)
Definition awithout (l : list nat) (m : amap) : amap :=
  fun x => match m x with Some o => if weakable o && existsb (Nat.eqb o) l then None else Some o | None => None end.

Definition same (a b : amap) : Prop := forall k, a k = b k.

(** [l] lists the items of [m]. *)
Definition items (m : amap) (l : list (nat * nat)) : Prop :=
  NoDup (map fst l) /\ forall k o, In (k, o) l <-> m k = Some o.

(** [spec_step d m o m' x]: when the objects [d] are dead, doing [o] to the map [m] may give the map [m'] and the result [x].
    The result of [len] is not restricted here.  The result of [del] is not restricted for a
    key which is not there. *)
Inductive spec_step (d : list nat) (m : amap) : w_op -> amap -> w_out -> Prop :=
| SpSet k o : spec_step d m (WSet k o) (aput k o m) WDone
| SpDead k o : weakable o = true -> In o d -> spec_step d m (WSet k o) m WImpossible
| SpDel k (x : w_out) : x = WDone \/ x = WKeyError /\ m k = None -> spec_step d m (WDel k) (adel k m) x
| SpGet k (x : w_out) : x = match m k with Some o => WValue o | None => WDefault end -> spec_step d m (WGet k) m x
| SpGetItem k (x : w_out) : x = match m k with Some o => WValue o | None => WKeyError end -> spec_step d m (WGetItem k) m x
| SpIn k (x : w_out) : x = WBool (match m k with Some _ => true | None => false end) -> spec_step d m (WIn k) m x
| SpPop k (b : bool) (x : w_out) : x = match m k with Some o => WValue o | None => if b then WDefault else WKeyError end ->
    spec_step d m (WPop k b) (adel k m) x
| SpPopItem k o : m k = Some o -> spec_step d m WPopItem (adel k m) (WItem k o)
| SpPopEmpty : same m empty -> spec_step d m WPopItem m WKeyError
| SpSetDefault k o : m k = None -> spec_step d m (WSetDefault k o) (aput k o m) (WValue o)
| SpSetDefaultOld k o v : m k = Some v -> spec_step d m (WSetDefault k o) m (WValue v)
| SpSetDefaultDead k o : weakable o = true -> In o d -> spec_step d m (WSetDefault k o) m WImpossible
| SpClear : spec_step d m WClear empty WDone
| SpLen x : (exists n, x = WCount n) \/ x = WValueError -> spec_step d m WLen m x
| SpCopy l : items m l -> spec_step d m WCopy m (WItems l)
| SpNext g j k o : m k = Some o -> spec_step d m (WNext g j) m (WItem k o)
| SpNextEnd g j (x : w_out) : x = WStop \/ x = WRuntimeError -> spec_step d m (WNext g j) m x
| SpClose g : spec_step d m (WClose g) m WDone
| SpDie l : spec_step d m (WDie l) (awithout l m) WDone.

Definition dead_after (o : w_op) (d : list nat) : list nat := match o with WDie l => l ++ d | _ => d end.

(** A history of results allowed for the operations [os], starting with the map [m]. *)
Inductive spec_run : list nat -> amap -> list w_op -> list w_out -> amap -> Prop :=
| SpNil d m m' : same m m' -> spec_run d m [] [] m'
| SpCons d m o m1 x os xs m2 m' : spec_step d m o m1 x -> same m1 m2 -> spec_run (dead_after o d) m2 os xs m' -> spec_run d m (o :: os) (x :: xs) m'.

(** The number of keys of a map. *)
Definition size (m : amap) (n : nat) : Prop := exists l, NoDup l /\ (forall k, In k l <-> m k <> None) /\ length l = n.
End Spec.

(** Operations which neither add nor remove a key nor leave the iteration [g]. *)
Definition quiet (g : nat) (o : w_op) : Prop :=
  match o with
  | WGet _ | WGetItem _ | WIn _ | WLen | WCopy | WNext _ _ | WDie _ => True
  | WClose h => h <> g
  | _ => False
  end.

(** The keys which the iteration [g] gave. *)
Fixpoint yields (g : nat) (os : list w_op) (xs : list w_out) : list nat :=
  match os, xs with
  | o :: os, x :: xs =>
      match o, x with WNext h _, WItem k _ => if h =? g then k :: yields g os xs else yields g os xs | _, _ => yields g os xs end
  | _, _ => []
  end.

(** Whether the iteration [g] came to its end. *)
Definition stopped (g : nat) (os : list w_op) (xs : list w_out) : Prop := exists j, In (WNext g j, WStop) (combine os xs).

Definition no_next (o : w_op) : Prop := match o with WNext _ _ => False | _ => True end.
