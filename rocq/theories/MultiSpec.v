(** C34, C35: what a map from keys to lists of values allows. *)

From Coq Require Import List Arith Bool NArith.
From Verif Require Import MultiModel.
Import ListNotations.

Section Spec.
Variables (K C V : Type) (norm : K -> C).

(** The values of each key, in the order they were added. *)
Definition contents := C -> list V.

Definition changed (m m' : contents) (c : C) (vs : list V) : Prop := m' c = vs /\ forall c', c' <> c -> m' c' = m c'.
Definition kept (m m' : contents) : Prop := forall c, m' c = m c.

(** A value is there once. *)
Definition added (m m' : contents) (c : C) (v : V) : Prop :=
  (In v (m c) /\ kept m m') \/ (~ In v (m c) /\ changed m m' c (m c ++ [v])).

Inductive added_all : contents -> list (K * V) -> contents -> Prop :=
| Added_nil : forall m m', kept m m' -> added_all m [] m'
| Added_cons : forall m m1 m2 k v l, added m m1 (norm k) v -> added_all m1 l m2 -> added_all m ((k, v) :: l) m2.

(** The values of [l] at the keys of [c]. *)
Definition values_at (l : list (K * V)) (c : C) (vs : list V) : Prop :=
  exists ps, Forall2 (fun p v => norm (fst p) = c /\ snd p = v) ps vs /\
    exists (keep : K * V -> bool), (forall p, In p l -> (keep p = true <-> norm (fst p) = c)) /\ ps = filter keep l.

(** The keys which have values, each once. *)
Definition keys_of (m : contents) (ks : list C) : Prop := NoDup ks /\ forall c, In c ks <-> m c <> [].

Inductive allowed : contents -> op K V -> out K V -> contents -> Prop :=
| A_set : forall m k v m', added m m' (norm k) v -> allowed m (OSet k v) Done m'
| A_extend : forall m l m', added_all m l m' -> allowed m (OExtend l) Done m'
| A_del_no : forall m k m', m (norm k) = [] -> kept m m' -> allowed m (ODel k) KeyError m'
| A_del : forall m k m' v vs, m (norm k) = v :: vs -> changed m m' (norm k) vs -> allowed m (ODel k) Done m'
| A_item_no : forall m k m', m (norm k) = [] -> kept m m' -> allowed m (OItem k) KeyError m'
| A_item : forall m k m' v vs, m (norm k) = v :: vs -> kept m m' -> allowed m (OItem k) (Value v) m'
| A_get_no : forall m k m', m (norm k) = [] -> kept m m' -> allowed m (OGet k) Default m'
| A_get : forall m k m' v vs, m (norm k) = v :: vs -> kept m m' -> allowed m (OGet k) (Value v) m'
| A_get_all_no : forall m k m', m (norm k) = [] -> kept m m' -> allowed m (OGetAll k) Default m'
| A_get_all : forall m k m', m (norm k) <> [] -> kept m m' -> allowed m (OGetAll k) (Values (m (norm k))) m'
| A_setdefault_no : forall m k d m', m (norm k) = [] -> changed m m' (norm k) [d] -> allowed m (OSetDefault k d) (Value d) m'
| A_setdefault : forall m k d m' v vs, m (norm k) = v :: vs -> kept m m' -> allowed m (OSetDefault k d) (Value v) m'
| A_pop_no : forall m k (b : bool) m', m (norm k) = [] -> kept m m' -> allowed m (OPop k b) (if b then Default else KeyError) m'
| A_pop : forall m k b m' v vs, m (norm k) = v :: vs -> changed m m' (norm k) vs -> allowed m (OPop k b) (Value v) m'
| A_pop_all_no : forall m k (b : bool) m', m (norm k) = [] -> kept m m' -> allowed m (OPopAll k b) (if b then Default else KeyError) m'
| A_pop_all : forall m k b m', m (norm k) <> [] -> changed m m' (norm k) [] -> allowed m (OPopAll k b) (Values (m (norm k))) m'
| A_popitem_no : forall m m', (forall c, m c = []) -> kept m m' -> allowed m OPopItem KeyError m'
| A_popitem : forall m m' k v vs, m (norm k) = v :: vs -> changed m m' (norm k) vs -> allowed m OPopItem (Pair k v) m'
| A_items : forall m m' l, (forall c, values_at l c (m c)) -> kept m m' -> allowed m OItems (Pairs l) m'
| A_len : forall m m' ks, keys_of m ks -> kept m m' -> allowed m OLen (Count (length ks)) m'
| A_kwargs : forall m m' l, keys_of m (map (fun p => norm (fst p)) l) ->
    (forall k v, In (k, v) l -> exists vs, m (norm k) = vs ++ [v]) -> kept m m' -> allowed m OKwargs (Pairs l) m'.

Inductive history : contents -> list (op K V) -> list (out K V) -> contents -> Prop :=
| H_nil : forall m m', kept m m' -> history m [] [] m'
| H_cons : forall m o r m1 os rs m2, allowed m o r m1 -> history m1 os rs m2 -> history m (o :: os) (r :: rs) m2.

(** The same calls and results but for the spelling of the keys. *)
Definition like (k k' : K) : Prop := norm k = norm k'.
Definition like_pair (p p' : K * V) : Prop := like (fst p) (fst p') /\ snd p = snd p'.
Inductive like_op : op K V -> op K V -> Prop :=
| L_set : forall k k' v, like k k' -> like_op (OSet k v) (OSet k' v)
| L_del : forall k k', like k k' -> like_op (ODel k) (ODel k')
| L_extend : forall l l', Forall2 like_pair l l' -> like_op (OExtend l) (OExtend l')
| L_item : forall k k', like k k' -> like_op (OItem k) (OItem k')
| L_get : forall k k', like k k' -> like_op (OGet k) (OGet k')
| L_get_all : forall k k', like k k' -> like_op (OGetAll k) (OGetAll k')
| L_setdefault : forall k k' v, like k k' -> like_op (OSetDefault k v) (OSetDefault k' v)
| L_pop : forall k k' b, like k k' -> like_op (OPop k b) (OPop k' b)
| L_pop_all : forall k k' b, like k k' -> like_op (OPopAll k b) (OPopAll k' b)
| L_popitem : like_op OPopItem OPopItem
| L_items : like_op OItems OItems
| L_len : like_op OLen OLen
| L_kwargs : like_op OKwargs OKwargs.
Inductive like_out : out K V -> out K V -> Prop :=
| LO_same : forall r, like_out r r
| LO_pair : forall k k' v, like k k' -> like_out (Pair k v) (Pair k' v)
| LO_pairs : forall l l', Forall2 like_pair l l' -> like_out (Pairs l) (Pairs l').
End Spec.

Arguments allowed {K C V}. Arguments history {K C V}. Arguments like_op {K C V}. Arguments like_out {K C V}. Arguments contents C V : assert.
