(** Model of MultiValueDictionary and IgnoreCaseMultiValueDictionary: /repo/scarletio/utils/multi_value_dictionary.py:8-486,
    /repo/scarletio/utils/ignore_case_multi_value_dictionary.py:8-127, /repo/scarletio/utils/ignore_case_string.py:8-86.

    A [dict] is the list of its items in the order of insertion. Keys are compared by [norm]: the key itself for the plain
    dictionary, its case fold for the one ignoring the case (which wraps each key in an IgnoreCaseString). The lists of values are
    not shared between dictionaries (each constructor and [copy] copies them). *)

From Coq Require Import List Arith Bool NArith.
Import ListNotations.

Section Multi.
Variables (K C V : Type) (norm : K -> C) (ceq : C -> C -> bool) (veq : V -> V -> bool).

Definition same (k k' : K) : bool := ceq (norm k) (norm k').

Definition dict := list (K * list V).

(** dict.__getitem__; [None]: KeyError *)
Fixpoint get (d : dict) (k : K) : option (list V) :=
  match d with [] => None | (k', vs) :: d' => if same k' k then Some vs else get d' k end.

(** dict.__setitem__: the key which is there stays *)
Fixpoint set (d : dict) (k : K) (vs : list V) : dict :=
  match d with
  | [] => [(k, vs)]
  | (k', vs') :: d' => if same k' k then (k', vs) :: d' else (k', vs') :: set d' k vs
  end.

(** dict.__delitem__ of a key which is there *)
Fixpoint del (d : dict) (k : K) : dict :=
  match d with [] => [] | (k', vs') :: d' => if same k' k then d' else (k', vs') :: del d' k end.

(** [value in values] *)
Definition holds (v : V) (vs : list V) : bool := existsb (veq v) vs.

Inductive op :=
| OSet (k : K) (v : V) | ODel (k : K) | OExtend (l : list (K * V)) | OItem (k : K) | OGet (k : K) | OGetAll (k : K)
| OSetDefault (k : K) (v : V) | OPop (k : K) (default : bool) | OPopAll (k : K) (default : bool) | OPopItem | OItems | OLen | OKwargs.

(** [Broken]: IndexError of an empty list of values. *)
Inductive out :=
| Done | KeyError | Default | Value (v : V) | Values (vs : list V) | Pair (k : K) (v : V) | Pairs (l : list (K * V)) | Count (n : nat) | Broken.

(** __setitem__, multi_value_dictionary.py:140-149; ignore_case_multi_value_dictionary.py:66-69 *)
Definition set_item (d : dict) (k : K) (v : V) : dict :=
  match get d k with
  | None => set d k [v]
  | Some line => if holds v line then d else set d k (line ++ [v])
  end.

(** __delitem__, :152-162 *)
Definition del_item (d : dict) (k : K) : dict * out :=
  match get d k with
  | None => (d, KeyError)
  | Some my_list => if Nat.eqb (length my_list) 1 then (del d k, Done) else (set d k (tl my_list), Done)
  end.

(** extend, :211-231; also __init__ of an iterable of tuples, :112-128 *)
Definition extend (d : dict) (l : list (K * V)) : dict := fold_left (fun d p => set_item d (fst p) (snd p)) l d.

(** pop_one, :343-376 *)
Definition pop_one (d : dict) (k : K) (default : bool) : dict * out :=
  match get d k with
  | None => (d, if default then Default else KeyError)
  | Some [] => (d, Broken)
  | Some (v :: values) => (match values with [] => del d k | _ => set d k values end, Value v)
  end.

(** pop_all, :313-340 *)
Definition pop_all (d : dict) (k : K) (default : bool) : dict * out :=
  match get d k with
  | None => (d, if default then Default else KeyError)
  | Some values => (del d k, Values values)
  end.

(** setdefault, :283-310 *)
Definition setdefault (d : dict) (k : K) (default : V) : dict * out :=
  match get d k with
  | Some [] => (d, Broken)
  | Some (v :: _) => (d, Value v)
  | None => (set d k [default], Value default)
  end.

(** popitem, :381-401; dict.popitem takes the last one *)
Definition popitem (d : dict) : dict * out :=
  match rev d with
  | [] => (d, KeyError)
  | (k, values) :: r =>
      match values with
      | [] => (rev r, Broken)
      | v :: values => (match values with [] => rev r | _ => set (rev r) k values end, Pair k v)
      end
  end.

(** _MultiValueDictionaryItemIterator.__iter__, :22-26 *)
Definition items (d : dict) : list (K * V) := flat_map (fun p => map (pair (fst p)) (snd p)) d.

(** kwargs, :470-484 *)
Fixpoint kwargs (d : dict) : option (list (K * V)) :=
  match d with
  | [] => Some []
  | (k, values) :: d' =>
      match rev values, kwargs d' with v :: _, Some r => Some ((k, v) :: r) | _, _ => None end
  end.

Definition step (d : dict) (o : op) : dict * out :=
  match o with
  | OSet k v => (set_item d k v, Done)
  | ODel k => del_item d k
  | OExtend l => (extend d l, Done)
  | OItem k => (d, match get d k with None => KeyError | Some [] => Broken | Some (v :: _) => Value v end)      (* :131-137 *)
  | OGet k => (d, match get d k with None => Default | Some [] => Broken | Some (v :: _) => Value v end)        (* get_one, :257-279 *)
  | OGetAll k => (d, match get d k with None => Default | Some vs => Values vs end)                             (* :234-254 *)
  | OSetDefault k v => setdefault d k v
  | OPop k b => pop_one d k b
  | OPopAll k b => pop_all d k b
  | OPopItem => popitem d
  | OItems => (d, Pairs (items d))
  | OLen => (d, Count (length d))
  | OKwargs => (d, match kwargs d with Some l => Pairs l | None => Broken end)
  end.

Fixpoint run (d : dict) (os : list op) : dict * list out :=
  match os with [] => (d, []) | o :: os' => let '(d1, r) := step d o in let '(d2, rs) := run d1 os' in (d2, r :: rs) end.

(** __init__ of a dict, :108-110, and of a MultiValueDictionary, :104-106: the items of the other are set *)
Definition of_dict (l : list (K * V)) : dict := fold_left (fun d p => set d (fst p) [snd p]) l [].
Definition of_multi (l : dict) : dict := fold_left (fun d p => set d (fst p) (snd p)) l [].

End Multi.

Arguments OPopItem {K V}. Arguments OItems {K V}. Arguments OLen {K V}. Arguments OKwargs {K V}.
Arguments OSet {K V}. Arguments ODel {K V}. Arguments OExtend {K V}. Arguments OItem {K V}. Arguments OGet {K V}. Arguments OGetAll {K V}.
Arguments OSetDefault {K V}. Arguments OPop {K V}. Arguments OPopAll {K V}.
Arguments Done {K V}. Arguments KeyError {K V}. Arguments Default {K V}. Arguments Value {K V}. Arguments Values {K V}.
Arguments Pair {K V}. Arguments Pairs {K V}. Arguments Count {K V}. Arguments Broken {K V}.

(** * The plain strings which reach [dict] unwrapped *)

Section IgnoreCase.
Variables (S H V : Type) (fold : S -> S) (seq : S -> S -> bool) (hash : S -> H) (heq : H -> H -> bool).

(** IgnoreCaseString.__eq__ and __hash__, ignore_case_string.py:68-86, against a plain string. A dict looks at the keys of equal hash. *)
Definition found_by (plain stored : S) : bool := heq (hash plain) (hash (fold stored)) && seq (fold stored) (fold plain).

(** dict.__contains__, which is not overridden *)
Definition contains (d : dict S V) (k : S) : bool := existsb (fun p => found_by k (fst p)) d.

(** [==] and [!=] of two IgnoreCaseString-s: __ne__ is that of [str] *)
Definition string_eq (a b : S) : bool := seq (fold a) (fold b).
Definition string_ne (a b : S) : bool := negb (seq a b).
End IgnoreCase.
