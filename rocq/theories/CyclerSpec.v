(** C56, C94, C95: which functions are registered, and in which order they are due. *)

From Coq Require Import List Arith Bool Sorted.
From Verif Require Import CyclerModel.
Import ListNotations.

(** The functions in the order of their registration *)
Inductive registered : list op -> list callable -> list callable -> Prop :=
| reg_nil r : registered [] r r
| reg_append p f os r r' : registered os (r ++ [(p, f)]) r' -> registered (Act (Append p f) :: os) r r'
(** Of equal functions the one with the least priority is taken away, of equal priorities the first one. *)
| reg_remove f a p b os r' : (forall x, In x a -> snd x = f -> p < fst x) -> (forall x, In x b -> snd x = f -> p <= fst x) ->
    registered os (a ++ b) r' -> registered (Act (Remove f) :: os) (a ++ (p, f) :: b) r'
| reg_remove_none f os r r' : (forall x, In x r -> snd x <> f) -> registered os r r' -> registered (Act (Remove f) :: os) r r'
| reg_other o os r r' : (forall p f, o <> Act (Append p f)) -> (forall f, o <> Act (Remove f)) -> registered os r r' -> registered (o :: os) r r'.

(** [l] is [r] by priority; equal priorities are as registered. *)
Definition in_order (r l : list callable) : Prop :=
  StronglySorted (fun a b => fst a <= fst b) l /\ forall p, filter (fun x => fst x =? p) l = filter (fun x => fst x =? p) r.

(** A cycler is off since its last cancel. *)
Fixpoint is_on (on : bool) (os : list op) : bool :=
  match os with
  | [] => on
  | Act Cancel :: os' => is_on false os'
  | Act Reschedule :: os' | CallNow :: os' => is_on true os'
  | _ :: os' => is_on on os'
  end.

(** The functions leave the timing of the cycler alone. *)
Definition untimed (a : act) : bool := match a with Append _ _ | Remove _ => true | _ => false end.
