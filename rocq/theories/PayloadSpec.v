(** C44: what goes into a payload stream and what comes out of it. *)

From Coq Require Import List Arith Bool.
From Verif Require Import Bytes PayloadModel.
Import ListNotations.

(** The chunks which the stream took. *)
Fixpoint accepted (os : list op) (rs : list out) : list bytes :=
  match os, rs with
  | Add c :: os', Bool true :: rs' => c :: accepted os' rs'
  | _ :: os', _ :: rs' => accepted os' rs'
  | _, _ => []
  end.
(** The chunks and the data which its consumers got. *)
Definition delivered_by (r : out) : list bytes := match r with Yields c => [c] | _ => [] end.
Definition delivered (rs : list out) : list bytes := flat_map delivered_by rs.
Definition data_by (r : out) : bytes := match r with Yields c => c | Data d => d | _ => [] end.
Definition data (rs : list out) : bytes := flat_map data_by rs.
Definition normal_end (r : out) : Prop := match r with Stops | Data _ => True | _ => False end.

Definition prefix {A} (l m : list A) : Prop := exists r, m = l ++ r.

Definition waits (c : consumer) : Prop := match c with Awaits _ | Iterates _ => True | _ => False end.

(** One consumer waits at a time, and none is cancelled after it was woken. *)
Inductive orderly : state -> list op -> Prop :=
| orderly_nil s : orderly s []
| orderly_cons s o os :
    (match o with
     | Await | Iter | Next _ => forall k c, nth_error (consumers s) k = Some c -> ~ waits c
     | Wake _ thrown => thrown = false
     | _ => True
     end) -> orderly (fst (step s o)) os -> orderly s (o :: os).

Fixpoint registered (os : list op) : list nat :=
  match os with [] => [] | Callback f :: os' => f :: registered os' | _ :: os' => registered os' end.
