(** C57: the texts of a list of extensions, as RFC 6455 9.1 and RFC 7230 7 (lists) give them. *)

From Coq Require Import List Arith Bool NArith String.
From Verif Require Import Bytes Text HeadSpec.
Import ListNotations.

Definition blanks (w : list N) : Prop := Forall (fun c => c = 9%N \/ c = 32%N) w.
(** Spaces and empty elements of a list. *)
Definition lead (w : list N) : Prop := Forall (fun c => c = 9%N \/ c = 32%N \/ c = 44%N) w.

Inductive parameter_text : list N * option (list N) -> list N -> Prop :=
| P_flag : forall k, token k -> parameter_text (k, None) k
| P_value : forall k v w1 w2, token k -> token v -> blanks w1 -> blanks w2 ->
    parameter_text (k, Some v) (k ++ w1 ++ [61%N] ++ w2 ++ v)
| P_quoted : forall k v w1 w2, token k -> token v -> blanks w1 -> blanks w2 ->
    parameter_text (k, Some v) (k ++ w1 ++ [61%N] ++ w2 ++ [34%N] ++ v ++ [34%N]).

Inductive parameters_text : list (list N * option (list N)) -> list N -> Prop :=
| PS_nil : forall w, blanks w -> parameters_text [] w
| PS_cons : forall p ps w1 w2 t r, blanks w1 -> blanks w2 -> parameter_text p t -> parameters_text ps r ->
    parameters_text (p :: ps) (w1 ++ [59%N] ++ w2 ++ t ++ r).

Inductive extensions_text : list (list N * list (list N * option (list N))) -> list N -> Prop :=
| E_nil : forall w, lead w -> extensions_text [] w
| E_last : forall w name ps r, lead w -> token name -> parameters_text ps r ->
    extensions_text [(name, ps)] (w ++ name ++ r)
| E_cons : forall w name ps r es s, lead w -> token name -> parameters_text ps r -> extensions_text es s ->
    extensions_text ((name, ps) :: es) (w ++ name ++ r ++ [44%N] ++ s).

(** Lists of names; [ok] says which names are allowed. *)
Inductive names_text (ok : list N -> Prop) : list (list N) -> list N -> Prop :=
| N_nil : forall w, lead w -> names_text ok [] w
| N_last : forall w name b, lead w -> ok name -> blanks b -> names_text ok [name] (w ++ name ++ b)
| N_cons : forall w name b es s, lead w -> ok name -> blanks b -> names_text ok es s ->
    names_text ok (name :: es) (w ++ name ++ b ++ [44%N] ++ s).

(** A protocol of an Upgrade header: a name and maybe a version. *)
Definition protocol (s : list N) : Prop := token s \/ exists a b, token a /\ token b /\ s = a ++ [47%N] ++ b.

Definition token_parameter (p : list N * option (list N)) : Prop :=
  token (fst p) /\ match snd p with None => True | Some v => token v end.
Definition token_extension (e : list N * list (list N * option (list N))) : Prop :=
  token (fst e) /\ Forall token_parameter (snd e).
