(** C49, C93: content types and their texts. *)

From Coq Require Import List Arith Bool NArith String.
From Verif Require Import Text.
Import ListNotations.

Definition str := list N.

(** The characters of a token: everything but spaces, tabs and these marks *)
Definition marks : str := text ",:;(){}[]<>'\?@=/" ++ [34%N].
Definition token_char (c : N) : Prop := c <> 32%N /\ c <> 9%N /\ ~ In c marks.
Definition token (t : str) : Prop := t <> [] /\ Forall token_char t.
Definition blank (w : str) : Prop := Forall (fun c => c = 32%N \/ c = 9%N) w.

(** A quoted string: quotes and backslashes are escaped *)
Definition escape (c : N) : str := if (N.eqb c 34 || N.eqb c 92)%bool then [92%N; c] else [c].
Definition quoted (v : str) : str := 34%N :: flat_map escape v ++ [34%N].

(** A value is a token or a quoted string; white space may be around everything *)
Inductive value_text : str -> str -> Prop :=
| as_token v : token v -> value_text v v
| as_quoted v : value_text v (quoted v).
Inductive parameter_text : str * str -> str -> Prop :=
| a_parameter k v t a b c d : token k -> value_text v t -> blank a -> blank b -> blank c -> blank d ->
    parameter_text (k, v) (a ++ k ++ b ++ [61%N] ++ c ++ t ++ d).
Inductive parameters_text : list (str * str) -> str -> Prop :=
| no_parameters : parameters_text [] []
| more_parameters p t ps ts : parameter_text p t -> parameters_text ps ts -> parameters_text (p :: ps) (59%N :: t ++ ts).
Inductive head_text : str -> str -> option str -> str -> Prop :=
| without_suffix ty sub a b c d : token ty -> token sub -> ~ In 43%N sub -> blank a -> blank b -> blank c -> blank d ->
    head_text ty sub None (a ++ ty ++ b ++ [47%N] ++ c ++ sub ++ d)
| with_suffix ty sub suf a b c d e f : token ty -> token sub -> token suf -> ~ In 43%N sub -> blank a -> blank b -> blank c -> blank d -> blank e -> blank f ->
    head_text ty sub (Some suf) (a ++ ty ++ b ++ [47%N] ++ c ++ sub ++ d ++ [43%N] ++ e ++ suf ++ f).
