(** Model of content type headers: /repo/scarletio/web_common/content_type.py:6-425.

    Texts are lists of code points. An index is a number, reading a character is [nth_error]: [None] is an IndexError, or a loop which does not end within
    one more round than the text has characters. [str.casefold] is a parameter. The parameters of a content type are listed as they are set. *)

From Coq Require Import List Arith Bool NArith.
Import ListNotations.

Definition str := list N.

Definition contains (c : N) (l : str) : bool := existsb (N.eqb c) l.
(** :6-11 *)
Definition white_space : str := [32; 9]%N.
Definition delimiters : str := [44; 58; 59;  40; 41; 123; 125; 91; 93; 60; 62; 39; 34;  92; 63; 64; 61; 47]%N.

(** _consume_whitespace, :14-45 *)
Fixpoint consume_loop (fuel : nat) (s : str) (index end_ : nat) : option nat :=
  match fuel with
  | 0 => None
  | S fuel =>
      if end_ <=? index then Some index
      else match nth_error s index with
           | None => None
           | Some c => if contains c white_space then consume_loop fuel s (index + 1) end_ else Some index
           end
  end.
Definition consume_whitespace (s : str) (index end_ : nat) : option nat := consume_loop (S (length s)) s index end_.

(** _parse_token, :48-92 *)
Fixpoint token_loop (fuel : nat) (s : str) (index end_ : nat) (disallowed : str) : option nat :=
  match fuel with
  | 0 => None
  | S fuel =>
      if end_ <=? index then Some index
      else match nth_error s index with
           | None => None
           | Some c => if contains c disallowed || contains c white_space || contains c delimiters then Some index else token_loop fuel s (index + 1) end_ disallowed
           end
  end.
Definition slice (s : str) (a b : nat) : str := firstn (b - a) (skipn a s).
Definition parse_token (s : str) (index end_ : nat) (disallowed : str) : option (nat * option str) :=
  match token_loop (S (length s)) s index end_ disallowed with
  | None => None
  | Some i => Some (i, if i <=? index then None else Some (slice s index i))
  end.

(** _parse_quoted, :95-167 *)
Definition push (collected : option str) (c : N) : option str := Some (match collected with None => [c] | Some l => l ++ [c] end).
Fixpoint quoted_loop (fuel : nat) (s : str) (index end_ : nat) (collected : option str) (last_escape : bool) : option (nat * option str * option str) :=
  match fuel with
  | 0 => None
  | S fuel =>
      if end_ <=? index then Some (index, if last_escape then push collected 92%N else collected, Some [34%N])
      else match nth_error s index with
           | None => None
           | Some c =>
               let index := index + 1 in
               if last_escape then
                 let collected := if contains c [92; 34]%N then collected else push collected 92%N in
                 quoted_loop fuel s index end_ (push collected c) false
               else if N.eqb c 34 then Some (index, collected, None)
               else if N.eqb c 92 then quoted_loop fuel s index end_ collected true
               else quoted_loop fuel s index end_ (push collected c) false
           end
  end.
Definition parse_quoted (s : str) (index end_ : nat) : option (nat * option str * option str) := quoted_loop (S (length s)) s index end_ None false.

(** _parse_token_with_space_around, :170-195 *)
Definition parse_token_spaced (s : str) (index end_ : nat) (disallowed : str) : option (nat * option str) :=
  match consume_whitespace s index end_ with
  | None => None
  | Some i =>
      match parse_token s i end_ disallowed with
      | None => None
      | Some (i, t) => match consume_whitespace s i end_ with None => None | Some i => Some (i, t) end
      end
  end.

(** _parse_token_or_quited_with_space_around, :198-232 *)
Definition parse_value (s : str) (index end_ : nat) : option (nat * option str * option str) :=
  match consume_whitespace s index end_ with
  | None => None
  | Some i =>
      let r := if i <? end_ then
                 match nth_error s i with
                 | None => None
                 | Some c => if N.eqb c 34 then parse_quoted s (i + 1) end_
                             else match parse_token s i end_ [] with None => None | Some (i, t) => Some (i, t, None) end
                 end
               else Some (i, None, None) in
      match r with
      | None => None
      | Some (i, t, e) => match consume_whitespace s i end_ with None => None | Some i => Some (i, t, e) end
      end
  end.

(** The character after a token, in _parse_head and _parse_parameter: at the end, a semicolon, [more], or something else *)
Inductive stop := AtEnd | Semicolon | More | Other.
Definition look (s : str) (index end_ : nat) (more : option N) : option stop :=
  if end_ <=? index then Some AtEnd
  else match nth_error s index with
       | None => None
       | Some c => Some (if N.eqb c 59 then Semicolon else match more with Some m => if N.eqb c m then More else Other | None => Other end)
       end.

(** _parse_head, :235-304: index, type, sub type, suffix, expected *)
Definition parse_head (s : str) (index end_ : nat) : option (nat * option str * option str * option str * option str) :=
  if end_ <=? index then Some (index, None, None, None, None)
  else match parse_token_spaced s index end_ [59; 47]%N with
  | None => None
  | Some (i, ty) =>
  match look s i end_ (Some 47%N) with
  | None => None
  | Some AtEnd => Some (i, ty, None, None, None)
  | Some Semicolon => Some (i + 1, ty, None, None, None)
  | Some Other => Some (i, ty, None, None, Some [59; 47]%N)
  | Some More =>
  match parse_token_spaced s (i + 1) end_ [59; 43]%N with
  | None => None
  | Some (i, sub) =>
  match look s i end_ (Some 43%N) with
  | None => None
  | Some AtEnd => Some (i, ty, sub, None, None)
  | Some Semicolon => Some (i + 1, ty, sub, None, None)
  | Some Other => Some (i, ty, sub, None, Some [59; 43]%N)
  | Some More =>
  match parse_token_spaced s (i + 1) end_ [59]%N with
  | None => None
  | Some (i, suffix) =>
  match look s i end_ None with
  | None => None
  | Some AtEnd => Some (i, ty, sub, suffix, None)
  | Some Semicolon => Some (i + 1, ty, sub, suffix, None)
  | Some _ => Some (i, ty, sub, suffix, Some [59]%N)
  end end end end end end.

(** _parse_parameter, :307-362: index, key, value, expected *)
Definition parse_parameter (s : str) (index end_ : nat) : option (nat * option str * option str * option str) :=
  if end_ <=? index then Some (index, None, None, None)
  else match parse_token_spaced s index end_ [59; 61]%N with
  | None => None
  | Some (i, key) =>
  match look s i end_ (Some 61%N) with
  | None => None
  | Some AtEnd => Some (i, key, None, None)
  | Some Semicolon => Some (i + 1, key, None, None)
  | Some Other => Some (i, key, None, Some [59; 61]%N)
  | Some More =>
  match parse_value s (i + 1) end_ with
  | None => None
  | Some (i, value, expected) =>
  match look s i end_ None with
  | None => None
  | Some AtEnd => Some (i, key, value, expected)
  | Some Semicolon => Some (i + 1, key, value, expected)
  | Some _ => Some (i, key, value, Some [59]%N)
  end end end end.

Section Fold.
Variable casefold : str -> str.

(** The loop of _parse_content_type, :397-418 *)
Definition add_item (key value : option str) (parameters : list (str * str)) : list (str * str) :=
  match key, value with
  | None, None => parameters
  | _, _ => parameters ++ [(match key with None => [] | Some k => casefold k end, match value with None => [] | Some v => v end)]
  end.
Fixpoint parameter_loop (fuel : nat) (s : str) (index end_ : nat) (parameters : list (str * str)) : option (nat * list (str * str) * option str) :=
  match fuel with
  | 0 => None
  | S fuel =>
      match parse_parameter s index end_ with
      | None => None
      | Some (i, key, value, expected) =>
          let parameters := add_item key value parameters in
          match expected with
          | Some _ => Some (i, parameters, expected)
          | None => if end_ <=? i then Some (i, parameters, None) else parameter_loop fuel s i end_ parameters
          end
      end
  end.

Record content_type := { c_type : option str; c_sub : option str; c_suffix : option str; c_parameters : list (str * str); c_error : option (nat * str) }.

(** _parse_content_type, :365-425, and parse_content_type, :428-458 *)
Definition parse_content_type (s : str) : option content_type :=
  match s with
  | [] => Some {| c_type := None; c_sub := None; c_suffix := None; c_parameters := []; c_error := None |}
  | _ =>
  let end_ := length s in
  match parse_head s 0 end_ with
  | None => None
  | Some (i, ty, sub, suffix, expected) =>
      let ty := option_map casefold ty in
      let sub := option_map casefold sub in
      let suffix := option_map casefold suffix in
      let sub := match ty, sub with Some [42%N], None => Some [42%N] | _, _ => sub end in
      let finish i parameters (expected : option str) :=
        {| c_type := ty; c_sub := sub; c_suffix := suffix; c_parameters := parameters; c_error := option_map (fun e => (i, e)) expected |} in
      match expected with
      | Some _ => Some (finish i [] expected)
      | None =>
          if i <? end_ then
            match parameter_loop (S (length s)) s i end_ [] with None => None | Some (i, ps, e) => Some (finish i ps e) end
          else Some (finish i [] None)
      end
  end
  end.
End Fold.
