(** What a user of percent encoding relies on (C30, C31, C68), in terms of characters only. *)

From Coq Require Import List Arith Bool NArith Ascii String.
From Verif Require Import Bytes QuoteModel.
Import ListNotations.
Local Open Scope string_scope.
Local Open Scope list_scope.

(** A character a python string can hold and utf-8 can carry. *)
Definition scalar (c : N) : Prop := (c < 1114112 /\ ~ (55296 <= c < 57344))%N.

Definition upper_hex (c : N) : Prop := (48 <= c <= 57 \/ 65 <= c <= 70)%N.

(** Text made of the characters of [ok] (ascii) and of %XX escapes. *)
Inductive escaped_text (ok : N -> Prop) : str -> Prop :=
| ET_nil : escaped_text ok []
| ET_char : forall c l, ok c -> (c < 128)%N -> escaped_text ok l -> escaped_text ok (c :: l)
| ET_escape : forall a b l, upper_hex a -> upper_hex b -> escaped_text ok l -> escaped_text ok (37%N :: a :: b :: l).

(** RFC 3986, 2.1: the octet of an escape is the value of its two hexadecimal digits. *)
Definition hex_value (c : N) : option N :=
  (if (48 <=? c) && (c <=? 57) then Some (c - 48)
   else if (65 <=? c) && (c <=? 70) then Some (c - 55)
   else if (97 <=? c) && (c <=? 102) then Some (c - 87) else None)%N.
Fixpoint rfc_decode (l : str) : option bytes :=
  match l with
  | [] => Some []
  | c :: l1 =>
      if N.eqb c 37 then
        match l1 with
        | a :: b :: l2 =>
            match hex_value a, hex_value b, rfc_decode l2 with
            | Some x, Some y, Some r => Some ((16 * x + y)%N :: r)
            | _, _, _ => None
            end
        | _ => None
        end
      else option_map (cons c) (rfc_decode l1)
  end.

(** No hexadecimal digit of the octet is 8 or 9. *)
Definition no_89 (b : N) : Prop := ~ (b / 16 = 8 \/ b / 16 = 9 \/ b mod 16 = 8 \/ b mod 16 = 9)%N.

(** The characters of a string of ascii characters. *)
Fixpoint chars (s : string) : str :=
  match s with EmptyString => [] | String a s' => N_of_ascii a :: chars s' end.
Definition ascii (c : N) : Prop := (c < 128)%N.

(** Letters, digits, and the marks no url gives a meaning to. *)
Definition plain (c : N) : Prop :=
  (65 <= c <= 90 \/ 97 <= c <= 122 \/ 48 <= c <= 57)%N \/ In c (chars "-._~!$'()*,;").

(** The characters which are written as they are. *)
Definition kept (safe protected : str) (qs : bool) (c : N) : Prop :=
  In c safe \/ plain c \/ In c protected \/ (qs = false /\ In c (chars "+&=")).

(** The characters which survive: written as they are, a character must be neither '%' nor '+'; escaped, its octets must
    have no digit 8 or 9, and it must not be one of '+&=' if it is unquoted as a query string. *)
Definition survives (kept : N -> Prop) (qs uqs : bool) (c : N) : Prop :=
  scalar c /\
  ((qs = true /\ c = 32%N) \/
   (~ (qs = true /\ c = 32%N) /\ kept c /\ c <> 37%N /\ c <> 43%N) \/
   (~ kept c /\ (forall b, In b (encode1 c) -> no_89 b) /\ (uqs = true -> ~ In c (chars "+&=")))).
