(** Valid http heads (C25, C69, C70, C71) in terms of characters only. *)

From Coq Require Import List Arith Bool NArith String.
From Verif Require Import Bytes Text QuoteModel QuoteSpec HeadModel.
Import ListNotations.

(** RFC 7230, 3.2.6: the characters of a token. *)
Definition token_char (c : N) : Prop :=
  (48 <= c <= 57 \/ 65 <= c <= 90 \/ 97 <= c <= 122)%N \/ In c (text "!#$%&'*+-.^_`|~").
Definition token (s : str) : Prop := s <> [] /\ Forall token_char s.

(** Text of one line which does not begin or end with white space. *)
Definition one_line (s : str) : Prop := Forall scalar s /\ ~ In 13%N s /\ ~ In 10%N s.
Definition trimmed (s : str) : Prop :=
  match s with [] => True | c :: _ => is_space c = false end /\
  match rev s with [] => True | c :: _ => is_space c = false end.

Definition valid_header (kv : str * str) : Prop := token (fst kv) /\ one_line (snd kv) /\ trimmed (snd kv).

Definition valid_method (s : str) : Prop := token s /\ Forall (fun c => ~ (97 <= c <= 122)%N) s.
(** Not empty, no white space, no control characters. *)
Definition valid_path (s : str) : Prop := s <> [] /\ Forall (fun c => scalar c /\ (32 < c)%N) s.

(** RFC 7230, 3.3.3 for a response: (1) answers to HEAD, and 1xx, 204, 304 have no body; (2) a 2xx answer of CONNECT has
    none either; (3) chunked wins over a length; (5) a length is the length; (7) otherwise it lasts until the connection
    is closed. *)
Definition rfc_framing (m : method_kind) (status : N) (chunked : bool) (length : option N) : framing :=
  match m with
  | Head => NoBody
  | _ =>
      if ((status =? 204) || (status =? 304) || (status <? 200))%N then NoBody
      else if (match m with Connect => true | _ => false end) && (status <? 300)%N then NoBody
      else if chunked then Chunked
      else match length with
           | Some 0%N => NoBody
           | Some n => Exactly n
           | None => UntilEof
           end
  end.
