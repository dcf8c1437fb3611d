(** C131-C133: the Authorization header, independent of how it is read and written. *)

From Coq Require Import List Arith Bool NArith String.
From Verif Require Import Bytes Text AuthModel.
Import ListNotations.

(** RFC 4648, 4: the text is made of groups of four characters for three bytes; the last group may be padded. The 24 bits of
    the group are the same number on both sides. *)
Definition digit (n : N) (c : N) : Prop :=
  (n < 26 /\ c = 65 + n \/ 26 <= n < 52 /\ c = 71 + n \/ 52 <= n < 62 /\ c + 4 = n \/ n = 62 /\ c = 43 \/ n = 63 /\ c = 47)%N.
Inductive base64 : bytes -> str -> Prop :=
| B_nil : base64 [] []
| B_three : forall a b c w x y z cw cx cy cz l s,
    digit w cw -> digit x cx -> digit y cy -> digit z cz -> 
    (a * 65536 + b * 256 + c = w * 262144 + x * 4096 + y * 64 + z)%N ->
    base64 l s -> base64 (a :: b :: c :: l) (cw :: cx :: cy :: cz :: s)
| B_two : forall a b w x y cw cx cy, digit w cw -> digit x cx -> digit y cy -> 
    (a * 65536 + b * 256 = w * 262144 + x * 4096 + y * 64)%N -> base64 [a; b] [cw; cx; cy; 61%N]
| B_one : forall a w x cw cx, digit w cw -> digit x cx -> (a * 65536 = w * 262144 + x * 4096)%N ->
    base64 [a] [cw; cx; 61%N; 61%N].

(** A text which can be a header value: printable ascii, on one line. *)
Definition header_text (s : str) : Prop := Forall (fun c => 32 <= c < 127)%N s.

Definition no_colon (s : str) : Prop := ~ In 58%N s.
Definition no_line_feed (s : str) : Prop := ~ In 10%N s.
Definition latin (s : str) : Prop := Forall (fun c => c < 256)%N s.

(** The words which mean the method, in every case of their letters. *)
Definition basic_word (s : str) : Prop := Forall2 (fun x y => x = y \/ x + 32 = y)%N s (text "basic").

(** The words whose casefolded form is 'basic': the long s is one of them too. *)
Definition folds_to_basic (s : str) : Prop :=
  Forall2 (fun x y => x = y \/ x + 32 = y \/ (y = 115 /\ x = 383))%N s (text "basic").

(** The credentials a decoded token means: the text up to the first ':' and the text after it. *)
Definition means (t u p : str) : Prop := no_colon u /\ (t = u ++ [58%N] ++ p \/ t = u /\ p = []).
