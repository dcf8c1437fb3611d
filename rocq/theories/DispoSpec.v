(** Content-Disposition headers as RFC 6266, RFC 7230 (3.2.6) and RFC 5987 define them, to state C147, C148 and C149. *)

From Coq Require Import List Arith Bool NArith Ascii String Permutation DecimalString.
From Verif Require Import Bytes QuoteModel QuoteSpec.
Import ListNotations.
Local Open Scope string_scope.
Local Open Scope list_scope.

(** One line: printable ascii characters and tabs. *)
Definition one_line (h : str) : Prop := Forall (fun c => c = 9 \/ 32 <= c <= 126)%N h.

(** RFC 7230, 3.2.6 *)
Definition tchar (c : N) : Prop := (33 <= c <= 126)%N /\ ~ In c (chars "()<>@,;:\/[]?={}") /\ c <> 34%N.
Definition token (s : str) : Prop := s <> [] /\ Forall tchar s.

(** A reader of the parameters after the type: [; name="quoted"] and [; name=raw]. *)
Inductive form := Quoted (v : str) | Raw (v : str).

Inductive mode :=
| Start | Sep | Key (acc : str) | Open (key : str) | InQuoted (key acc : str) | Escaped (key acc : str) | InRaw (key acc : str).

Fixpoint read (m : mode) (l : str) : option (list (str * form)) :=
  match l with
  | [] => match m with Start => Some [] | InRaw k acc => Some [(k, Raw (rev acc))] | _ => None end
  | c :: l =>
      match m with
      | Start => if N.eqb c 59 then read Sep l else None
      | Sep => if N.eqb c 32 then read Sep l else read (Key [c]) l
      | Key acc => if N.eqb c 61 then read (Open (rev acc)) l else read (Key (c :: acc)) l
      | Open k => if N.eqb c 34 then read (InQuoted k []) l else read (InRaw k [c]) l
      | InQuoted k acc =>
          if N.eqb c 34 then option_map (cons (k, Quoted (rev acc))) (read Start l)
          else if N.eqb c 92 then read (Escaped k acc) l else read (InQuoted k (c :: acc)) l
      | Escaped k acc => read (InQuoted k (c :: acc)) l
      | InRaw k acc => if N.eqb c 59 then option_map (cons (k, Raw (rev acc))) (read Sep l) else read (InRaw k (c :: acc)) l
      end
  end.

(** RFC 5987, 3.2.1: value-chars of an ext-value. *)
Definition alnum (c : N) : bool := ((48 <=? c) && (c <=? 57) || (65 <=? c) && (c <=? 90) || (97 <=? c) && (c <=? 122))%N.
Definition ext_char (c : N) : bool := alnum c || existsb (N.eqb c) (chars "!#$&+-.^_`|~%").
Definition ext_decode (l : str) : option bytes := if forallb ext_char l then rfc_decode l else None.

Definition star_free (k : str) : option str :=
  match rev k with c :: r => if N.eqb c 42 then Some (rev r) else None | [] => None end.

Fixpoint after (p s : str) : option str :=
  match p, s with [], _ => Some s | _, [] => None | x :: p, y :: s => if N.eqb x y then after p s else None end.

(** The name and the octets of a parameter. *)
Definition meaning (p : str * form) : option (str * bytes) :=
  match snd p with
  | Quoted v => Some (fst p, utf8 v)
  | Raw v =>
      match star_free (fst p) with
      | None => Some (fst p, utf8 v)
      | Some k =>
          match after (chars "utf-8''") v with
          | Some e => option_map (pair k) (ext_decode e)
          | None => None
          end
      end
  end.

Fixpoint all_some {A} (l : list (option A)) : option (list A) :=
  match l with
  | [] => Some []
  | Some x :: l => option_map (cons x) (all_some l)
  | None :: _ => None
  end.

Fixpoint to_semicolon (l : str) : str * str :=
  match l with
  | [] => ([], [])
  | c :: l' => if N.eqb c 59 then ([], l) else let '(a, b) := to_semicolon l' in (c :: a, b)
  end.

(** What a header says: its type and its parameters. *)
Definition says (h : str) : option (str * list (str * bytes)) :=
  let '(t, rest) := to_semicolon h in
  match read Start rest with
  | Some ps => option_map (pair t) (all_some (map meaning ps))
  | None => None
  end.

(** 'file_name' is sent as 'filename'. *)
Definition renamed (k k' : str) : Prop := k = chars "file_name" /\ k' = chars "filename" \/ k <> chars "file_name" /\ k' = k.

(** Printable ascii and tabs, but not all of these characters at once. *)
Definition short_ascii (v : str) : Prop :=
  Forall (fun c => c = 9 \/ 32 <= c <= 126)%N v /\ exists c, (c = 9 \/ 32 <= c <= 126)%N /\ ~ In c v.

(** Without the characters which RFC 5987 does not let in an ext-value, and [quote] does not escape. *)
Definition ext_safe (v : str) : Prop := Forall scalar v /\ Forall (fun c => ~ In c (chars "'()*,;=")) v.

(** A token, but for tabs and commas. *)
Definition nearly_token (s : str) : Prop := s <> [] /\ Forall (fun c => tchar c \/ c = 9%N \/ c = 44%N) s.

(** * Reading with the library *)

Definition lower1 (c : N) : N := if ((65 <=? c) && (c <=? 90))%N then (c + 32)%N else c.

(** What is known about the methods of [str]. *)
Record python (space : N -> bool) (lower casefold : str -> str) (isdigit : str -> bool) : Prop := {
  space_32 : space 32%N = true;
  space_visible : forall c, (33 <= c <= 126)%N -> space c = false;
  lower_ascii : forall s, Forall ascii s -> lower s = map lower1 s;
  casefold_ascii : forall s, Forall ascii s -> casefold s = map lower1 s;
  digit_empty : isdigit [] = false
}.

(** A name in lower case. *)
Definition simple_key (k : str) : Prop := k <> [] /\ Forall (fun c => tchar c /\ c <> 42%N /\ ~ (65 <= c <= 90)%N) k.

(** A value which is not quoted. *)
Definition raw_value (v : str) : Prop := v <> [] /\ Forall (fun c => (33 <= c <= 126)%N /\ c <> 59%N /\ c <> 34%N) v.

(** A parameter as a header has it, with a value which is not quoted. *)
Definition raw_parameter (p : str * str) : str := chars "; " ++ fst p ++ chars "=" ++ snd p.

(** RFC 2231, 3: the pieces of a file name. *)
Definition segment (i : nat) (v : str) : str * str := (chars "filename*" ++ chars (NilEmpty.string_of_uint (Nat.to_uint i)), v).
Fixpoint segments (i : nat) (vs : list str) : list (str * str) :=
  match vs with [] => [] | v :: vs => segment i v :: segments (S i) vs end.

(** A parameter which has nothing to do with the name of the file. *)
Definition unrelated (p : str * str) : Prop := fst p <> chars "filename" /\ forall r, fst p <> chars "filename*" ++ r.
