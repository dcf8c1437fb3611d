(** Model of /repo/scarletio/web_common/basic_authorization.py, of the places which make credentials out of a url
    (http_client/client_request.py:160-175, web_socket/web_socket_client.py:234-237), and of base64 (python's [binascii]).

    Texts are lists of code points, bytes are numbers. The two regular expressions are read as what they accept:
    [AUTHORIZATION_HEADER_RP] takes leading white space, a method up to the next white space, and the rest without the white
    space around it, which may not contain a line feed. (Backtracking can also give a method which contains white space; it is
    not 'basic', and both ways end in a ValueError.) [USER_ID_PASSWORD_JOIN_RP] splits at the first ':' a text without a line
    feed. An encoding is a pair of arbitrary functions; latin1 is given as such a pair. *)

From Coq Require Import List Arith Bool NArith String.
From Verif Require Import Bytes Text.
Import ListNotations.

Definition str := list N.

(** * base64 *)

Definition alphabet : str := text "ABCDEFGHIJKLMNOPQRSTUVWXYZabcdefghijklmnopqrstuvwxyz0123456789+/".
Definition b64char (n : N) : N := nth (N.to_nat n) alphabet 0%N.

(** [binascii.b2a_base64(data, newline = False)] *)
Fixpoint b64encode (l : bytes) : str :=
  match l with
  | [] => []
  | [a] => [b64char (a / 4); b64char ((a mod 4) * 16); 61; 61]%N
  | [a; b] => [b64char (a / 4); b64char ((a mod 4) * 16 + b / 16); b64char ((b mod 16) * 4); 61]%N
  | a :: b :: c :: l =>
      [b64char (a / 4); b64char ((a mod 4) * 16 + b / 16); b64char ((b mod 16) * 4 + c / 64); b64char (c mod 64)]%N ++ b64encode l
  end.

(** The value of a character of the alphabet. *)
Fixpoint position (c : N) (l : str) (i : N) : option N :=
  match l with [] => None | x :: l => if (x =? c)%N then Some i else position c l (i + 1)%N end.
Definition b64value (c : N) : option N := position c alphabet 0.

(** [binascii.a2b_base64(data)], which is not strict: the position within four characters, the bits left over, the number of
    '=' seen; characters which are not of the alphabet are skipped. [None] is [binascii.Error]. *)
Fixpoint a2b (l : str) (quad : nat) (left : N) (pads : nat) : option bytes :=
  match l with
  | [] => if quad =? 0 then Some [] else None
  | c :: l =>
      if (c =? 61)%N then
        if 2 <=? quad then (if 4 <=? quad + S pads then Some [] else a2b l quad left (S pads))
        else a2b l quad left pads
      else match b64value c with
      | None => a2b l quad left pads
      | Some v =>
          match quad with
          | 0 => a2b l 1 v 0
          | 1 => option_map (cons (left * 4 + v / 16)%N) (a2b l 2 (v mod 16)%N 0)
          | 2 => option_map (cons (left * 16 + v / 4)%N) (a2b l 3 (v mod 4)%N 0)
          | _ => option_map (cons (left * 64 + v)%N) (a2b l 0 0%N 0)
          end
      end
  end.
Definition b64decode (l : str) : option bytes := a2b l 0 0 0.

(** * The class *)

(** White space of a regular expression. *)
Definition re_space (c : N) : bool :=
  is_space c || ((28 <=? c) && (c <=? 31))%N || existsb (N.eqb c) [133; 160; 5760; 8232; 8233; 8239; 8287; 12288]%N
  || ((8192 <=? c) && (c <=? 8202))%N.

(** [value.casefold() == 'basic']; the long s is the only character outside of ascii which casefolds to one of the letters. *)
Definition is_basic (s : str) : bool :=
  match s with
  | [b; a; s; i; c] =>
      (existsb (N.eqb b) [66; 98] && existsb (N.eqb a) [65; 97] && existsb (N.eqb s) [83; 115; 383]
       && existsb (N.eqb i) [73; 105] && existsb (N.eqb c) [67; 99])%N
  | _ => false
  end.

Definition has (c : N) (s : str) : bool := existsb (N.eqb c) s.

(** What [str.encode] and [bytes.decode] do for an encoding; [None] is the UnicodeError. *)
Record encoding := Encoding { enc : str -> option bytes; dec : bytes -> option str }.
Definition latin1 : encoding :=
  Encoding (fun s => if forallb (fun c => c <? 256)%N s then Some s else None) (fun b => Some b).

(** basic_authorization.py:32-75; [None] is the ValueError. *)
Definition new (user password : str) : option (str * str) := if has 58 user then None else Some (user, password).

(** basic_authorization.py:202-210; [None] is a UnicodeError. *)
Definition to_header (e : encoding) (c : str * str) : option str :=
  match enc e (fst c ++ [58%N] ++ snd c) with
  | None => None
  | Some b => option_map (app (text "Basic ")) (dec e (b64encode b))
  end.

(** The text without the white space at its end. *)
Definition rtrim (s : str) : str := rev (drop_while re_space (rev s)).

(** The regular expression of line 10; the method and the token. *)
Definition split_header (h : str) : option (str * str) :=
  let h := drop_while re_space h in
  let method := take_while (fun c => negb (re_space c)) h in
  match drop_while (fun c => negb (re_space c)) h with
  | [] => None
  | rest => let token := rtrim (drop_while re_space rest) in if has 10 token then None else Some (method, token)
  end.

(** basic_authorization.py:142-199; [None] is the ValueError. *)
Definition from_header (e : encoding) (h : str) : option (str * str) :=
  match split_header h with
  | None => None
  | Some (method, token) =>
      if negb (is_basic method) then None
      else if negb (forallb (fun c => c <? 128)%N token) then None
      else match b64decode token with
      | None => None
      | Some b =>
          match dec e b with
          | None => None
          | Some t =>
              if has 10 t then None
              else Some (take_while (fun c => negb (c =? 58)%N) t,
                         match drop_while (fun c => negb (c =? 58)%N) t with [] => [] | _ :: p => p end)
          end
      end
  end.

(** * Credentials of urls *)

Inductive sent := NoHeader | Header (value : str) | Raised.

(** client_request.py:160-175 with [authorization = None]; the user and the password are those of the url, decoded. *)
Definition http_authorization (user password : option str) : sent :=
  match user with
  | None | Some [] => NoHeader
  | Some u =>
      match new u (match password with None => [] | Some p => p end) with
      | None => Raised
      | Some c => match to_header latin1 c with Some h => Header h | None => Raised end
      end
  end.

(** web_socket_client.py:234-237: [BasicAuthorization] takes texts only, and has no method [encode]. *)
Definition web_socket_authorization (user password : option str) : sent :=
  match user, password with
  | None, None => NoHeader
  | Some u, Some p => match new u p with None => Raised (* ValueError *) | Some _ => Raised (* AttributeError *) end
  | _, _ => Raised (* TypeError *)
  end.
