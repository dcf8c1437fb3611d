(** Model of writing and parsing http heads: [write_http_request], [write_http_response] of
    /repo/scarletio/web_common/http_protocol.py, [parse_http_request], [parse_http_response], [parse_http_headers] of
    /repo/scarletio/web_common/helpers.py, and of the choice of the payload reader.

    Simplified: [decode('utf-8', 'surrogateescape')] is strict here ([None] where it would escape octets), the header
    dictionary is the list of the pairs assigned to it, [str.upper] is that of ascii. *)

From Coq Require Import List Arith Bool NArith String.
From Verif Require Import Bytes Text QuoteModel.
Import ListNotations.

Definition crlf : bytes := [13; 10]%N.
Definition headers := list (str * str).
Record version := { major : N; minor : N }.

(** http_protocol.py:716-717, 759-760 *)
Definition header_text (kv : str * str) : str := fst kv ++ [58; 32]%N ++ snd kv ++ crlf.

(** http_protocol.py:714-720; 714 writes [version.major] twice. *)
Definition write_request (method path : str) (hs : headers) (v : version) : bytes :=
  utf8 (method ++ [32%N] ++ path ++ text " HTTP/" ++ dec (major v) ++ [46%N] ++ dec (major v) ++ crlf
        ++ flat_map header_text hs ++ crlf).

(** http_protocol.py:747-764 (the body is written after it) *)
Definition write_response (status : N) (phrase : str) (hs : headers) (v : version) : bytes :=
  utf8 (text "HTTP/" ++ dec (major v) ++ [46%N] ++ dec (minor v) ++ [32%N] ++ dec status ++ [32%N] ++ phrase ++ crlf
        ++ flat_map header_text hs ++ crlf).

(** http_protocol.py:109, 138: the head ends at the first empty line ([read_until], see ReadModel). *)
Definition read_head (wire : bytes) : option bytes :=
  option_map (fun i => firstn i wire) (find (crlf ++ crlf) wire).

(** Is the line folded? helpers.py:487, 500 *)
Definition folded (l : bytes) : bool := match l with c :: _ => (c =? 9)%N || (c =? 32)%N | [] => false end.

Definition line_end (l : bytes) : nat := match find crlf l with Some i => i | None => List.length l end.

(** helpers.py:489-502: the folded lines and what is after them. *)
Fixpoint folds (fuel : nat) (l : bytes) : list bytes * bytes :=
  match fuel with
  | 0 => ([], l)
  | S f =>
      if folded l then
        let e := line_end l in
        let '(vs, rest) := folds f (skipn (e + 2) l) in (strip (firstn e l) :: vs, rest)
      else ([], l)
  end.

Fixpoint join (sep : bytes) (ls : list bytes) : bytes :=
  match ls with [] => [] | [x] => x | x :: ls' => x ++ sep ++ join sep ls' end.

(** helpers.py:464-508; [l] is the data from the offset on. [None]: PayloadError. *)
Fixpoint parse_headers (fuel : nat) (l : bytes) : option (list (bytes * bytes)) :=
  match fuel with
  | 0 => None
  | S f =>
      let e := line_end l in
      if Nat.eqb e 0 then Some []
      else
        match find [58%N] (firstn e l) with
        | None | Some 0 => None
        | Some m =>
            let name := lstrip (firstn m l) in
            let value := strip (skipn (S m) (firstn e l)) in
            let rest := skipn (e + 2) l in
            let '(vs, rest) := folds (List.length rest) rest in
            option_map (cons (name, join [32%N] (value :: vs))) (parse_headers f rest)
        end
  end.

(** helpers.py:484, 508 *)
Fixpoint decode_headers (l : list (bytes * bytes)) : option headers :=
  match l with
  | [] => Some []
  | (k, v) :: l' =>
      match utf8_decode k, utf8_decode v, decode_headers l' with
      | Some k', Some v', Some r => Some ((k', v') :: r)
      | _, _, _ => None
      end
  end.

Definition parse_http_headers (l : bytes) : option headers :=
  match parse_headers (S (List.length l)) l with Some hs => decode_headers hs | None => None end.

Definition blank (c : N) : bool := ((c =? 32) || (c =? 9))%N.
Definition not_blank (c : N) : bool := negb (blank c).

(** One or more characters: [X+] followed by something outside of X. *)
Definition some_of (p : N -> bool) (l : bytes) : option (bytes * bytes) :=
  match take_while p l with [] => None | t => Some (t, drop_while p l) end.

(** The rest after a literal. *)
Definition after (lit l : bytes) : option bytes := if starts_with lit l then Some (skipn (List.length lit) l) else None.

(** [(?:\r\n|$)]; [$] is at the end or before a last \n. *)
Definition line_over (l : bytes) : option bytes :=
  match l with
  | [] => Some []
  | _ => if starts_with crlf l then Some (skipn 2 l) else if beqb l [10%N] then Some l else None
  end.

Definition bind {A B} (o : option A) (f : A -> option B) : option B := match o with Some a => f a | None => None end.

(** [HTTP/(\d+)\.(\d+)] *)
Definition parse_version (l : bytes) : option (version * bytes) :=
  bind (after (text "HTTP/") l) (fun l => bind (some_of is_digit l) (fun '(a, l) => bind (after [46%N] l) (fun l =>
  bind (some_of is_digit l) (fun '(b, l) => Some ({| major := undec a; minor := undec b |}, l))))).

Definition upper (c : N) : N := if ((97 <=? c) && (c <=? 122))%N then (c - 32)%N else c.

(** helpers.py:366, 408-440; (version, method, path, headers) *)
Definition parse_request (data : bytes) : option (version * str * str * headers) :=
  bind (some_of not_blank (drop_while blank data)) (fun '(m, l) =>
  bind (some_of blank l) (fun '(_, l) => bind (some_of not_blank l) (fun '(p, l) =>
  bind (some_of blank l) (fun '(_, l) => bind (parse_version l) (fun '(v, l) =>
  bind (line_over (drop_while blank l)) (fun l =>
  bind (utf8_decode m) (fun m => bind (utf8_decode p) (fun p => bind (parse_http_headers l) (fun hs =>
  Some (v, map upper m, p, hs)))))))))).

(** [(.*?)[ \t]*(?:\r\n|$)]: the shortest text; a dot is no \n. *)
Fixpoint lazy_reason (l : bytes) : option (bytes * bytes) :=
  match line_over (drop_while blank l) with
  | Some rest => Some ([], rest)
  | None =>
      match l with
      | [] => None
      | c :: l' => if (c =? 10)%N then None else option_map (fun '(r, rest) => (c :: r, rest)) (lazy_reason l')
      end
  end.

(** helpers.py:365, 369-405; (version, status, reason, headers), an absent reason is the empty one here. *)
Definition parse_response (data : bytes) : option (version * N * str * headers) :=
  bind (parse_version (drop_while blank data)) (fun '(v, l) => bind (some_of blank l) (fun '(_, l) =>
  match l with
  | a :: b :: c :: l =>
      if is_digit a && is_digit b && is_digit c then
        bind (match some_of blank l with
              | Some (_, l') => lazy_reason l'
              | None => bind (line_over l) (fun rest => Some ([], rest))
              end) (fun '(reason, rest) =>
        bind (utf8_decode reason) (fun reason => bind (parse_http_headers rest) (fun hs =>
        Some (v, undec [a; b; c], reason, hs))))
      else None
  | _ => None
  end)).

(** * The payload reader of a response *)

Inductive framing := NoBody | Chunked | Exactly (n : N) | UntilEof.

(** helpers.py:524-528 *)
Definition empty_status (status : N) : bool := ((status =? 204) || (status =? 304) || ((100 <=? status) && (status <? 200)))%N.

(** http_protocol.py:394-456 for a response; [length]: the content length header, a non negative number. *)
Definition payload_reader (status : N) (upgraded chunked : bool) (length : option N) : framing :=
  let second :=
    match length with
    | None => if empty_status status then NoBody else if chunked then Chunked else UntilEof
    | Some _ => NoBody
    end in
  if upgraded then second
  else if empty_status status then NoBody
  else if chunked then Chunked
  else match length with Some n => if (0 <? n)%N then Exactly n else second | None => second end.

(** client_response.py:187-205: the body of the answer for a request with the given method. *)
Inductive method_kind := Connect | Head | Other.
Definition body_framing (m : method_kind) (status : N) (upgraded chunked : bool) (length : option N) : framing :=
  match m with
  | Connect => NoBody
  | Head => NoBody
  | Other => payload_reader status upgraded chunked length
  end.
