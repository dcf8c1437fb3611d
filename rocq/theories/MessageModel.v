(** Model of the properties of raw http messages (/repo/scarletio/web_common/http_message.py), of the choice of the payload
    reader out of the headers (web_common/http_protocol.py:394-456, web_common/compressors.py:49-96), and of the keep-alive
    information (web_common/keep_alive_info.py, web_common/constants.py:6-12).

    A header dictionary is the list of the values of each of the fields which are looked at; [headers[name]] and
    [headers.get(name)] give the first one. Texts are lists of code points. [str.casefold], [str.isdigit], [int] and [float]
    are arbitrary functions; what is assumed of them is in MessageSpec. The caches of the properties are not modelled (they
    hold what was computed first; the headers are not changed). The regular expression of the keep-alive header is modelled
    for values whose only white space is the space and the tab. *)

From Coq Require Import List Arith Bool NArith String.
From Verif Require Import Bytes Text HeadModel.
Import ListNotations.

Definition str := list N.

Inductive field := Connection | Upgrade | TransferEncoding | ContentEncoding | ContentLength | KeepAlive.
Definition fields := field -> list str.
(** ignore_case_multi_value_dictionary.py:61-63, multi_value_dictionary.py [get]. *)
Definition get (h : fields) (f : field) : option str := hd_error (h f).

Section Python.
Variable fold : str -> str.           (* str.casefold *)
Variable isdigit : str -> bool.       (* str.isdigit *)
Variable to_int : str -> option N.    (* int(...) of a text of which [isdigit] is true; [None]: ValueError *)

Definition contains (sub s : str) : bool := match find sub s with Some _ => true | None => false end.

(** http_message.py:141-174 *)
Definition upgraded (h : fields) : bool :=
  match get h Upgrade with
  | None | Some [] => false
  | Some _ => match get h Connection with None => false | Some c => beqb (fold c) (text "upgrade") end
  end.

(** http_message.py:191-215 *)
Definition chunked (h : fields) : bool :=
  match get h TransferEncoding with None => false | Some v => contains (text "chunked") (fold v) end.

(** http_message.py:231-256 *)
Definition encoding (h : fields) : option str := option_map fold (get h ContentEncoding).

(** http_message.py:265-284; the comparison of versions is that of pairs. *)
Definition at_least_11 (v : version) : bool := ((1 <? major v) || ((major v =? 1) && (1 <=? minor v)))%N.
Definition keep_alive_enabled (v : version) (h : fields) : bool :=
  match get h Connection with None => at_least_11 v | Some c => negb (contains (text "close") (fold c)) end.

(** compressors.py:68-96 *)
Inductive coding := Gzip | Deflate | Brotli.
Definition decompressor (brotli : bool) (e : option str) : option (option coding) :=
  match e with
  | None => Some None
  | Some e =>
      if beqb e (text "gzip") then Some (Some Gzip)
      else if beqb e (text "deflate") then Some (Some Deflate)
      else if beqb e (text "br") then (if brotli then Some (Some Brotli) else None)
      else if beqb e (text "identity") then Some None
      else None
  end.

(** What the message is; a request has no attribute [status]. *)
Inductive kind := Request (connect head : bool) | Response (status : N).

Inductive reader :=
| NoReader | ReadChunked (d : option coding) | ReadExactly (n : N) (d : option coding) | ReadUntilEof
| PayloadErr | ValueErr | CodingErr | AttributeErr.

Definition with_decompressor (brotli : bool) (h : fields) (r : option coding -> reader) : reader :=
  match decompressor brotli (encoding h) with Some d => r d | None => CodingErr end.

(** http_protocol.py:431-456 *)
Definition second_choice (brotli : bool) (k : kind) (h : fields) (length : option N) : reader :=
  match k with
  | Request connect head => if head then NoReader else if connect then ReadUntilEof else NoReader
  | Response status =>
      match length with
      | None =>
          if empty_status status then NoReader
          else if chunked h then with_decompressor brotli h ReadChunked
          else ReadUntilEof
      | Some _ => NoReader
      end
  end.

(** http_protocol.py:415-429 *)
Definition first_choice (brotli : bool) (k : kind) (h : fields) (length : option N) : reader :=
  if upgraded h then second_choice brotli k h length
  else match k with
  | Request _ _ => AttributeErr
  | Response status =>
      if empty_status status then NoReader
      else if chunked h then with_decompressor brotli h ReadChunked
      else match length with
      | Some n => if (0 <? n)%N then with_decompressor brotli h (ReadExactly n) else second_choice brotli k h length
      | None => second_choice brotli k h length
      end
  end.

(** http_protocol.py:394-456 *)
Definition payload_reader_task (brotli : bool) (k : kind) (h : fields) : reader :=
  match get h ContentLength with
  | None => first_choice brotli k h None
  | Some l => if isdigit l then match to_int l with Some n => first_choice brotli k h (Some n) | None => ValueErr end else PayloadErr
  end.

(** client_response.py:187-205 *)
Definition response_reader (brotli : bool) (m : method_kind) (status : N) (h : fields) : reader :=
  match m with Connect | Head => NoReader | Other => payload_reader_task brotli (Response status) h end.

(** * Keep-alive information *)

Variable timeout : Type.
Variable timeout_eqb : timeout -> timeout -> bool.
Variable to_float : str -> option timeout.  (* float(...) *)
Variable format0 : timeout -> str.          (* format(..., '.0f') *)
Variable default_timeout : timeout.         (* 15.0 *)
Variable count : Type.                      (* int *)
Variable count_eqb : count -> count -> bool.
Variable to_count : str -> option count.    (* int(...) *)
Variable show_count : count -> str.         (* str(...) *)
Variable default_count : count.             (* 0 *)

Definition sp (c : N) : bool := ((c =? 32) || (c =? 9))%N.
Definition key_char (c : N) : bool := negb (sp c || (c =? 61)%N).
Definition value_char (c : N) : bool := negb (sp c || (c =? 44)%N || (c =? 36)%N).

(** constants.py:6, at the start of the text: the key, the value and what follows. *)
Definition match_at (l : str) : option (str * str * str) :=
  let l := drop_while sp l in
  match take_while key_char l with
  | [] => None
  | key =>
      match drop_while sp (drop_while key_char l) with
      | c :: l =>
          if (c =? 61)%N then
            let l := drop_while sp l in
            match take_while value_char l with
            | [] => None
            | value =>
                match drop_while sp (drop_while value_char l) with
                | [] => Some (key, value, [])
                | c :: rest => if (c =? 44)%N then Some (key, value, rest) else None
                end
            end
          else None
      | [] => None
      end
  end.

(** [finditer]: a match is looked for from every position, the next one after the end of the last one. *)
Fixpoint finditer (fuel : nat) (l : str) : list (str * str) :=
  match fuel with
  | 0 => []
  | S f =>
      match match_at l with
      | Some (k, v, rest) => (k, v) :: finditer f rest
      | None => match l with [] => [] | _ :: l => finditer f l end
      end
  end.

(** keep_alive_info.py:141-164 *)
Definition assign (i : timeout * count) (kv : str * str) : timeout * count :=
  let key := fold (fst kv) in
  if beqb key (text "timeout") then (match to_float (snd kv) with Some t => t | None => fst i end, snd i)
  else if beqb key (text "max") then (fst i, match to_count (snd kv) with Some n => n | None => snd i end)
  else i.

(** keep_alive_info.py:125-170 *)
Definition from_header_value (v : option str) : timeout * count :=
  match v with
  | None => (default_timeout, default_count)
  | Some v => fold_left assign (finditer (S (List.length v)) v) (default_timeout, default_count)
  end.

(** keep_alive_info.py:173-208 *)
Definition to_header_value (i : timeout * count) : option str :=
  let a := if timeout_eqb (fst i) default_timeout then [] else text "timeout=" ++ format0 (fst i) in
  let b := if count_eqb (snd i) default_count then [] else (match a with [] => [] | _ => [44%N] end) ++ text "max=" ++ show_count (snd i) in
  match a ++ b with [] => None | s => Some s end.

(** http_message.py:281-287 *)
Definition keep_alive (v : version) (h : fields) : option (timeout * count) :=
  if keep_alive_enabled v h then Some (from_header_value (get h KeepAlive)) else None.

End Python.
