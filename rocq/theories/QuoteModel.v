(** Model of /repo/scarletio/web_common/quoting.py and of [parse_query] / [serialize_query] of
    /repo/scarletio/web_common/url/url_query.py. Strings are lists of code points. *)

From Coq Require Import List Arith Bool NArith.
From Verif Require Import Bytes.
Import ListNotations.

Definition str := list N.
Definition mem (c : N) (l : str) : bool := existsb (N.eqb c) l.

(** * utf-8, as [str.encode('utf8')] and [bytes.decode('utf8')] (strict) of CPython *)

Definition encode1 (c : N) : bytes :=
  (if c <? 128 then [c]
   else if c <? 2048 then [192 + c / 64; 128 + c mod 64]
   else if c <? 65536 then [224 + c / 4096; 128 + (c / 64) mod 64; 128 + c mod 64]
   else [240 + c / 262144; 128 + (c / 4096) mod 64; 128 + (c / 64) mod 64; 128 + c mod 64])%N.
Definition utf8 (s : str) : bytes := flat_map encode1 s.

Definition cont (b : N) : bool := (N.leb 128 b && N.ltb b 192)%N.

(** [None]: UnicodeDecodeError. *)
Fixpoint utf8_decode (l : bytes) : option str :=
  match l with
  | [] => Some []
  | a :: l1 =>
      (if a <? 128 then option_map (cons a) (utf8_decode l1)
       else
         match l1 with
         | [] => None
         | b :: l2 =>
             if (194 <=? a) && (a <? 224) then
               if cont b then option_map (cons ((a - 192) * 64 + (b - 128))) (utf8_decode l2) else None
             else
               match l2 with
               | [] => None
               | c :: l3 =>
                   if (224 <=? a) && (a <? 240) then
                     let v := (a - 224) * 4096 + (b - 128) * 64 + (c - 128) in
                     if cont b && cont c && (2048 <=? v) && negb ((55296 <=? v) && (v <? 57344))
                     then option_map (cons v) (utf8_decode l3) else None
                   else
                     match l3 with
                     | [] => None
                     | d :: l4 =>
                         let v := (a - 240) * 262144 + (b - 128) * 4096 + (c - 128) * 64 + (d - 128) in
                         if (240 <=? a) && (a <? 245) && cont b && cont c && cont d && (65536 <=? v) && (v <? 1114112)
                         then option_map (cons v) (utf8_decode l4) else None
                     end
               end
         end)%N
  end.

(** * quoting.py *)

Definition range (a n : nat) : str := map N.of_nat (seq a n).

(** quoting.py:7-13 *)
Definition unreserved : str := (range 65 26 ++ range 97 26 ++ range 48 10 ++ [45; 46; 95; 126])%N.
Definition sub_delimiters_without_quotes : str := [33; 36; 39; 40; 41; 42; 44; 59]%N.
Definition query_string_not_safe : str := [43; 38; 61]%N.
Definition allowed : str := unreserved ++ sub_delimiters_without_quotes.

(** quoting.py:37-59; [None]: ValueError. *)
Definition b16_to_int (char : N) : option N :=
  (let value := N.land char 7 in
   if (48 <=? char) && (char <=? 57) then Some value
   else if (97 <=? char) && (char <=? 102) || (65 <=? char) && (char <=? 70) then Some (value + 9)
   else None)%N.

(** quoting.py:62-80 *)
Definition int_to_b16 (value : N) : N :=
  (let char := N.lor 48 value in if 9 <? value then char + 39 else char)%N.

(** One digit of the format ['02X'] (151). *)
Definition upper_digit (v : N) : N := (if v <? 10 then 48 + v else 55 + v)%N.
Definition escape (b : N) : str := [37%N; upper_digit (b / 16); upper_digit (b mod 16)].

(** quoting.py:126-131 *)
Definition safe_set (safe protected : str) (qs : bool) : str :=
  safe ++ allowed ++ protected ++ (if qs then [] else query_string_not_safe).

(** quoting.py:139-151 *)
Definition quote_byte (set : str) (qs : bool) (b : N) : str :=
  if qs && N.eqb b 32 then [43%N] else if mem b set then [b] else escape b.

(** quoting.py:83-153; [result.decode('ascii')] raises for a byte over 127: [None]. *)
Definition quote (safe protected : str) (qs : bool) (value : str) : option str :=
  let result := flat_map (quote_byte (safe_set safe protected qs) qs) (utf8 value) in
  if forallb (fun b => N.ltb b 128) result then Some result else None.

(** quoting.py:213-218, 269-274: what is appended for decoded percentages. *)
Definition render (unsafe : option str) (qs : bool) (unquoted : str) : str :=
  let inside := fun set => match unquoted with [c] => mem c set | _ => false end in
  if qs && inside query_string_not_safe
  then match quote [] [] true unquoted with Some q => q | None => [] end
  else if (match unsafe with Some u => inside u | None => false end)
  then match quote [] [] false unquoted with Some q => q | None => [] end
  else unquoted.

(** quoting.py:206-220 *)
Definition flush (unsafe : option str) (qs : bool) (pct : option bytes) : option bytes * str :=
  match pct with
  | None => (None, [])
  | Some p => match utf8_decode p with None => (Some p, []) | Some u => (None, render unsafe qs u) end
  end.

(** quoting.py:258-274; [joined]: not -1. *)
Definition final (unsafe : option str) (qs : bool) (pct : option bytes) (joined : bool) (c0 c1 : N) : str :=
  match pct with
  | None => []
  | Some p =>
      match utf8_decode p with
      | None => if joined then [37%N; c0; c1] else []
      | Some u => render unsafe qs u
      end
  end.

(** The loop, quoting.py:204-255. *)
Fixpoint unquote_loop (unsafe : option str) (qs : bool) (pct : option bytes) (joined : bool) (c0 c1 : N) (l : str) : option str :=
  match l with
  | [] => Some (final unsafe qs pct joined c0 c1)
  | char :: l1 =>
      let '(pct, out) := flush unsafe qs pct in
      option_map (app out)
        (if N.eqb char 37 then
           match l1 with
           | [] => Some (final unsafe qs pct joined c0 c1)
           | [d0] => Some (final unsafe qs pct joined d0 c1)
           | d0 :: d1 :: l2 =>
               match b16_to_int d0, b16_to_int d1 with
               | Some a, Some b =>
                   unquote_loop unsafe qs (Some (match pct with Some p => p | None => [] end ++ [N.lor (N.shiftl a 4) b])) true d0 d1 l2
               | _, _ => None
               end
           end
         else
           let broken := (match pct with Some _ => joined | None => false end) in
           let joined := joined && negb broken in
           option_map (app (if broken then [37%N; c0; c1] else []))
             (if N.eqb char 43 then
                option_map (cons (match unsafe with Some u => if mem char u then char else 32%N | None => 32%N end))
                  (unquote_loop unsafe qs pct joined c0 c1 l1)
              else if (match unsafe with Some u => mem char u | None => false end) then
                option_map (app [37%N; int_to_b16 (N.shiftr char 4); int_to_b16 (N.land char 15)])
                  (unquote_loop unsafe qs pct joined c0 c1 l1)
              else option_map (cons char) (unquote_loop unsafe qs pct joined c0 c1 l1)))
  end.

(** quoting.py:158-276; [None]: ValueError. *)
Definition unquote (unsafe : option str) (qs : bool) (value : str) : option str :=
  unquote_loop unsafe qs None false 0 0 value.

(** * url_query.py *)

(** url_query.py:14-15: safe = '/?:@=' *)
Definition encode_query (s : str) : option str := quote [47; 63; 58; 64; 61]%N [] true s.
Definition decode_query (s : str) : option str := unquote None false s.

(** url_query.py:49-67 for one item. *)
Definition parse_item (item : str) : option (list (str * str)) :=
  match item with
  | [] => Some []
  | _ =>
      let '(k, v) := match find [61%N] item with
                     | None => (item, [])
                     | Some i => (firstn i item, skipn (S i) item)
                     end in
      match decode_query k, decode_query v with Some k', Some v' => Some [(k', v')] | _, _ => None end
  end.

(** The loop, url_query.py:41-70, with [encoded = True]; the items as they are given to the dictionary. *)
Fixpoint parse_query (fuel : nat) (l : str) : option (list (str * str)) :=
  match fuel, l with
  | 0, _ | _, [] => Some []
  | S f, _ =>
      let '(item, rest) := match find [38%N] l with None => (l, []) | Some i => (firstn i l, skipn (S i) l) end in
      match parse_item item, parse_query f rest with Some a, Some b => Some (a ++ b) | _, _ => None end
  end.

(** url_query.py:291-311 with [encoded = True]: the items of the dictionary in the order of the sorted keys. *)
Fixpoint serialize_query (first : bool) (items : list (str * str)) : option str :=
  match items with
  | [] => Some []
  | (k, v) :: items' =>
      match encode_query k, encode_query v, serialize_query false items' with
      | Some k', Some v', Some r => Some ((if first then [] else [38%N]) ++ k' ++ [61%N] ++ v' ++ r)
      | _, _, _ => None
      end
  end.
