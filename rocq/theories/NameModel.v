(** Model of the names of /repo/scarletio/dns_query/helpers.py: 11-127, 170-215, 493-580. The methods of python's [str] and the
    'idna' codec are parameters. *)

From Coq Require Import List Arith Bool NArith.
From Verif Require Import Bytes Text QuoteModel.
Import ListNotations.

Section Names.
Variable isdigit isalnum isprintable : N -> bool.
Variable idna_encode : str -> option bytes.
Variable idna_decode : bytes -> option str.

(** helpers.py:37-92; [part]: [part_parts]. [None]: ValueError. *)
Fixpoint split_name (part l : str) : option (list str) :=
  match l with
  | [] => Some (match part with [] => [] | _ => [part] end)
  | c :: l1 =>
      if N.eqb c 46 then option_map (cons part) (split_name [] l1)
      else if negb (N.eqb c 92) then split_name (part ++ [c]) l1
      else
        match l1 with
        | [] => None
        | d :: l2 =>
            if negb (isdigit d) then split_name (part ++ [d]) l2
            else
              match l2 with
              | d1 :: d2 :: l3 =>
                  if isdigit d1 && isdigit d2 then
                    let total := ((N.land d 15 * 10 + N.land d1 15) * 10 + N.land d2 15)%N in
                    if N.ltb 255 total then None else split_name (part ++ [total]) l3
                  else None
              | _ => None
              end
        end
  end.

(** helpers.py:106-125; [None]: ValueError or UnicodeError. *)
Fixpoint encode_parts (split : list str) : option (list bytes) :=
  match split with
  | [] => Some []
  | part :: split' =>
      match (if forallb (fun c => N.ltb c 128) part then Some part else idna_encode part) with
      | None => None
      | Some label => if Nat.ltb 63 (length label) then None else option_map (cons label) (encode_parts split')
      end
  end.

(** helpers.py:11-127; [Some []]: None. *)
Definition parse_labels_from_name (name : str) : option (list bytes) :=
  match split_name [] name with
  | None => None
  | Some split =>
      match split with
      | [] => Some []
      | [part] => if beqb part [64%N] || beqb part [] then Some [] else encode_parts split
      | _ => if existsb (fun part => beqb part []) split then None else encode_parts split
      end
  end.

(** helpers.py:192-213 for one character. *)
Definition escape_character (c : N) : str :=
  if mem c [46; 92; 59; 64; 36; 40; 41; 34]%N then [92%N; c]
  else if isalnum c then [c]
  else if negb (isprintable c) || N.ltb c 33 then
    [92%N] ++ (if N.ltb c 100 then [48%N] else []) ++ (if N.ltb c 10 then [48%N] else []) ++ dec c
  else [c].

(** helpers.py:186-213 *)
Fixpoint build_characters (first : bool) (labels : list bytes) : option str :=
  match labels with
  | [] => Some []
  | label :: labels' =>
      match idna_decode label, build_characters false labels' with
      | Some characters, Some r => Some ((if first then [] else [46%N]) ++ flat_map escape_character characters ++ r)
      | _, _ => None
      end
  end.

(** helpers.py:170-215; the empty list is [None]. *)
Definition build_name_from_labels (labels : list bytes) : option str :=
  match labels with [] => Some [64%N] | _ => build_characters true labels end.
End Names.

(** helpers.py:538-580; the labels which are tried, in order. *)
Definition iter_labels_with_searches (required_dot_count : nat) (searches searches_fallback : option (list (list bytes)))
    (initial_labels : option (list bytes)) : list (list bytes) :=
  (if (match initial_labels with Some l => Nat.ltb required_dot_count (length l) | None => false end) then []
   else
     match (match searches with Some s => Some s | None => searches_fallback end) with
     | None => []
     | Some s => map (fun labels_prefix => match initial_labels with Some l => labels_prefix ++ l | None => labels_prefix end) s
     end) ++
  match initial_labels with Some l => [l] | None => [] end.

Record address := { a_type : N; a_value : N; a_tag : nat }.
Record sort_element := { s_type : N; s_value : N; s_mask : N }.

(** helpers.py:519-522 *)
Definition matches (e : sort_element) (a : address) : bool :=
  negb (negb (N.eqb (a_type a) (s_type e)) || negb (N.eqb (N.land (a_value a) (s_mask e)) (s_value e))).

(** helpers.py:515-533: what is yielded and what is left in the list. *)
Fixpoint scan (e : sort_element) (l : list address) : list address * list address :=
  match l with
  | [] => ([], [])
  | a :: l' => let '(y, k) := scan e l' in if matches e a then (a :: y, k) else (y, a :: k)
  end.

(** helpers.py:493-535 *)
Fixpoint iter_addresses_ordered (sort_list : list sort_element) (l : list address) : list address :=
  match sort_list with
  | [] => l
  | e :: sort_list' =>
      let '(y, k) := scan e l in
      match y, k with
      | _ :: _, [] => y                       (* 530-531 *)
      | _, _ => y ++ iter_addresses_ordered sort_list' k
      end
  end.
