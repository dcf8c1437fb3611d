(** Model of the ip addresses as text: /repo/scarletio/dns_query/helpers.py:218-318, 351-462 and the expressions of
    /repo/scarletio/dns_query/constants.py. *)

From Coq Require Import List Arith Bool NArith.
From Verif Require Import Bytes Text QuoteModel.
Import ListNotations.

(** The parts between separators. *)
Fixpoint split_on (sep : N) (l : str) : list str :=
  match l with
  | [] => [[]]
  | c :: l' =>
      if N.eqb c sep then [] :: split_on sep l'
      else match split_on sep l' with x :: r => (c :: x) :: r | [] => [[c]] end
  end.

Definition between (a b c : N) : bool := (N.leb a c && N.leb c b)%N.

(** * IPv4 *)

(** A group of IP_V4_RP, constants.py:22-27, and its [int]. *)
Definition octet (p : str) : option N :=
  match p with
  | [a] => if between 48 57 a then Some (a - 48)%N else None
  | [a; b] => if between 49 57 a && between 48 57 b then Some (10 * (a - 48) + (b - 48))%N else None
  | [a; b; c] =>
      if N.eqb a 49 && between 48 57 b && between 48 57 c ||
         N.eqb a 50 && (between 48 52 b && between 48 57 c || N.eqb b 53 && between 48 53 c)
      then Some (100 * (a - 48) + 10 * (b - 48) + (c - 48))%N else None
  | _ => None
  end.

(** helpers.py:218-241; [None]: not matched. *)
Definition parse_ip_v4_string (s : str) : option N :=
  match split_on 46 s with
  | [a; b; c; d] =>
      match octet a, octet b, octet c, octet d with
      | Some a, Some b, Some c, Some d =>
          Some (fold_left (fun v p => N.lor v (N.shiftl (fst p) (snd p))) (combine [a; b; c; d] [24; 16; 8; 0]%N) 0%N)
      | _, _, _, _ => None
      end
  | _ => None
  end.

(** helpers.py:351-372 *)
Definition produce_ip_v4_string (v : N) : str :=
  dec (N.land (N.shiftr v 24) 255) ++ [46%N] ++ dec (N.land (N.shiftr v 16) 255) ++ [46%N] ++
  dec (N.land (N.shiftr v 8) 255) ++ [46%N] ++ dec (N.land v 255).

(** * IPv6 *)

(** [[0-9a-f]] *)
Definition hex_digit (c : N) : option N :=
  if between 48 57 c then Some (c - 48)%N else if between 97 102 c then Some (c - 87)%N else None.

(** [int(value, 16)] *)
Fixpoint hex_number (acc : N) (p : str) : option N :=
  match p with
  | [] => Some acc
  | c :: p' => match hex_digit c with Some d => hex_number (16 * acc + d) p' | None => None end
  end.

(** [([0-9a-f]{1,4})] *)
Definition group (p : str) : option N :=
  match p with [] => None | _ => if Nat.ltb 4 (length p) then None else hex_number 0 p end.

Fixpoint groups (parts : list str) : option (list N) :=
  match parts with
  | [] => Some []
  | p :: parts' => match group p, groups parts' with Some v, Some r => Some (v :: r) | _, _ => None end
  end.

(** [ip_value |= int(value, 16) << shift], for each group which is there. *)
Definition place (v : N) (gs : list (option N)) (shifts : list N) : N :=
  fold_left (fun v p => match fst p with None => v | Some g => N.lor v (N.shiftl g (snd p)) end) (combine gs shifts) v.

Definition padding (n : nat) (gs : list N) : list (option N) := repeat None (n - length gs).

(** The parts before the first empty one, and those after it. *)
Fixpoint cut_empty (parts : list str) : option (list str * list str) :=
  match parts with
  | [] => None
  | [] :: r => Some ([], r)
  | p :: r => option_map (fun '(a, b) => (p :: a, b)) (cut_empty r)
  end.

Definition count_in (a b : nat) {A} (l : list A) : bool := Nat.leb a (length l) && Nat.leb (length l) b.

(** IP_V6_RP, IP_V6_RP_WITH_COLON_AT_START, IP_V6_WITH_COLON_AT_END and IP_V6_WITH_COLON_IN_MIDDLE (constants.py:28-53) on the
    parts between the colons; the groups which are there. *)
Definition match_full (parts : list str) : option (list N) := if Nat.eqb (length parts) 8 then groups parts else None.
Definition match_start (parts : list str) : option (list N) :=
  match parts with [] :: [] :: r => if count_in 1 7 r then groups r else None | _ => None end.
Definition match_end (parts : list str) : option (list N) :=
  match rev parts with [] :: [] :: r => if count_in 1 7 r then groups (rev r) else None | _ => None end.
Definition match_middle (parts : list str) : option (list N * list N) :=
  match cut_empty parts with
  | Some (a, b) =>
      if count_in 1 6 a && count_in 1 6 b
      then match groups a, groups b with Some a', Some b' => Some (a', b') | _, _ => None end
      else None
  | None => None
  end.

(** helpers.py:244-318; [None]: not matched. *)
Definition parse_ip_v6_string (s : str) : option N :=
  let body := match find [37%N] s with None => s | Some i => firstn i s end in
  if beqb s [58; 58]%N then Some 0%N
  else
    let parts := split_on 58 body in
    match match_full parts with
    | Some gs => Some (place 0 (map Some gs) [112; 96; 80; 64; 48; 32; 16; 0]%N)
    | None =>
        match match_start parts with
        | Some gs => Some (place 0 (padding 7 gs ++ map Some gs) [96; 80; 64; 48; 32; 16; 0]%N)
        | None =>
            match match_end parts with
            | Some gs => Some (place 0 (map Some gs ++ padding 7 gs) [112; 96; 80; 64; 48; 32; 16]%N)
            | None =>
                match match_middle parts with
                | Some (a, b) =>
                    if Nat.ltb (length a + length b) 8
                    then Some (place (place 0 (map Some a ++ padding 6 a) [112; 96; 80; 64; 48; 32]%N)
                                 (padding 6 b ++ map Some b) [80; 64; 48; 32; 16; 0]%N)
                    else None
                | None => None
                end
            end
        end
    end.

(** [format(value, 'x')] of a number under 65536. *)
Definition hex_char (d : N) : N := if N.ltb d 10 then (48 + d)%N else (87 + d)%N.
Definition hex (v : N) : str :=
  if N.ltb v 16 then [hex_char v]
  else if N.ltb v 256 then [hex_char (v / 16); hex_char (v mod 16)]
  else if N.ltb v 4096 then [hex_char (v / 256); hex_char (v / 16 mod 16); hex_char (v mod 16)]
  else [hex_char (v / 4096); hex_char (v / 256 mod 16); hex_char (v / 16 mod 16); hex_char (v mod 16)].

Record runs := { largest_start : N; largest_length : N; current_start : N; current_length : N }.

(** helpers.py:396-422, one step; [zero]: [not value]. *)
Definition run_step (r : runs) (p : N * bool) : runs :=
  let '(shift, zero) := p in
  if zero then
    if negb (N.eqb (current_length r) 0)
    then {| largest_start := largest_start r; largest_length := largest_length r;
            current_start := current_start r; current_length := current_length r + 16 |}
    else {| largest_start := largest_start r; largest_length := largest_length r; current_start := shift; current_length := 16 |}
  else if N.eqb (current_length r) 0 then r
  else if N.eqb (largest_length r) 0 || N.ltb (largest_length r) (current_length r) ||
          (N.eqb (largest_length r) (current_length r) && N.eqb (largest_start r) 112)
  then {| largest_start := current_start r; largest_length := current_length r; current_start := current_start r; current_length := 0 |}
  else {| largest_start := largest_start r; largest_length := largest_length r; current_start := current_start r; current_length := 0 |}.

(** helpers.py:390-426: (largest_sequence_start, largest_sequence_length) *)
Definition largest_run (zeros : list (N * bool)) : N * N :=
  let r := fold_left run_step zeros {| largest_start := 0; largest_length := 0; current_start := 0; current_length := 0 |} in
  if negb (N.eqb (current_length r) 0) && N.ltb (largest_length r) (current_length r)
  then (current_start r, current_length r) else (largest_start r, largest_length r).

Definition all_shifts : list N := [112; 96; 80; 64; 48; 32; 16; 0]%N.
Definition unit_at (v shift : N) : N := N.land (N.shiftr v shift) 65535.

(** helpers.py:375-462; the ranges are the shifts over or under a bound. *)
Definition produce_ip_v6_string (v : N) : str :=
  let text := fun shift => hex (unit_at v shift) in
  let '(start, len) := largest_run (map (fun shift => (shift, N.eqb (unit_at v shift) 0)) all_shifts) in
  (if N.eqb len 0 then flat_map (fun shift => text shift ++ if N.eqb shift 0 then [] else [58]) all_shifts
   else if N.eqb len 128 then [58; 58]
   else if N.eqb start 112 then
     [58] ++ flat_map (fun shift => [58] ++ text shift) (filter (fun shift => N.leb shift (112 - len)) all_shifts)
   else if N.eqb (start + 16) len then
     flat_map (fun shift => text shift ++ [58]) (filter (fun shift => N.ltb (len - 16) shift) all_shifts) ++ [58]
   else
     flat_map (fun shift => text shift ++ [58]) (filter (fun shift => N.ltb start shift) all_shifts) ++
     flat_map (fun shift => [58] ++ text shift) (filter (fun shift => N.leb shift (start - len)) all_shifts))%N.
