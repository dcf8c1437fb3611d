(** Model of the Content-Disposition header: [build_content_disposition_header] of
    /repo/scarletio/web_common/header_building_and_parsing.py (13-18, 400-492), [parse_content_disposition] and
    [get_content_disposition_file_name] of /repo/scarletio/web_common/multipart.py (802-1067).

    Strings are lists of code points, a [dict] is the list of its items. [str.lower], [str.casefold], [str.isspace] (what
    [strip] takes away) and [str.isdigit] are parameters. [quote] and [unquote] are those of QuoteModel. A set of
    characters is a list of strings of one character; [TOKENS] also has the string of two characters ', '. *)

From Coq Require Import List Arith Bool NArith.
From Verif Require Import Bytes QuoteModel.
Import ListNotations.

(** header_building_and_parsing.py:13-18 *)
Definition char_set : list str := map (fun n => [N.of_nat n]) (seq 0 128).
Definition controls : list str := map (fun n => [N.of_nat n]) (seq 0 32 ++ [127]).
Definition separators : list str :=
  [[40]; [41]; [60]; [62]; [64]; [44; 32]; [59]; [58]; [92]; [34]; [47]; [91]; [93]; [63]; [61]; [123]; [125]; [32]; [9]]%N.

Definition inside (x : str) (l : list str) : bool := existsb (beqb x) l.
(** [^] of sets *)
Definition sym_diff (a b : list str) : list str :=
  filter (fun x => negb (inside x b)) a ++ filter (fun x => negb (inside x a)) b.
(** [a < b] of sets *)
Definition below (a b : list str) : bool := forallb (fun x => inside x b) a && negb (forallb (fun x => inside x a) b).
(** {*value} *)
Definition set_of (s : str) : list str := map (fun c => [c]) s.

Definition tokens : list str := sym_diff (sym_diff char_set controls) separators.

(** 400-401 *)
Definition escapable (c : N) : bool := negb ((c =? 33) || (35 <=? c) && (c <=? 91) || (93 <=? c) && (c <=? 126))%N.
Definition usascii : list str := [9%N] :: map (fun n => [N.of_nat n]) (seq 32 95).

(** 420-437 *)
Definition try_usascii_escape (value : str) : bool * str :=
  if negb (below (set_of value) usascii) then (false, value)
  else (true, flat_map (fun c => if escapable c then [92%N; c] else [c]) value).

(** [str.encode('utf8')] raises for surrogates. *)
Definition encodable (value : str) : bool := forallb (fun c => (c <? 55296) || (57344 <=? c) && (c <? 1114112))%N value.

(** str.replace of one character *)
Definition replace1 (c : N) (by_ : str) (s : str) : str := flat_map (fun x => if N.eqb x c then by_ else [x]) s.

Definition s_file_name : str := [102; 105; 108; 101; 95; 110; 97; 109; 101]%N.
Definition s_filename : str := [102; 105; 108; 101; 110; 97; 109; 101]%N.
Definition s_utf8 : str := [117; 116; 102; 45; 56]%N.

Definition quoted (v : str) : str := [34%N] ++ v ++ [34%N].

(** 463-490 for one parameter; [None]: an exception *)
Definition build_parameter (quote_fields : bool) (key value : str) : option str :=
  let key := if beqb key s_file_name then s_filename else key in
  if match key with [] => true | _ => false end || negb (below (set_of key) tokens) then None
  else
    if quote_fields then
      let '(escaped, value) := try_usascii_escape value in
      if escaped then Some ([59; 32]%N ++ key ++ [61%N] ++ quoted value)
      else if encodable value then
        match quote [] [] false value with
        | Some q => Some ([59; 32]%N ++ key ++ [42; 61]%N ++ s_utf8 ++ [39; 39]%N ++ q)
        | None => None
        end
      else None
    else Some ([59; 32]%N ++ key ++ [61%N] ++ quoted (replace1 34 [92; 34]%N (replace1 92 [92; 92]%N value))).

Fixpoint build_parameters (quote_fields : bool) (parameters : list (str * str)) : option str :=
  match parameters with
  | [] => Some []
  | (k, v) :: rest =>
      match build_parameter quote_fields k v, build_parameters quote_fields rest with
      | Some a, Some b => Some (a ++ b)
      | _, _ => None
      end
  end.

(** 440-492 *)
Definition build (disposition_type : str) (parameters : list (str * str)) (quote_fields : bool) : option str :=
  if match disposition_type with [] => true | _ => false end || negb (below (set_of disposition_type) tokens) then None
  else option_map (app disposition_type) (build_parameters quote_fields parameters).

(** * multipart.py *)

(** str.split of one character *)
Fixpoint split (c : N) (s : str) : list str :=
  match s with
  | [] => [[]]
  | x :: s' =>
      if N.eqb x c then [] :: split c s'
      else match split c s' with [] => [[x]] | p :: ps => (x :: p) :: ps end
  end.

(** str.split(c, 1) of a text with the character *)
Fixpoint split1 (c : N) (s : str) : option (str * str) :=
  match s with
  | [] => None
  | x :: s' => if N.eqb x c then Some ([], s') else option_map (fun p => (x :: fst p, snd p)) (split1 c s')
  end.

Definition has (c : N) (s : str) : bool := existsb (N.eqb c) s.
Definition ends (c : N) (s : str) : bool := match rev s with x :: _ => N.eqb x c | [] => false end.
Definition count (c : N) (s : str) : nat := length (filter (N.eqb c) s).

Fixpoint dict_get (d : list (str * str)) (k : str) : option str :=
  match d with [] => None | (k', v) :: d' => if beqb k' k then Some v else dict_get d' k end.

Section Parse.
Variables (space : N -> bool) (lower casefold : str -> str) (isdigit : str -> bool).

Fixpoint drop (f : N -> bool) (s : str) : str := match s with c :: s' => if f c then drop f s' else s | [] => [] end.
Definition lstrip (s : str) : str := drop space s.
Definition strip (s : str) : str := rev (drop space (rev (drop space s))).

(** 802-826 *)
Definition is_continuous_parameter (s : str) : bool :=
  match split1 42 s with
  | None => false
  | Some (_, rest) => isdigit (if ends 42 s then removelast rest else rest)
  end.

(** 829-848 *)
Definition is_token (s : str) : bool :=
  match s with [] => false | _ => negb (below tokens (set_of s)) end.

(** 851-867 *)
Definition is_quoted (s : str) : bool := (1 <? length s) && (match s with c :: _ => N.eqb c 34 | [] => false end) && ends 34 s.

(** 870-883 *)
Definition is_extended_parameter (s : str) : bool := ends 42 s.

(** 886-914 *)
Definition is_rfc5987 (s : str) : bool := is_token s && (count 39 s =? 2).

(** 917-932 *)
Fixpoint unescape (s : str) : str :=
  match s with
  | [] => []
  | c :: s1 =>
      match s1 with
      | [] => [c]
      | d :: s2 => if N.eqb c 92 && (d <? 128)%N then d :: unescape s2 else c :: unescape s1
      end
  end.

Definition inner (s : str) : str := removelast (tl s).
(** .lstrip('\\/') *)
Definition lstrip_slashes (s : str) : str := drop (fun c => N.eqb c 92 || N.eqb c 47) s.

(** What the function returns, or that it raises. *)
Inductive parsed := Parsed (disposition_type : option str) (parameters : list (str * str)) | Raises.

(** 959-1013; [unquote] is called with the encoding as [unsafe] and with 'strict' as [query_string]. [fuel] is the number of
    the parts. *)
Fixpoint parse_parts (fuel : nat) (disposition_type : str) (parts : list str) (parameters : list (str * str)) : parsed :=
  match fuel, parts with
  | 0, _ | _, [] => Parsed (Some (casefold disposition_type)) parameters
  | S fuel, item :: parts =>
      match split1 61 item with
      | None => Parsed None parameters
      | Some (key, value) =>
          let key := strip (lower key) in
          let value := lstrip value in
          if match dict_get parameters key with Some _ => true | None => false end then Parsed None parameters
          else if negb (is_token key) then parse_parts fuel disposition_type parts parameters
          else if is_continuous_parameter key then
            if is_quoted value then parse_parts fuel disposition_type parts (parameters ++ [(key, unescape (inner value))])
            else if negb (is_token value) then parse_parts fuel disposition_type parts parameters
            else parse_parts fuel disposition_type parts (parameters ++ [(key, value)])
          else if is_extended_parameter key then
            if negb (is_rfc5987 value) then parse_parts fuel disposition_type parts parameters
            else
              match split 39 value with
              | encoding :: _ :: value :: _ =>
                  let encoding := match encoding with [] => s_utf8 | _ => encoding end in
                  match unquote (Some encoding) true value with
                  | Some value => parse_parts fuel disposition_type parts (parameters ++ [(key, value)])
                  | None => Raises
                  end
              | _ => Raises
              end
          else
            if is_quoted value then Parsed None []
            else if is_token value then parse_parts fuel disposition_type parts (parameters ++ [(key, value)])
            else
              match parts with
              | [] => Parsed None []
              | next :: rest =>
                  let joined := value ++ [59%N] ++ next in
                  if is_quoted joined
                  then parse_parts fuel disposition_type rest (parameters ++ [(key, unescape (lstrip_slashes (inner joined)))])
                  else Parsed None []
              end
      end
  end.

(** 935-1013 *)
Definition parse (header : str) : parsed :=
  match header with
  | [] => Parsed None []
  | _ =>
      match split 59 header with
      | [] => Parsed None []
      | disposition_type :: parts =>
          if negb (is_token disposition_type) then Parsed None []
          else parse_parts (length parts) disposition_type parts []
      end
  end.

End Parse.

(** The order of strings, of code points. *)
Fixpoint sleb (a b : str) : bool :=
  match a, b with
  | [], _ => true
  | _ :: _, [] => false
  | x :: a, y :: b => if (x <? y)%N then true else if (y <? x)%N then false else sleb a b
  end.
(** The order of pairs of strings; the keys of a dictionary are different. *)
Fixpoint insert (p : str * str) (l : list (str * str)) : list (str * str) :=
  match l with [] => [p] | q :: l' => if sleb (fst p) (fst q) then p :: l else q :: insert p l' end.
Definition sorted (l : list (str * str)) : list (str * str) := fold_right insert [] l.

(** str of a number *)
Fixpoint digits (fuel n : nat) : str :=
  match fuel with
  | 0 => []
  | S fuel => (if n <? 10 then [] else digits fuel (n / 10)) ++ [N.of_nat (48 + n mod 10)]
  end.
Definition show (n : nat) : str := digits (S n) n.

Definition s_filename_star : str := s_filename ++ [42%N].

(** 1049-1056 *)
Fixpoint continued (index : nat) (l : list (str * str)) : list str :=
  match l with
  | [] => []
  | (key, value) :: l' =>
      match split1 42 key with
      | None => []
      | Some (_, tail) =>
          let tail := if ends 42 tail then removelast tail else tail in
          if beqb tail (show index) then value :: continued (S index) l' else []
      end
  end.

Inductive file_name := Name (name : option str) | NameRaises.

(** 1016-1067 *)
Definition get_file_name (parameters : list (str * str)) (name : str) : file_name :=
  match parameters with
  | [] => Name None
  | _ =>
      match dict_get parameters (name ++ [42%N]) with
      | Some v => Name (Some v)
      | None =>
          match dict_get parameters name with
          | Some v => Name (Some v)
          | None =>
              match continued 0 (sorted (filter (fun p => starts_with s_filename_star (fst p)) parameters)) with
              | [] => Name None
              | values =>
                  let value := concat values in
                  if negb (has 39 value) then Name (Some value)
                  else
                    match split1 39 value with
                    | Some (encoding, rest) =>
                        match split1 39 rest with
                        | Some (_, value) =>
                            match unquote (Some (match encoding with [] => s_utf8 | _ => encoding end)) true value with
                            | Some v => Name (Some v)
                            | None => NameRaises
                            end
                        | None => NameRaises
                        end
                    | None => NameRaises
                    end
              end
          end
      end
  end.
