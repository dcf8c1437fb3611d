(** Model of /repo/scarletio/web_common/header_building_and_parsing.py: the lists of extensions, sub-protocols, connection
    and upgrade names. Strings are lists of code points; an index into the header value is the rest of the value. *)

From Coq Require Import List Arith Bool NArith String.
From Verif Require Import Bytes Text.
Import ListNotations.

Definition parameter : Type := list N * option (list N).
Definition extension : Type := list N * list parameter.

(** header_building_and_parsing.py:8-10, the three character classes. *)
Definition tokenb (c : N) : bool :=
  ((48 <=? c) && (c <=? 57) || (65 <=? c) && (c <=? 90) || (97 <=? c) && (c <=? 122))%N
  || existsb (N.eqb c) (text "-!#$%&'*+.^_`|~").
Definition list_start (c : N) : bool := existsb (N.eqb c) [9; 32; 44]%N.
Definition spaceb (c : N) : bool := existsb (N.eqb c) [9; 32]%N.

(** [str.join] *)
Fixpoint sjoin (sep : list N) (parts : list (list N)) : list N :=
  match parts with [] => [] | [x] => x | x :: parts' => x ++ sep ++ sjoin sep parts' end.

(** header_building_and_parsing.py:48-52 *)
Definition build_parameter (p : parameter) : list N :=
  match snd p with None => fst p | Some v => fst p ++ [61%N] ++ v end.

(** header_building_and_parsing.py:20-57 *)
Definition build_extensions (es : list extension) : list N :=
  sjoin (text ", ") (map (fun e => sjoin (text "; ") (fst e :: map build_parameter (snd e))) es).

(** header_building_and_parsing.py:315-328 *)
Definition build_subprotocols (names : list (list N)) : list N := sjoin (text ", ") names.

(** [_TOKEN_RP.match] *)
Definition match_token (l : list N) : option (list N * list N) :=
  match take_while tokenb l with [] => None | t => Some (t, drop_while tokenb l) end.

(** header_building_and_parsing.py:198-242: the value after '='. *)
Definition parse_value (l : list N) : option (list N * list N) :=
  match drop_while spaceb l with
  | [] => None
  | 34%N :: l =>
      match match_token l with
      | Some (v, 34%N :: l) => Some (v, l)
      | _ => None
      end
  | l => match_token l
  end.

(** header_building_and_parsing.py:110-245, the loop of the parameters. The result is the list of the parameters and the
    rest after ',' ([None]: [return result]). *)
Fixpoint parse_parameters (fuel : nat) (check_start : bool) (l : list N) : option (list parameter * option (list N)) :=
  match fuel with
  | 0 => None
  | S f =>
      let key l :=
        match drop_while spaceb l with
        | [] => Some ([], Some [])
        | l =>
            match match_token l with
            | None => None
            | Some (k, l) =>
                match drop_while spaceb l with
                | [] => Some ([(k, None)], Some [])
                | 44%N :: l => Some ([(k, None)], Some l)
                | 59%N :: l => option_map (fun '(ps, r) => ((k, None) :: ps, r)) (parse_parameters f false l)
                | 61%N :: l =>
                    match parse_value l with
                    | None => None
                    | Some (v, l) => option_map (fun '(ps, r) => ((k, Some v) :: ps, r)) (parse_parameters f true l)
                    end
                | _ => None
                end
            end
        end in
      if check_start then
        match drop_while spaceb l with
        | [] => Some ([], None)
        | 44%N :: l => Some ([], Some l)
        | 59%N :: l => key l
        | _ => None
        end
      else key l
  end.

(** header_building_and_parsing.py:60-245; [None]: ValueError. *)
Fixpoint parse_extensions (fuel : nat) (l : list N) : option (list extension) :=
  match fuel with
  | 0 => None
  | S f =>
      match drop_while list_start l with
      | [] => Some []
      | l =>
          match match_token l with
          | None => None
          | Some (name, l) =>
              match parse_parameters (S (List.length l)) true l with
              | None => None
              | Some (ps, None) => Some [(name, ps)]
              | Some (ps, Some l) => option_map (cons (name, ps)) (parse_extensions f l)
              end
          end
      end
  end.

(** [_PROTOCOL_RP.match] *)
Definition match_protocol (l : list N) : option (list N * list N) :=
  match match_token l with
  | Some (a, 47%N :: l') =>
      match match_token l' with Some (b, l'') => Some (a ++ 47%N :: b, l'') | None => Some (a, 47%N :: l') end
  | r => r
  end.

(** header_building_and_parsing.py:248-312 with [_TOKEN_RP] and 334-397 with [_PROTOCOL_RP]. *)
Fixpoint parse_list (item : list N -> option (list N * list N)) (fuel : nat) (l : list N) : option (list (list N)) :=
  match fuel with
  | 0 => None
  | S f =>
      match drop_while list_start l with
      | [] => Some []
      | l =>
          match item l with
          | None => None
          | Some (name, l) =>
              match drop_while spaceb l with
              | [] => Some [name]
              | 44%N :: l => option_map (cons name) (parse_list item f l)
              | _ => None
              end
          end
      end
  end.
Definition parse_subprotocols (l : list N) := parse_list match_token (S (List.length l)) l.
Definition parse_upgrades (l : list N) := parse_list match_protocol (S (List.length l)) l.
