(** Model of the paths of urls (/repo/scarletio/web_common/url/url_path.py) and of the comparison of hosts
    (/repo/scarletio/web_common/url/url_host_info.py). *)

From Coq Require Import List Arith Bool NArith String.
From Verif Require Import Bytes Text QuoteModel.
Import ListNotations.

Notation segment := str (only parsing).
Definition dot : segment := [46]%N.
Definition dot_dot : segment := [46; 46]%N.

(** url_path.py:35-48; [kept]: [index] is not zero. The list, and the count of the deleted. *)
Fixpoint remove_dots (kept : bool) (parts : list segment) : list segment * nat :=
  match parts with
  | [] => ([], 0)
  | part :: parts' =>
      if beqb part dot then
        match parts' with
        | [] => if kept then ([[]], 0) else ([], 1)
        | _ => let '(r, n) := remove_dots kept parts' in (r, S n)
        end
      else let '(r, n) := remove_dots true parts' in (part :: r, n)
  end.

(** [del parts[index]] *)
Fixpoint del_at {A} (index : nat) (l : list A) : list A :=
  match l, index with
  | [], _ => []
  | _ :: l', 0 => l'
  | x :: l', S i => x :: del_at i l'
  end.

(** url_path.py:53-66; the loop over the indexes below [index], downwards. (parts, to_delete, deleted_count) *)
Fixpoint remove_double_dots (index : nat) (parts : list segment) (to_delete deleted : nat) : list segment * nat * nat :=
  match index with
  | 0 => (parts, to_delete, deleted)
  | S i =>
      if beqb (nth i parts []) dot_dot then remove_double_dots i parts (S to_delete) deleted
      else match to_delete with
           | 0 => remove_double_dots i parts 0 deleted
           | S t => remove_double_dots i (del_at i (del_at i parts)) t (S (S deleted))
           end
  end.

(** url_path.py:14-82; [None] is [None]. *)
Definition normalize_path_parts (parts : list segment) : option (list segment) :=
  let '(parts, n) := remove_dots false parts in
  let '(parts, to_delete, n) := remove_double_dots (List.length parts) parts 0 n in
  let parts := skipn to_delete parts in
  let n := n + to_delete in
  let parts := match parts with [[]] => if Nat.eqb n 0 then parts else [] | _ => parts end in
  match parts with [] => None | _ => Some parts end.

(** [value.split('/')] *)
Fixpoint split_slash (l : str) : list segment :=
  match l with
  | [] => [[]]
  | c :: l' =>
      if N.eqb c 47 then [] :: split_slash l'
      else match split_slash l' with x :: r => (c :: x) :: r | [] => [[c]] end
  end.

Fixpoint map_option {A B} (f : A -> option B) (l : list A) : option (list B) :=
  match l with
  | [] => Some []
  | x :: l' => match f x, map_option f l' with Some y, Some r => Some (y :: r) | _, _ => None end
  end.

(** url_path.py:112-126; the outer [None] is an error of decoding, the inner one is [None]. *)
Definition parse_path (encoded : bool) (value : str) : option (option (list segment)) :=
  match value with
  | [] => Some None
  | c :: value' =>
      let value := if N.eqb c 47 then value' else value in
      let parts := split_slash value in
      match (if encoded then map_option (unquote None false) parts else Some parts) with
      | None => None
      | Some parts => Some (normalize_path_parts (match parts with [] :: r => r | _ => parts end))
      end
  end.

(** url_path.py:131-146 *)
Definition serialize_path (encoded : bool) (parts : list segment) : option str :=
  match parts with
  | [] => Some [47%N]
  | _ =>
      option_map (flat_map (fun p => 47%N :: p))
        (if encoded then map_option (quote (text "@:") (text "/") false) parts else Some parts)
  end.

(** * Hosts *)

(** The decoded parts (url_part_base.py:55-64 compares these). *)
Record host := { flags : N; main_domain : option str; sub_domain : option str; top_level_domain : option str }.

Definition opt_eqb (a b : option str) : bool :=
  match a, b with Some x, Some y => beqb x y | None, None => true | _, _ => false end.

(** url_host_info.py:81-102 *)
Definition host_eq (a b : host) : bool :=
  if negb (N.eqb (flags a) (flags b)) then true
  else if negb (opt_eqb (main_domain a) (main_domain b)) then false
  else if negb (opt_eqb (sub_domain a) (sub_domain b)) then false
  else if negb (opt_eqb (top_level_domain a) (top_level_domain b)) then false
  else true.
