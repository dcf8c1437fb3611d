(** Model of the default deduplication of the names in a zip archive: /repo/scarletio/streaming/zip_streaming/name_deduplication.py:6-110.

    Names are lists of code points. [\d] and [int] are those of the ascii digits. Not here: other patterns and reconstructors. *)

From Coq Require Import List Arith Bool NArith.
From Verif Require Import Bytes Text.
Import ListNotations.

Definition name := list N.
Definition index := option (list N).     (* the digits; [None] is -1 *)
Definition extension := option name.

(** [ \((\d+)\)] at the start of the text: the digits and what follows, :6 *)
Definition index_at (l : name) : option (list N * name) :=
  match l with
  | a :: b :: r =>
      if N.eqb a 32 && N.eqb b 40 then
        match take_while is_digit r, drop_while is_digit r with
        | d :: ds, c :: r' => if N.eqb c 41 then Some (d :: ds, r') else None
        | _, _ => None
        end
      else None
  | _ => None
  end.
(** [(?:\.(.*?))?] up to the end *)
Definition end_at (l : name) : option extension :=
  match l with [] => Some None | a :: r => if N.eqb a 46 then Some (Some r) else None end.
(** What follows the lazy [.*?], tried in the order of the regular expression *)
Definition match_at (l : name) : option (index * extension) :=
  match index_at l with
  | Some (d, r) => match end_at r with Some x => Some (Some d, x) | None => option_map (fun x => (None, x)) (end_at l) end
  | None => option_map (fun x => (None, x)) (end_at l)
  end.
Fixpoint scan (l : name) : name * index * extension :=
  match match_at l with
  | Some (d, x) => ([], d, x)
  | None => match l with [] => ([], None, None) | c :: l' => let '(p, d, x) := scan l' in (c :: p, d, x) end
  end.
(** [(?:.*/)?], greedy *)
Fixpoint split_dir (l : name) : name * name :=
  match l with
  | [] => ([], [])
  | c :: l' => let '(d, b) := split_dir l' in
               match d with [] => if N.eqb c 47 then ([c], b) else ([], c :: b) | _ => (c :: d, b) end
  end.
(** fullmatch, :64-75; a dot matches no newline *)
Definition parse (l : name) : name * index * extension :=
  if existsb (N.eqb 10) l then (l, None, None)
  else let '(d, b) := split_dir l in let '(p, i, x) := scan b in (d ++ p, i, x).

(** name_deduplicator_name_reconstructor_default, :9-39 *)
Definition reconstruct (path : name) (i : N) (x : extension) : name :=
  path ++ (if N.eqb i 0 then [] else [32; 40]%N ++ dec i ++ [41%N]) ++ match x with None => [] | Some e => 46%N :: e end.

Definition key := (name * extension)%type.
Definition ext_eqb (a b : extension) : bool := match a, b with None, None => true | Some a, Some b => beqb a b | _, _ => false end.
Definition key_eqb (a b : key) : bool := beqb (fst a) (fst b) && ext_eqb (snd a) (snd b).

(** [next] is [counter + 1]; [taken] is the set [taken_values], empty for [None] *)
Record counts := { next : N; taken : list N }.
Definition collected := list (key * counts).
Fixpoint get (c : collected) (k : key) : counts :=
  match c with [] => {| next := 0; taken := [] |} | (k', n) :: c' => if key_eqb k' k then n else get c' k end.
Definition set (c : collected) (k : key) (n : counts) : collected := (k, n) :: filter (fun e => negb (key_eqb (fst e) k)) c.

Definition mem (n : N) (l : list N) : bool := existsb (N.eqb n) l.

(** The loop :91-101; [fuel]: each round removes an element *)
Fixpoint bump (fuel : nat) (n : N) (t : list N) : N * list N :=
  match fuel with
  | 0 => (n, t)
  | S f =>
      if mem n t then
        let t := filter (fun y => negb (N.eqb y n)) t in
        match t with [] => ((n + 1)%N, []) | _ => bump f (n + 1)%N t end
      else (n, t)
  end.

(** The body of the loop of name_deduplicator_default, :63-110 *)
Definition step (c : collected) (l : name) : collected * name :=
  let '(path, i, x) := parse l in
  let k := (path, x) in
  let s := get c k in
  let accept := match i with None => None | Some d => let n := undec d in if N.leb (next s) n && negb (mem n (taken s)) then Some n else None end in
  match accept with
  | Some n => (set c k {| next := next s; taken := n :: taken s |}, l)
  | None =>
      let '(n, t) := bump (length (taken s)) (next s) (taken s) in
      (set c k {| next := (n + 1)%N; taken := t |},
       if match i with None => false | Some d => N.eqb (undec d) n end then l else reconstruct path n x)
  end.

Fixpoint run (c : collected) (names : list name) : list name :=
  match names with [] => [] | l :: names' => let '(c, r) := step c l in r :: run c names' end.
Definition deduplicate (names : list name) : list name := run [] names.
