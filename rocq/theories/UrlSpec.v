(** C32, C72, C33: paths walked with a stack. *)

From Coq Require Import List Arith Bool NArith String.
From Verif Require Import Bytes Text QuoteModel QuoteSpec UrlModel.
Import ListNotations.

(** The stack has its top first. *)
Definition walk1 (stack : list segment) (s : segment) : list segment :=
  if beqb s dot_dot then tl stack else if beqb s dot then stack else s :: stack.
Definition walk (parts : list segment) : list segment := rev (fold_left walk1 parts []).

(** A '.' at the end stands for the directory before it: an empty name, unless nothing but '.' is before it. *)
Definition directory_end (parts : list segment) : list segment :=
  match rev parts with
  | s :: r => if beqb s dot && existsb (fun x => negb (beqb x dot)) r then rev r ++ [[]] else parts
  | [] => parts
  end.

Definition plain_segment (s : segment) : Prop := s <> dot /\ s <> dot_dot.

(** No '.' and '..' to be removed, the first name is not empty, no '/' inside of a name. *)
Definition path_parts (parts : list segment) : Prop :=
  parts <> [] /\ hd [] parts <> [] /\ Forall (fun s => plain_segment s /\ ~ In 47%N s) parts.
