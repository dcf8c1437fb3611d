From Coq Require Import List Arith Bool NArith String Lia.
From Verif Require Import Bytes Text QuoteModel QuoteSpec UrlModel UrlSpec UrlProofs.
Import ListNotations.
Local Open Scope string_scope.
Local Open Scope list_scope.

(** The normalised path is what a walk with a stack gives; a lone empty name is kept only if the path was that. *)
Theorem C32_walk : forall parts,
  normalize_path_parts parts =
  match walk (directory_end parts) with
  | [] => None
  | [[]] => match parts with [[]] => Some [[]] | _ => None end
  | r => Some r
  end.
Proof. exact normalize_walk. Qed.
Print Assumptions C32_walk.

Theorem C32_no_dots : forall parts r, normalize_path_parts parts = Some r -> Forall plain_segment r.
Proof. exact normalize_plain. Qed.
Print Assumptions C32_no_dots.

Theorem C32_idempotent : forall parts r, normalize_path_parts parts = Some r -> normalize_path_parts r = Some r.
Proof. exact normalize_idempotent. Qed.
Print Assumptions C32_idempotent.

Theorem C32_unchanged : forall parts, parts <> [] -> Forall plain_segment parts -> normalize_path_parts parts = Some parts.
Proof. exact normalize_id. Qed.
Print Assumptions C32_unchanged.

(** Of the paths of parsed urls, encoded or not. *)
Theorem C32_parsed : forall encoded value r, parse_path encoded value = Some (Some r) -> r <> [] /\ Forall plain_segment r.
Proof. exact parse_normal. Qed.
Print Assumptions C32_parsed.

Example C32_nonvacuous :
  normalize_path_parts (map chars [".."; "a"; "."; "b"; ".."; ".."; ".."; "c"; "d"; ".."; "."]) = Some (map chars ["c"; ""]) /\
  normalize_path_parts (map chars ["a"; ".."; ""]) = None /\
  parse_path true (chars "/a/%2E%2e/b/./") = Some (Some (map chars ["b"; ""])).
Proof. repeat split; reflexivity. Qed.

(** Hosts of different kinds compare equal. *)
Theorem C33_equal_refuted :
  exists a b, host_eq a b = true /\ main_domain a <> main_domain b /\ sub_domain a <> sub_domain b /\ flags a <> flags b.
Proof.
  exists {| flags := 1; main_domain := Some (chars "10.0.0.1"); sub_domain := None; top_level_domain := None |},
         {| flags := 16; main_domain := Some (chars "orin"); sub_domain := Some (chars "www"); top_level_domain := Some (chars "mew") |}.
  split; [reflexivity|]. repeat split; discriminate.
Qed.
Print Assumptions C33_equal_refuted.

(** Missing for C33: hosts of different kinds, which are always equal. *)
Theorem C33_equal_partial : forall a b, flags a = flags b -> (host_eq a b = true <-> a = b).
Proof. exact host_eq_partial. Qed.
Print Assumptions C33_equal_partial.

Example C33_nonvacuous :
  let a := {| flags := 16; main_domain := Some (chars "orin"); sub_domain := None; top_level_domain := Some (chars "mew") |} in
  let b := {| flags := 16; main_domain := Some (chars "orin"); sub_domain := Some []; top_level_domain := Some (chars "mew") |} in
  host_eq a a = true /\ host_eq a b = false.
Proof. split; reflexivity. Qed.

(** A part with a '/' comes back as two; an empty first part is lost. *)
Theorem C72_path_refuted :
  (exists parts text, serialize_path true parts = Some text /\ normalize_path_parts parts = Some parts /\
     exists r, parse_path true text = Some (Some r) /\ r <> parts /\ Forall (fun s => s <> []) parts) /\
  (exists parts text, serialize_path true parts = Some text /\ normalize_path_parts parts = Some parts /\
     exists r, parse_path true text = Some (Some r) /\ r <> parts /\ Forall (fun s => ~ In 47%N s) parts).
Proof.
  split.
  - exists [chars "a/b"], (chars "/a/b"). split; [reflexivity|]. split; [reflexivity|]. exists [chars "a"; chars "b"].
    split; [reflexivity|]. split; [discriminate|]. repeat constructor. discriminate.
  - exists [[]; chars "a"], (chars "//a"). split; [reflexivity|]. split; [reflexivity|]. exists [chars "a"].
    split; [reflexivity|]. split; [discriminate|]. repeat constructor; cbn; intuition lia.
Qed.
Print Assumptions C72_path_refuted.

(** Missing for C72: parts with '/', an empty first part, and the characters which do not survive quoting (C30). *)
Theorem C72_encoded_partial : forall parts, path_parts parts ->
  Forall (Forall (survives (kept (chars "@:") (chars "/") false) false false)) parts ->
  exists text, serialize_path true parts = Some text /\ parse_path true text = Some (Some parts).
Proof. exact encoded_round_trip. Qed.
Print Assumptions C72_encoded_partial.

(** Missing for C72: parts with '/' and an empty first part. *)
Theorem C72_decoded_partial : forall parts, path_parts parts ->
  exists text, serialize_path false parts = Some text /\ parse_path false text = Some (Some parts).
Proof. exact decoded_round_trip. Qed.
Print Assumptions C72_decoded_partial.

(** What was parsed is found again, once written. Missing for C72: the encoded form and paths which begin with '//'. *)
Theorem C72_reparsed_partial : forall value r text, parse_path false value = Some (Some r) -> hd [] r <> [] ->
  serialize_path false r = Some text -> parse_path false text = Some (Some r).
Proof. exact reparse. Qed.
Print Assumptions C72_reparsed_partial.

Example C72_nonvacuous :
  serialize_path true [chars "a b"; []; chars "c%"; []] = Some (chars "/a%20b//c%25/") /\
  parse_path true (chars "/a%20b//c%25/") = Some (Some [chars "a b"; []; chars "c%"; []]) /\
  path_parts [chars "a b"; []; chars "c%"; []].
Proof.
  split; [reflexivity|]. split; [reflexivity|]. split; [discriminate|]. split; [discriminate|].
  repeat (constructor; [split; [split; discriminate|cbn; intuition lia]|]). constructor.
Qed.
