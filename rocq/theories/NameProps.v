From Coq Require Import List Arith Bool NArith Lia Sorted.
From Verif Require Import Bytes Text QuoteModel QuoteSpec NameModel NameSpec NameProofs.
Import ListNotations.
From Coq Require Import String.
Local Open Scope string_scope.
Local Open Scope list_scope.

(** The single label '@' is taken for the root. *)
Theorem C59_names_refuted : forall isdigit isalnum isprintable idna_encode idna_decode,
  agrees isdigit ascii_digit -> agrees isalnum ascii_alnum -> agrees isprintable ascii_printable -> decodes idna_decode ->
  exists labels name, Forall plain_label labels /\
    build_name_from_labels isalnum isprintable idna_decode labels = Some name /\
    parse_labels_from_name isdigit idna_encode name <> Some labels.
Proof.
  intros isdigit isalnum isprintable idna_encode idna_decode H1 H2 H3 H4.
  assert (P : plain_label [64%N]).
  { split; [cbn; lia|]. split; [repeat constructor|]. intros (a & b & E). apply (f_equal (@List.length N)) in E.
    rewrite !app_length in E. cbn in E. lia. }
  exists [[64%N]], [92; 64]%N. split; [constructor; [exact P|constructor]|]. split.
  - cbn [build_name_from_labels build_characters]. rewrite H4 by apply P. reflexivity.
  - unfold parse_labels_from_name. cbn [split_name N.eqb Pos.eqb negb]. rewrite H1 by reflexivity. cbn. discriminate.
Qed.
Print Assumptions C59_names_refuted.

(** Missing for C59: the label '@' alone, and the labels with bytes over 127 or with 'xn--', which the codec decides about. *)
Theorem C59_names_partial : forall isdigit isalnum isprintable,
  agrees isdigit ascii_digit -> forall idna_encode idna_decode, decodes idna_decode ->
  forall labels, Forall plain_label labels -> labels <> [[64%N]] ->
  exists name, build_name_from_labels isalnum isprintable idna_decode labels = Some name /\
    parse_labels_from_name isdigit idna_encode name = Some labels.
Proof. exact name_round_trip. Qed.
Print Assumptions C59_names_partial.

Example C59_nonvacuous :
  build_name_from_labels ascii_alnum ascii_printable (fun l => Some l) [chars "a.b"; chars "c" ++ [7; 127]%N] = Some (chars "a\.b.c\007\127") /\
  parse_labels_from_name ascii_digit (fun _ => None) (chars "a\.b.c\007\127") = Some [chars "a.b"; chars "c" ++ [7; 127]%N] /\
  plain_label (chars "a.b").
Proof.
  split; [reflexivity|]. split; [reflexivity|]. split; [cbn; lia|]. split; [repeat constructor|].
  intros (a & b & E). apply (f_equal (@List.length N)) in E. rewrite !app_length in E. cbn in E. lia.
Qed.

(** The searched domain is put before the name, not after it. *)
Theorem C75_searches_refuted :
  exists required searches labels, ~ In (labels ++ hd [] searches) (iter_labels_with_searches required (Some searches) None (Some labels)) /\
    searches <> [] /\ List.length labels <= required.
Proof.
  exists 1, [[chars "example"; chars "com"]], [chars "host"]. split; [|split; [discriminate|cbn; lia]].
  vm_compute. intros [H|[H|[]]]; discriminate.
Qed.
Print Assumptions C75_searches_refuted.

(** Missing for C75: the name followed by each searched domain. *)
Theorem C75_searches_partial : forall required searches fallback labels,
  (required < List.length labels -> iter_labels_with_searches required searches fallback (Some labels) = [labels]) /\
  (exists first, iter_labels_with_searches required searches fallback (Some labels) = first ++ [labels] /\
     (List.length labels <= required -> forall s, searches = Some s -> List.length first = List.length s)).
Proof.
  intros required searches fallback labels. unfold iter_labels_with_searches. split.
  - intros H. destruct (Nat.ltb_spec required (List.length labels)); [reflexivity|lia].
  - eexists. split; [reflexivity|]. intros H s ->. destruct (Nat.ltb_spec required (List.length labels)); [lia|]. apply map_length.
Qed.
Print Assumptions C75_searches_partial.

Example C75_nonvacuous :
  iter_labels_with_searches 1 (Some [[chars "com"]]) None (Some [chars "host"]) = [[chars "com"; chars "host"]; [chars "host"]] /\
  iter_labels_with_searches 1 (Some [[chars "com"]]) None (Some [chars "a"; chars "b"]) = [[chars "a"; chars "b"]].
Proof. split; reflexivity. Qed.

(** The addresses come by the first matching entry of the sort list, those of an entry as they were. *)
Theorem C76_addresses_ordered : forall sort_list addresses, ordered_by sort_list addresses (iter_addresses_ordered sort_list addresses).
Proof. exact addresses_ordered. Qed.
Print Assumptions C76_addresses_ordered.

Example C76_nonvacuous :
  let a t v g := {| a_type := t; a_value := v; a_tag := g |} in
  let e v m := {| s_type := 1; s_value := v; s_mask := m |} in
  iter_addresses_ordered [e 16 240; e 0 15]%N [a 2%N 16%N 0; a 1%N 32%N 1; a 1%N 17%N 2; a 1%N 3%N 3; a 1%N 16%N 4]
  = [a 1%N 17%N 2; a 1%N 16%N 4; a 1%N 32%N 1; a 2%N 16%N 0; a 1%N 3%N 3].
Proof. reflexivity. Qed.
