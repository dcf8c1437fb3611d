From Coq Require Import List Arith Bool NArith Lia Relations.
From Verif Require Import Bytes FrameSpec FrameModel DnsModel DnsSpec DnsProofs.
Import ListNotations.

(** A name which points at itself: 14 bytes keep the parser busy forever. *)
Theorem C26_terminates_refuted :
  exists data, all_byte data /\ length data = 14 /\ forall fuel, parse_result_data fuel data = Spin.
Proof.
  exists ([0; 0; 0; 0; 0; 1; 0; 0; 0; 0; 0; 0; 192; 12]%N). split; [repeat constructor|]. split; [reflexivity|]. intros fuel.
  unfold parse_result_data. cbn [length Nat.ltb Nat.leb].
  change (N.to_nat (number_at ([0; 0; 0; 0; 0; 1; 0; 0; 0; 0; 0; 0; 192; 12]%N) 4 6)) with 1. cbn [parse_questions].
  rewrite (self_pointer _ 12 192%N 12%N); [reflexivity|reflexivity|lia|reflexivity|reflexivity].
Qed.
Print Assumptions C26_terminates_refuted.

(** If following labels and pointers never comes back to the same place, the parser ends within so many steps as there are bytes.
    Missing for C26: data with a cycle. *)
Theorem C26_terminates_partial : forall data fuel, all_byte data -> acyclic data -> length data < fuel ->
  parse_result_data fuel data <> Spin.
Proof. exact result_terminates. Qed.
Print Assumptions C26_terminates_partial.

Example C26_nonvacuous :
  let data := [0; 7; 0; 0; 0; 2; 0; 0; 0; 0; 0; 0; 1; 97; 0; 0; 1; 0; 1; 1; 98; 192; 12; 0; 1; 0; 1]%N in
  parse_result_data 28 data =
  Ok ({| a_transaction_id := 7; data_verified := false; truncated := false; recursion_available := false; response_code := 0;
         a_questions := [{| q_labels := [[97]]; q_type := 1; q_class := 1 |}; {| q_labels := [[98]; [97]]; q_type := 1; q_class := 1 |}]%N;
         answers := []; authority := []; a_additional := [] |}, 27) /\
  acyclic ([1; 97; 0]%N).
Proof.
  split; [reflexivity|]. intros i H.
  assert (L : forall i j, goes ([1; 97; 0]%N) i j -> i < j).
  { intros i1 j [(l & _ & ->)|(b & c & E & _)]; [lia|]. unfold at_ in E. exfalso. assert (Q : (192 <= 192 + b)%N) by lia. revert E Q. generalize (192 + b)%N. intros n E Q.
    destruct i1 as [|[|[|i2]]]; cbn [nth_error] in E; [injection E as <-|injection E as <-|injection E as <-|destruct i2; discriminate]; lia. }
  assert (T : forall i j, clos_trans nat (goes ([1; 97; 0]%N)) i j -> i < j) by (induction 1; [apply L; assumption|lia]).
  apply T in H. lia.
Qed.

(** What is built for a query parses back, up to the last byte. *)
Theorem C27_query_round_trip : forall verified q, valid_query q -> exists data, build_query_data verified q = Some data /\
  forall fuel, length data <= fuel -> parse_result_data fuel data =
    Ok ({| a_transaction_id := transaction_id q; data_verified := verified; truncated := false; recursion_available := false;
           response_code := 0; a_questions := questions q; answers := []; authority := []; a_additional := additional q |},
        length data).
Proof. exact query_round_trip. Qed.
Print Assumptions C27_query_round_trip.

Example C27_nonvacuous :
  build_query_data false
    {| transaction_id := 258; recursion_desired := true; data_verification_desired := false;
       questions := [{| q_labels := [[97; 98]; [99]]; q_type := 28; q_class := 1 |}]; additional := [{| r_labels := []; r_type := 41; r_class := 1; r_validity := 2; r_data := [5; 6] |}] |}%N
  = Some ([1; 2; 1; 0; 0; 1; 0; 0; 0; 0; 0; 1; 2; 97; 98; 1; 99; 0; 0; 28; 0; 1; 0; 0; 41; 0; 1; 0; 0; 0; 2; 0; 2; 5; 6]%N).
Proof. reflexivity. Qed.

(** The labels which are read are those of the name of the RFC. *)
Theorem C73_names_sound : forall fuel data i labels top, all_byte data ->
  parse_labels fuel data i i [] = Ok (labels, top) -> exists next, name_at data i labels next /\ next <= top.
Proof.
  intros fuel data i labels top A H. destruct (parse_sound _ _ _ _ _ _ _ A H) as (ls & next & -> & N & L & _).
  exists next. split; [exact N|exact L].
Qed.
Print Assumptions C73_names_sound.

(** Names with pointers to names before them are read, and parsing goes on right after them. *)
Theorem C73_names_complete : forall data i labels next, all_byte data -> prior_name data i labels next ->
  exists n, forall fuel, n <= fuel -> parse_labels fuel data i i [] = Ok (labels, next).
Proof.
  intros data i labels next A P. destruct (prior_complete _ _ _ _ A P) as [n H]. exists n. intros fuel L. rewrite H by exact L.
  apply prior_after in P. cbn [app]. f_equal. f_equal. lia.
Qed.
Print Assumptions C73_names_complete.

(** If the name pointed at reaches over the pointer, parsing goes on at a wrong place. *)
Theorem C73_next_refuted :
  exists data i labels next top, all_byte data /\ name_at data i labels next /\
    parse_labels 9 data i i [] = Ok (labels, top) /\ next < top.
Proof.
  exists ([3; 1; 192; 0; 0]%N), 2, [[1; 192; 0]%N], 4, 5. split; [repeat constructor|]. split; [|split; [reflexivity|lia]].
  apply Name_pointer with (target := 0) (next := 5).
  - exists 0%N, 0%N. split; [reflexivity|]. split; [lia|]. split; reflexivity.
  - apply Name_label.
    + exists [], [0%N]. split; [reflexivity|]. split; [reflexivity|]. cbn. lia.
    + apply Name_root. reflexivity.
Qed.
Print Assumptions C73_next_refuted.

Example C73_nonvacuous :
  let data := [1; 97; 0; 1; 98; 192; 0]%N in
  prior_name data 3 [[98]; [97]]%N 7 /\ parse_labels 9 data 3 3 [] = Ok ([[98]; [97]]%N, 7).
Proof.
  split; [|reflexivity]. apply Prior_label.
  - exists ([1; 97; 0]%N), ([192; 0]%N). split; [reflexivity|]. split; [reflexivity|]. cbn. lia.
  - apply Prior_pointer with (target := 0) (next := 3).
    + exists 0%N, 0%N. split; [reflexivity|]. split; [lia|]. split; reflexivity.
    + apply Prior_label; [exists [], ([0; 1; 98; 192; 0]%N); split; [reflexivity|split; [reflexivity|cbn; lia]]|]. apply Prior_root. reflexivity.
    + cbn. lia.
Qed.

(** The data of a pointer record is a name of the message; a compressed one makes its parsing raise. *)
Theorem C74_pointer_refuted :
  exists data fuel a r offset labels, all_byte data /\ parse_result_data fuel data = Ok (a, length data) /\ In r (answers a) /\
    prior_name data offset labels (length data) /\ slice data offset (length data) = r_data r /\ labels <> [] /\
    forall fuel, 2 <= fuel -> parse_domain_name_pointer_data fuel (r_data r) = Raised.
Proof.
  set (data := [0; 7; 0; 0; 0; 1; 0; 1; 0; 0; 0; 0; 1; 97; 0; 0; 12; 0; 1; 192; 12; 0; 12; 0; 1; 0; 0; 0; 9; 0; 4; 1; 98; 192; 12]%N).
  set (r := {| r_labels := [[97]]; r_type := 12; r_class := 1; r_validity := 9; r_data := [1; 98; 192; 12] |}%N).
  eexists data, 36, _, r, 31, [[98]; [97]]%N. split; [repeat constructor|]. split; [vm_compute; reflexivity|].
  split; [left; reflexivity|]. split.
  { apply Prior_label.
    - exists (firstn 31 data), ([192; 12]%N). split; [reflexivity|]. split; [reflexivity|]. cbn. lia.
    - apply Prior_pointer with (target := 12) (next := 15).
      + exists 0%N, 12%N. split; [reflexivity|]. split; [lia|]. split; reflexivity.
      + apply Prior_label; [exists (firstn 12 data), (skipn 14 data); split; [reflexivity|split; [reflexivity|cbn; lia]]|]. apply Prior_root. reflexivity.
      + cbn. lia. }
  split; [reflexivity|]. split; [discriminate|].
  intros [|[|fuel]] H; [lia|lia|reflexivity].
Qed.
Print Assumptions C74_pointer_refuted.

(** Missing for C74: compressed names, and malformed ones, which raise. *)
Theorem C74_pointer_partial : forall labels post fuel, valid_labels labels -> labels <> [] -> length labels < fuel ->
  parse_domain_name_pointer_data fuel (built labels ++ post) = Value (Some labels).
Proof. exact pointer_data_ok. Qed.
Print Assumptions C74_pointer_partial.

Example C74_nonvacuous :
  built ([[97; 98]; [99]]%N) = [2; 97; 98; 1; 99; 0]%N /\
  parse_domain_name_pointer_data 9 ([2; 97; 98; 1; 99; 0]%N) = Value (Some ([[97; 98]; [99]]%N)).
Proof. split; reflexivity. Qed.
