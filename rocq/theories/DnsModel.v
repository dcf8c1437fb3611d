(** Model of /repo/scarletio/dns_query/building_and_parsing.py. An absent tuple is the empty list. *)

From Coq Require Import List Arith Bool NArith.
From Verif Require Import Bytes FrameModel.
Import ListNotations.

Record question := { q_labels : list bytes; q_type : N; q_class : N }.
Record resource_record := { r_labels : list bytes; r_type : N; r_class : N; r_validity : N; r_data : bytes }.
Record query := {
  transaction_id : N; recursion_desired : bool; data_verification_desired : bool;
  questions : list question; additional : list resource_record }.

(** [value.to_bytes(k, 'big')]; [None]: OverflowError. *)
Definition to_bytes (k : nat) (v : N) : option bytes := if N.ltb v (2 ^ (8 * N.of_nat k)) then Some (be k v) else None.

(** [b''.join(parts)] *)
Fixpoint join (parts : list (option bytes)) : option bytes :=
  match parts with
  | [] => Some []
  | p :: parts' => match p, join parts' with Some x, Some r => Some (x ++ r) | _, _ => None end
  end.

Definition size {A} (l : list A) : N := N.of_nat (length l).

(** building_and_parsing.py:58-64, 70-76 *)
Definition label_parts (labels : list bytes) : list (option bytes) :=
  flat_map (fun label => [to_bytes 1 (size label); Some label]) labels ++ [Some [0%N]].

(** building_and_parsing.py:56-66 *)
Definition question_parts (q : question) : list (option bytes) :=
  label_parts (q_labels q) ++ [to_bytes 2 (q_type q); to_bytes 2 (q_class q)].

(** building_and_parsing.py:68-84 *)
Definition record_parts (r : resource_record) : list (option bytes) :=
  label_parts (r_labels r) ++
  [to_bytes 2 (r_type r); to_bytes 2 (r_class r); to_bytes 4 (r_validity r); to_bytes 2 (size (r_data r)); Some (r_data r)].

(** building_and_parsing.py:20-86; [verified]: option_set_verified_data_in_requests. The shifts are of constants.py. *)
Definition build_query_data (verified : bool) (q : query) : option bytes :=
  join ([to_bytes 2 (transaction_id q);
         to_bytes 2 (N.lor (N.lor (N.lor (N.shiftl 0 11) (N.shiftl (N.b2n (recursion_desired q)) 8)) (N.shiftl (N.b2n verified) 5))
                           (N.shiftl (N.b2n (data_verification_desired q)) 4));
         to_bytes 2 (size (questions q)); Some [0; 0; 0; 0]%N; to_bytes 2 (size (additional q))] ++
        flat_map question_parts (questions q) ++ flat_map record_parts (additional q)).

(** * Parsing *)

Inductive error :=
  | Label_length_read_out_of_bound | Label_read_end_out_of_bound | Label_length_invalid_range | Label_jump_read_out_of_bound
  | Label_jump_forward | Question_header_out_of_bound | Record_header_out_of_bound | Record_data_out_of_bound | Header_out_of_bound.

(** [Spin]: more iterations than [fuel] are needed. *)
Inductive result (A : Type) := Ok (a : A) | Err (e : error) | Spin.
Arguments Ok {A}. Arguments Err {A}. Arguments Spin {A}.

Definition bind {A B} (r : result A) (f : A -> result B) : result B :=
  match r with Ok a => f a | Err e => Err e | Spin => Spin end.

(** [data[a : b]] *)
Definition slice (data : bytes) (a b : nat) : bytes := firstn (b - a) (skipn a data).
Definition number_at (data : bytes) (a b : nat) : N := unbe (slice data a b).

(** The loop of [_parse_labels], building_and_parsing.py:116-191. *)
Fixpoint parse_labels (fuel : nat) (data : bytes) (index furthest : nat) (labels : list bytes) : result (list bytes * nat) :=
  match fuel with
  | 0 => Spin
  | S f =>
      match nth_error data index with
      | None => Err Label_length_read_out_of_bound
      | Some label_length =>
          let index := S index in
          let furthest := Nat.max furthest index in
          if N.eqb label_length 0 then Ok (labels, furthest)
          else if N.ltb label_length 64 then
            let end_ := index + N.to_nat label_length in
            if Nat.ltb (length data) end_ then Err Label_read_end_out_of_bound
            else parse_labels f data end_ furthest (labels ++ [slice data index end_])
          else if N.ltb label_length 192 then Err Label_length_invalid_range
          else
            match nth_error data index with
            | None => Err Label_jump_read_out_of_bound
            | Some addition =>
                let furthest := Nat.max furthest (S index) in
                let index := N.to_nat (N.lor (N.shiftl (N.land label_length 63) 8) addition) in
                if Nat.ltb furthest index then Err Label_jump_forward else parse_labels f data index furthest labels
            end
      end
  end.

(** building_and_parsing.py:194-256 *)
Fixpoint parse_questions (fuel : nat) (data : bytes) (index count : nat) : result (list question * nat) :=
  match count with
  | 0 => Ok ([], index)
  | S count' =>
      bind (parse_labels fuel data index index []) (fun '(labels, index) =>
        let end_ := index + 4 in
        if Nat.ltb (length data) end_ then Err Question_header_out_of_bound
        else
          bind (parse_questions fuel data end_ count') (fun '(r, i) =>
            Ok ({| q_labels := labels; q_type := number_at data index (index + 2); q_class := number_at data (index + 2) end_ |} :: r, i)))
  end.

(** building_and_parsing.py:259-342 *)
Fixpoint parse_resource_records (fuel : nat) (data : bytes) (index count : nat) : result (list resource_record * nat) :=
  match count with
  | 0 => Ok ([], index)
  | S count' =>
      bind (parse_labels fuel data index index []) (fun '(labels, index) =>
        let end_ := index + 10 in
        if Nat.ltb (length data) end_ then Err Record_header_out_of_bound
        else
          let record_data_length := N.to_nat (number_at data (index + 8) end_) in
          let end_2 := end_ + record_data_length in
          if negb (Nat.eqb record_data_length 0) && Nat.ltb (length data) end_2 then Err Record_data_out_of_bound
          else
            bind (parse_resource_records fuel data end_2 count') (fun '(r, i) =>
              Ok ({| r_labels := labels; r_type := number_at data index (index + 2); r_class := number_at data (index + 2) (index + 4);
                     r_validity := number_at data (index + 4) (index + 8); r_data := slice data end_ end_2 |} :: r, i)))
  end.

Record answer := {
  a_transaction_id : N; data_verified : bool; truncated : bool; recursion_available : bool; response_code : N;
  a_questions : list question; answers : list resource_record; authority : list resource_record; a_additional : list resource_record }.

(** building_and_parsing.py:345-427; with the index at which the parsing ended. *)
Definition parse_result_data (fuel : nat) (data : bytes) : result (answer * nat) :=
  if Nat.ltb (length data) 12 then Err Header_out_of_bound
  else
    let flags := number_at data 2 4 in
    bind (parse_questions fuel data 12 (N.to_nat (number_at data 4 6))) (fun '(qs, index) =>
    bind (parse_resource_records fuel data index (N.to_nat (number_at data 6 8))) (fun '(an, index) =>
    bind (parse_resource_records fuel data index (N.to_nat (number_at data 8 10))) (fun '(au, index) =>
    bind (parse_resource_records fuel data index (N.to_nat (number_at data 10 12))) (fun '(ad, index) =>
      Ok ({| a_transaction_id := number_at data 0 2;
             data_verified := N.testbit flags 5; truncated := N.testbit flags 9; recursion_available := N.testbit flags 7;
             response_code := N.land (N.shiftr flags 0) 15;
             a_questions := qs; answers := an; authority := au; a_additional := ad |}, index))))).

Inductive outcome := Raised | Value (labels : option (list bytes)) | Spins.

(** building_and_parsing.py:468-490, up to the labels of the name; unpacking [None] raises. *)
Definition parse_domain_name_pointer_data (fuel : nat) (data : bytes) : outcome :=
  match data with
  | [] => Value None
  | _ =>
      match parse_labels fuel data 0 0 [] with
      | Ok ([], _) => Value None
      | Ok (labels, _) => Value (Some labels)
      | Err _ => Raised
      | Spin => Spins
      end
  end.
