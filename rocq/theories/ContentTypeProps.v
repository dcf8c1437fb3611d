(** C49, C93 *)

From Coq Require Import List Arith Bool NArith String.
From Verif Require Import Text ContentTypeModel ContentTypeProofs.
From Verif Require Import ContentTypeSpec.
Import ListNotations.

(** Every text is parsed: no index is outside of it, and every loop ends. *)
Theorem C49_total cf s : exists r, parse_content_type cf s = Some r.
Proof. exact (total cf s). Qed.
Print Assumptions C49_total.

(** A type, a sub type, a suffix and parameters are read back from each of their texts. *)
Theorem C49_round_trip cf ty sub suf t ps ts : head_text ty sub suf t -> parameters_text ps ts ->
  parse_content_type cf (t ++ ts) =
    Some {| c_type := Some (cf ty); c_sub := Some (cf sub); c_suffix := option_map cf suf; c_parameters := map (fun q => (cf (fst q), snd q)) ps; c_error := None |}.
Proof. exact (round_trip cf ty sub suf t ps ts). Qed.
Print Assumptions C49_round_trip.

Definition lower (l : list N) : list N := map (fun c => if ((65 <=? c) && (c <=? 90))%N then (c + 32)%N else c) l.
Definition quote (s : string) : list N := 34%N :: text s ++ [34%N].
Definition sample : list N := text " Application/vnd.Api + JSON ;Charset=UTF-8 ; t = " ++ quote "a;\\b".

Example C49_nonvacuous : parse_content_type lower sample =
    Some {| c_type := Some (text "application"); c_sub := Some (text "vnd.api"); c_suffix := Some (text "json");
            c_parameters := [(text "charset", text "UTF-8"); (text "t", text "a;\b")]; c_error := None |} /\
  quoted (text "a;\b") = quote "a;\\b".
Proof. vm_compute. auto. Qed.

(** An error tells a place where a closing quote is missing at the end, or where a character is none of the expected ones. *)
Theorem C93_error cf s r i x : parse_content_type cf s = Some r -> c_error r = Some (i, x) -> (i = List.length s /\ x = [34%N]) \/ exists c, nth_error s i = Some c /\ ~ In c x.
Proof. exact (error_located cf s r i x). Qed.
Print Assumptions C93_error.

Example C93_nonvacuous : option_map c_error (parse_content_type lower (text "text/plain; a=b c")) = Some (Some (16, [59%N])) /\
  option_map c_error (parse_content_type lower (text "a/b;c=" ++ [34%N])) = Some (Some (7, [34%N])).
Proof. vm_compute. auto. Qed.
