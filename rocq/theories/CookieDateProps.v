(** C90-C92 *)

From Coq Require Import List Arith Bool NArith String.
From Verif Require Import Text CookieDateModel CookieDateSpec CookieDateProofs.
Import ListNotations.
Local Open Scope N_scope.

(** Every date of the calendar is read back from each of the four formats which servers use. *)
Theorem C90_formats w y mo d h mi s : In w (short_days ++ long_days) -> a_date y mo d -> a_time h mi s -> 1601 <= y < 10000 ->
  parse_cookie_date (imf_fixdate w y mo d h mi s) = Date y mo d h mi s /\ parse_cookie_date (netscape w y mo d h mi s) = Date y mo d h mi s /\
  parse_cookie_date (asctime w y mo d h mi s) = Date y mo d h mi s /\
  (1970 <= y < 2070 -> parse_cookie_date (rfc850 w y mo d h mi s) = Date y mo d h mi s).
Proof. intros W AD AT L. repeat split; [now apply imf_ok|now apply netscape_ok|now apply asctime_ok|now apply rfc850_ok]. Qed.
Print Assumptions C90_formats.

Example C90_nonvacuous : imf_fixdate (text "Wed") 2021 6 9 10 18 14 = text "Wed, 09 Jun 2021 10:18:14 GMT" /\ asctime (text "Wed") 2021 6 9 10 18 14 = text "Wed Jun  9 10:18:14 2021" /\
  rfc850 (text "Sunday") 1994 11 6 8 49 37 = text "Sunday, 06-Nov-94 08:49:37 GMT" /\ parse_cookie_date (text "Sunday, 06-Nov-94 08:49:37 GMT") = Date 1994 11 6 8 49 37 /\ a_date 2024 2 29.
Proof.
  repeat split; try discriminate. exists 29. split; [|discriminate]. right. right. split; [reflexivity|]. left. split; [|reflexivity]. left. split; [now exists 506|].
  intros [k E]. assert (E' : 2024 mod 100 = 0) by (rewrite E; now apply N.mod_mul). discriminate.
Qed.

(** For every text: a date which is returned is a date of the calendar after 1600, and an exception means a day which its month does not have. *)
Theorem C91_outcome_partial l : match parse_cookie_date l with
  | NoDate => True
  | Date y mo d h mi s => 1601 <= y /\ a_date y mo d /\ a_time h mi s
  | ValueError => exists y mo d n, days y mo n /\ n < d <= 31
  end.
Proof. exact (outcome l). Qed.
Print Assumptions C91_outcome_partial.

Theorem C91_refuted : exists l, parse_cookie_date l = ValueError.
Proof. exists (text "Wed, 31 Feb 2021 10:18:14 GMT"). reflexivity. Qed.
Print Assumptions C91_refuted.

Example C91_nonvacuous : parse_cookie_date (text "31 Mar 2021 10:18:14") = Date 2021 3 31 10 18 14 /\ parse_cookie_date (text "32 Mar 2021 10:18:14") = NoDate /\
  parse_cookie_date (text "29 Feb 2100 10:18:14") = ValueError.
Proof. auto. Qed.

(** RFC 6265 5.1.1: a day has at most two digits, and a month is known by its first three letters. *)
Theorem C92_year_first_refuted : parse_cookie_date (text "2021 Jun 09 10:18:14") = Date 2009 6 20 10 18 14.
Proof. reflexivity. Qed.
Print Assumptions C92_year_first_refuted.
Theorem C92_long_month_refuted : parse_cookie_date (text "09 June 2021 10:18:14") = NoDate.
Proof. reflexivity. Qed.
Print Assumptions C92_long_month_refuted.
