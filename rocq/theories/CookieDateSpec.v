(** C90-C92: dates and the ways in which servers write them (RFC 9110 5.6.7). *)

From Coq Require Import List Arith Bool NArith String.
From Verif Require Import Text CookieDateModel.
Import ListNotations.
Local Open Scope N_scope.

(** The Gregorian calendar *)
Definition leap (y : N) : Prop := (N.divide 4 y /\ ~ N.divide 100 y) \/ N.divide 400 y.
Definition days (y m n : N) : Prop :=
  (In m [1; 3; 5; 7; 8; 10; 12] /\ n = 31) \/ (In m [4; 6; 9; 11] /\ n = 30) \/ (m = 2 /\ (leap y /\ n = 29 \/ ~ leap y /\ n = 28)).
Definition a_date (y mo d : N) : Prop := 1 <= d /\ exists n, days y mo n /\ d <= n.
Definition a_time (h mi s : N) : Prop := h < 24 /\ mi < 60 /\ s < 60.

Definition two (n : N) : str := [48 + n / 10; 48 + n mod 10].
Definition four (n : N) : str := two (n / 100) ++ two (n mod 100).
Definition spaced (n : N) : str := if n <? 10 then [32; 48 + n] else two n.
Definition month_text (m : N) : str := nth (N.to_nat m - 1) (map text ["Jan"; "Feb"; "Mar"; "Apr"; "May"; "Jun"; "Jul"; "Aug"; "Sep"; "Oct"; "Nov"; "Dec"]%string) [].
Definition short_days : list str := map text ["Mon"; "Tue"; "Wed"; "Thu"; "Fri"; "Sat"; "Sun"]%string.
Definition long_days : list str := map text ["Monday"; "Tuesday"; "Wednesday"; "Thursday"; "Friday"; "Saturday"; "Sunday"]%string.
Definition clock (h mi s : N) : str := two h ++ text ":" ++ two mi ++ text ":" ++ two s.

(** Wed, 09 Jun 2021 10:18:14 GMT *)
Definition imf_fixdate (w : str) (y mo d h mi s : N) : str := w ++ text ", " ++ two d ++ text " " ++ month_text mo ++ text " " ++ four y ++ text " " ++ clock h mi s ++ text " GMT".
(** Wednesday, 09-Jun-21 10:18:14 GMT *)
Definition rfc850 (w : str) (y mo d h mi s : N) : str := w ++ text ", " ++ two d ++ text "-" ++ month_text mo ++ text "-" ++ two (y mod 100) ++ text " " ++ clock h mi s ++ text " GMT".
(** Wed Jun  9 10:18:14 2021 *)
Definition asctime (w : str) (y mo d h mi s : N) : str := w ++ text " " ++ month_text mo ++ text " " ++ spaced d ++ text " " ++ clock h mi s ++ text " " ++ four y.
(** Wed, 09-Jun-2021 10:18:14 GMT *)
Definition netscape (w : str) (y mo d h mi s : N) : str := w ++ text ", " ++ two d ++ text "-" ++ month_text mo ++ text "-" ++ four y ++ text " " ++ clock h mi s ++ text " GMT".
