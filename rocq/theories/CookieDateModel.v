(** Model of the dates of cookies: parse_cookie_date, /repo/scarletio/web_common/cookiejar.py:14-103.

    Texts are lists of code points below 256: there [\d] matches the ASCII digits only. A [DateTime] is its six fields. *)

From Coq Require Import List Arith Bool NArith.
From Verif Require Import Bytes Text.
Import ListNotations.
Local Open Scope N_scope.

Definition str := list N.

(** The class of the token in DATE_TOKENS_RP, :14-16; the other class is its complement (below 256). *)
Definition is_letter (c : N) : bool := ((65 <=? c) && (c <=? 90)) || ((97 <=? c) && (c <=? 122)).
Definition is_token (c : N) : bool := (c <=? 8) || ((10 <=? c) && (c <=? 31)) || is_digit c || (c =? 58) || is_letter c || (127 <=? c).

(** DATE_TOKENS_RP.findall, :56 *)
Definition flush (cur : str) : list str := match cur with [] => [] | _ => [cur] end.
Fixpoint tokens (cur : str) (l : str) : list str :=
  match l with
  | [] => flush cur
  | c :: l' => if is_token c then tokens (cur ++ [c]) l' else flush cur ++ tokens [] l'
  end.

(** [\d{0,max}], greedy: what matches and the rest *)
Fixpoint digits (max : nat) (l : str) : str * str :=
  match max, l with
  | S max', c :: l' => if is_digit c then let (a, b) := digits max' l' in (c :: a, b) else ([], l)
  | _, _ => ([], l)
  end.

(** DATE_HMS_TIME_RP.match, :17. A shorter match of [\d{1,2}] leaves a digit, where a colon has to be. *)
Definition match_time (t : str) : option (N * N * N) :=
  match digits 2 t with
  | ((_ :: _) as h, 58 :: r) =>
      match digits 2 r with
      | ((_ :: _) as m, 58 :: r) =>
          match digits 2 r with
          | ((_ :: _) as s, _) => Some (undec h, undec m, undec s)
          | _ => None
          end
      | _ => None
      end
  | _ => None
  end.
(** DATE_DAY_OF_MONTH_RP.match, :18 *)
Definition match_day (t : str) : option N := match digits 2 t with ([], _) => None | (d, _) => Some (undec d) end.
(** DATE_YEAR_RP.match, :19 *)
Definition match_year (t : str) : option N := match digits 4 t with (([] | [_]), _) => None | (d, _) => Some (undec d) end.

(** MONTHS, :22-35 *)
Definition month_names : list str :=
  [[106;97;110]; [102;101;98]; [109;97;114]; [97;112;114]; [109;97;121]; [106;117;110]; [106;117;108]; [97;117;103]; [115;101;112]; [111;99;116]; [110;111;118]; [100;101;99]].
Definition lower_ascii (c : N) : N := if (65 <=? c) && (c <=? 90) then c + 32 else c.
Fixpoint index_of (n : N) (t : str) (l : list str) : option N :=
  match l with [] => None | x :: l' => if beqb x t then Some n else index_of (n + 1) t l' end.
Definition match_month (t : str) : option N := index_of 1 (map lower_ascii t) month_names.

Record found := { f_time : option (N * N * N); f_day : option N; f_month : option N; f_year : option N }.
Definition nothing : found := {| f_time := None; f_day := None; f_month := None; f_year := None |}.

(** The body of the loop, :57-88 *)
Definition take_token (f : found) (t : str) : found :=
  match (match f_time f with None => match_time t | Some _ => None end) with
  | Some x => {| f_time := Some x; f_day := f_day f; f_month := f_month f; f_year := f_year f |}
  | None =>
      match (match f_day f with None => match_day t | Some _ => None end) with
      | Some x => {| f_time := f_time f; f_day := Some x; f_month := f_month f; f_year := f_year f |}
      | None =>
          match (match f_month f with None => match_month t | Some _ => None end) with
          | Some x => {| f_time := f_time f; f_day := f_day f; f_month := Some x; f_year := f_year f |}
          | None =>
              match (match f_year f with None => match_year t | Some _ => None end) with
              | Some x => {| f_time := f_time f; f_day := f_day f; f_month := f_month f; f_year := Some x |}
              | None => f
              end
          end
      end
  end.

(** :90-93 *)
Definition full_year (y : N) : N := if (70 <=? y) && (y <=? 99) then y + 1900 else if y <=? 69 then y + 2000 else y.

Inductive result := Date (year month day hour minute second : N) | NoDate | ValueError.

(** The check of [DateTime] *)
Definition is_leap (y : N) : bool := (y mod 4 =? 0) && (negb (y mod 100 =? 0) || (y mod 400 =? 0)).
Definition days_in_month (y m : N) : N :=
  if m =? 2 then if is_leap y then 29 else 28 else if (m =? 4) || (m =? 6) || (m =? 9) || (m =? 11) then 30 else 31.
Definition date_time (y mo d h mi s : N) : result := if d <=? days_in_month y mo then Date y mo d h mi s else ValueError.

(** :51-103 *)
Definition parse_cookie_date (l : str) : result :=
  let f := fold_left take_token (tokens [] l) nothing in
  match f_day f, f_month f, f_year f, f_time f with
  | Some d, Some mo, Some y, Some (h, mi, s) =>
      let y := full_year y in
      if (y <? 1601) || (d <? 1) || (31 <? d) || (23 <? h) || (59 <? mi) || (59 <? s) then NoDate else date_time y mo d h mi s
  | _, _, _, _ => NoDate
  end.
