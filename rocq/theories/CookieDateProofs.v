(** Proofs for C90-C92. *)

From Coq Require Import List Arith Bool NArith Lia String.
From Verif Require Import Bytes Text CookieDateModel CookieDateSpec.
Import ListNotations.
Local Open Scope N_scope.

(** * Tokens *)
Definition token (t : str) : Prop := t <> [] /\ forallb is_token t = true.

Lemma tokens_cur : forall t cur l, forallb is_token t = true -> tokens cur (t ++ l) = tokens (cur ++ t) l.
Proof.
  induction t as [|c t IH]; intros cur l; cbn [forallb app]; [now rewrite app_nil_r|]. intros F. apply andb_prop in F as [F1 F2]. cbn [tokens]. rewrite F1, IH by exact F2.
  now rewrite <- app_assoc.
Qed.

Lemma tokens_token t c l : token t -> is_token c = false -> tokens [] (t ++ c :: l) = t :: tokens [] l.
Proof. intros [N0 F] C. rewrite tokens_cur by exact F. cbn [app tokens]. rewrite C. now destruct t. Qed.

Lemma tokens_delim c l : is_token c = false -> tokens [] (c :: l) = tokens [] l.
Proof. intros C. cbn [tokens]. now rewrite C. Qed.

Lemma tokens_end t : token t -> tokens [] t = [t].
Proof. intros [N0 F]. rewrite <- (app_nil_r t) at 1. rewrite tokens_cur by exact F. cbn. now destruct t. Qed.

(** * Digits *)
Lemma digit_is c : c < 10 -> is_digit (48 + c) = true.
Proof. intros L. unfold is_digit. apply andb_true_intro. split; apply N.leb_le; lia. Qed.
Lemma high n : n < 100 -> n / 10 < 10.
Proof. intros L. apply N.div_lt_upper_bound; lia. Qed.
Lemma low n : n mod 10 < 10.
Proof. apply N.mod_lt. discriminate. Qed.

Lemma digit_token c : is_digit c = true -> is_token c = true.
Proof. intros D. unfold is_token. rewrite D. now rewrite !orb_true_r. Qed.

Lemma two_digits n : n < 100 -> forallb is_digit (two n) = true.
Proof. intros L. cbn [two forallb]. now rewrite (digit_is _ (high n L)), (digit_is _ (low n)). Qed.
Lemma two_tokens n : n < 100 -> forallb is_token (two n) = true.
Proof. intros L. cbn [two forallb]. now rewrite (digit_token _ (digit_is _ (high n L))), (digit_token _ (digit_is _ (low n))). Qed.

Lemma digits_all : forall t max l, forallb is_digit t = true -> (List.length t <= max)%nat -> digits max (t ++ l) = (t ++ fst (digits (max - List.length t) l), snd (digits (max - List.length t) l)).
Proof.
  induction t as [|c t IH]; intros max l F L; cbn [List.length app]; [rewrite Nat.sub_0_r; now destruct (digits max l)|].
  cbn [forallb] in F. apply andb_prop in F as [F1 F2]. destruct max as [|max]; [cbn in L; lia|]. cbn [digits Nat.sub]. rewrite F1. rewrite IH; [reflexivity|exact F2|cbn in L; lia].
Qed.

Lemma undec_two n : n < 100 -> undec (two n) = n.
Proof. intros L. unfold undec, two. cbn [fold_left]. pose proof (N.div_mod' n 10) as E. revert E. generalize (n / 10) (n mod 10). clear L. intros a b E. lia. Qed.

Lemma digits_two n l : n < 100 -> digits 2 (two n ++ l) = (two n, l).
Proof. intros L. rewrite digits_all; [|now apply two_digits|apply le_n]. reflexivity. Qed.

Lemma match_day_two n : n < 100 -> match_day (two n) = Some n.
Proof. intros L. unfold match_day. rewrite <- (app_nil_r (two n)), digits_two by exact L. change (Some (undec (two n)) = Some n). f_equal. exact (undec_two n L). Qed.

Lemma four_digits y : y < 10000 -> forallb is_digit (four y) = true.
Proof. intros L. unfold four. rewrite forallb_app. rewrite !two_digits; [reflexivity| |]; [apply N.mod_lt; discriminate|apply N.div_lt_upper_bound; lia]. Qed.

Lemma undec_four y : y < 10000 -> undec (four y) = y.
Proof.
  intros L. unfold four, undec. rewrite fold_left_app. fold (undec (two (y / 100))). rewrite undec_two by (apply N.div_lt_upper_bound; lia). rewrite undec_fold.
  rewrite undec_two by (apply N.mod_lt; discriminate). change (10 ^ N.of_nat (List.length (two (y mod 100)))) with 100. pose proof (N.div_mod' y 100). lia.
Qed.

Lemma match_year_four y : y < 10000 -> match_year (four y) = Some y.
Proof.
  intros L. unfold match_year. rewrite <- (app_nil_r (four y)), digits_all; [|now apply four_digits|apply le_n]. cbn [List.length four two app Nat.sub digits fst snd].
  f_equal. exact (undec_four y L).
Qed.
Lemma match_year_two y : y < 100 -> match_year (two y) = Some y.
Proof.
  intros L. unfold match_year. rewrite <- (app_nil_r (two y)), digits_all; [|now apply two_digits|auto]. cbn [List.length two app Nat.sub digits fst snd].
  f_equal. exact (undec_two y L).
Qed.

Lemma match_time_two n : n < 100 -> match_time (two n) = None.
Proof. intros L. unfold match_time. rewrite <- (app_nil_r (two n)), digits_two by exact L. reflexivity. Qed.
Lemma match_time_four y : y < 10000 -> match_time (four y) = None.
Proof.
  intros L. unfold match_time, four. rewrite digits_two by (apply N.div_lt_upper_bound; lia). set (r := two (y mod 100)). change (two (y / 100)) with ([48 + (y / 100) / 10; 48 + (y / 100) mod 10]).
  assert (D : forallb is_digit r = true) by (apply two_digits, N.mod_lt; discriminate). unfold r, two in *. cbn [forallb] in D. apply andb_prop in D as [D _].
  destruct (48 + (y mod 100) / 10) as [|p] eqn:E; [reflexivity|]. assert (H : N.pos p <> 58) by (intros H; rewrite H in D; discriminate).
  destruct p as [p|p|]; try reflexivity. repeat (destruct p as [p|p|]; try reflexivity). now contradiction H.
Qed.

Lemma match_time_is t a b c r1 r2 r3 : digits 2 t = (a, 58 :: r1) -> a <> [] -> digits 2 r1 = (b, 58 :: r2) -> b <> [] -> digits 2 r2 = (c, r3) -> c <> [] ->
  match_time t = Some (undec a, undec b, undec c).
Proof. intros A A' B B' C C'. unfold match_time. rewrite A. destruct a; [congruence|]. rewrite B. destruct b; [congruence|]. rewrite C. destruct c; [congruence|]. reflexivity. Qed.

Lemma match_time_clock h mi s : a_time h mi s -> match_time (clock h mi s) = Some (h, mi, s).
Proof.
  intros (H & M & S0). unfold clock. rewrite <- (app_nil_r (two s)).
  rewrite (match_time_is _ (two h) (two mi) (two s) (two mi ++ text ":" ++ two s ++ []) (two s ++ []) []); [now rewrite !undec_two by lia| | | | | |]; try discriminate.
  - apply digits_two. lia.
  - apply digits_two. lia.
  - apply digits_two. lia.
Qed.

Lemma clock_token h mi s : a_time h mi s -> token (clock h mi s).
Proof. intros (H & M & S0). split; [discriminate|]. unfold clock. rewrite !forallb_app, !two_tokens by lia. reflexivity. Qed.
Lemma two_token n : n < 100 -> token (two n).
Proof. intros L. split; [discriminate|now apply two_tokens]. Qed.
Lemma four_token y : y < 10000 -> token (four y).
Proof. intros L. split; [discriminate|]. unfold four. rewrite forallb_app, !two_tokens; [reflexivity| |]; [apply N.mod_lt; discriminate|apply N.div_lt_upper_bound; lia]. Qed.

(** * Names *)
Lemma day_name w : In w (short_days ++ long_days) -> token w /\ match_time w = None /\ match_day w = None /\ match_month w = None /\ match_year w = None.
Proof. cbn. intros J. repeat (destruct J as [<-|J]; [vm_compute; repeat split; congruence|]). destruct J. Qed.

Lemma month_cases mo : 1 <= mo <= 12 -> In mo [1; 2; 3; 4; 5; 6; 7; 8; 9; 10; 11; 12].
Proof. intros L. cbn. lia. Qed.

Lemma month_name mo : 1 <= mo <= 12 -> token (month_text mo) /\ match_time (month_text mo) = None /\ match_day (month_text mo) = None /\ match_month (month_text mo) = Some mo.
Proof. intros L. apply month_cases in L. cbn in L. repeat (destruct L as [<-|L]; [vm_compute; repeat split; congruence|]). destruct L. Qed.

(** * The calendar *)
Lemma is_leap_spec y : is_leap y = true <-> leap y.
Proof.
  unfold is_leap, leap. rewrite andb_true_iff, orb_true_iff, negb_true_iff, N.eqb_neq, !N.eqb_eq. rewrite !N.mod_divide by discriminate. split.
  - intros [A [B|B]]; auto.
  - intros [[A B]|B]; [auto|]. split; [|auto]. destruct B as [k ->]. exists (k * 100). lia.
Qed.

Lemma days_in_month_spec y mo n : 1 <= mo <= 12 -> (days y mo n <-> n = days_in_month y mo).
Proof.
  intros L. apply month_cases in L. unfold days. pose proof (is_leap_spec y) as LP. cbn in L.
  destruct L as [<-|[<-|[<-|[<-|[<-|[<-|[<-|[<-|[<-|[<-|[<-|[<-|[]]]]]]]]]]]]]; unfold days_in_month; cbn [N.eqb Pos.eqb orb];
    try (cbn; intuition (try discriminate; try congruence); fail).
  destruct (is_leap y).
  - assert (leap y) by now apply LP. cbn. intuition (try discriminate; try congruence).
  - assert (~ leap y) by (intros X; apply LP in X; discriminate). cbn. intuition (try discriminate; try congruence).
Qed.

Lemma date_ok y mo d : 1 <= mo <= 12 -> a_date y mo d -> d <= days_in_month y mo /\ 1 <= d <= 31.
Proof.
  intros L (D & n & DN & DL). apply days_in_month_spec in DN; [|exact L]. subst n. split; [exact DL|]. split; [exact D|].
  etransitivity; [exact DL|]. unfold days_in_month. destruct (mo =? 2); [destruct (is_leap y); discriminate|]. destruct (_ || _); discriminate.
Qed.

Lemma date_month y mo d : a_date y mo d -> 1 <= mo <= 12.
Proof. intros (_ & n & D & _). unfold days in D. cbn in D. lia. Qed.

(** * The formats *)
Definition everything (d mo y : N) (t : N * N * N) : found := {| f_time := Some t; f_day := Some d; f_month := Some mo; f_year := Some y |}.

Lemma take_everything d mo y t tok : take_token (everything d mo y t) tok = everything d mo y t.
Proof. reflexivity. Qed.

Definition conclude (f : found) : result :=
  match f_day f, f_month f, f_year f, f_time f with
  | Some d, Some mo, Some y, Some (h, mi, s) =>
      let y := full_year y in
      if (y <? 1601) || (d <? 1) || (31 <? d) || (23 <? h) || (59 <? mi) || (59 <? s) then NoDate else date_time y mo d h mi s
  | _, _, _, _ => NoDate
  end.
Lemma parse_is l : parse_cookie_date l = conclude (fold_left take_token (tokens [] l) nothing).
Proof. reflexivity. Qed.

Lemma conclude_ok d mo y0 y h mi s : full_year y0 = y -> 1601 <= y -> a_date y mo d -> a_time h mi s -> conclude (everything d mo y0 (h, mi, s)) = Date y mo d h mi s.
Proof.
  intros FY YL AD (H & M & S0). destruct (date_ok y mo d (date_month _ _ _ AD) AD) as [DL [D1 D2]]. unfold conclude, everything. cbn [f_day f_month f_year f_time]. cbv zeta. rewrite FY.
  replace ((y <? 1601) || (d <? 1) || (31 <? d) || (23 <? h) || (59 <? mi) || (59 <? s)) with false.
  - unfold date_time. now apply N.leb_le in DL as ->.
  - symmetry. rewrite !orb_false_iff, !N.ltb_ge. lia.
Qed.

Lemma full_year_big y : 100 <= y -> full_year y = y.
Proof. intros L. unfold full_year. replace (y <=? 99) with false by (symmetry; apply N.leb_gt; lia). rewrite andb_false_r. now replace (y <=? 69) with false by (symmetry; apply N.leb_gt; lia). Qed.

Lemma full_year_two y : 1970 <= y < 2070 -> full_year (y mod 100) = y.
Proof.
  intros L. assert (C : y < 2000 /\ y mod 100 = y - 1900 \/ 2000 <= y /\ y mod 100 = y - 2000).
  { destruct (N.lt_ge_cases y 2000); [left|right]; (split; [assumption|]).
    - symmetry. apply (N.mod_unique y 100 19); lia.
    - symmetry. apply (N.mod_unique y 100 20); lia. }
  unfold full_year. destruct C as [[A ->]|[A ->]].
  - replace (70 <=? y - 1900) with true by (symmetry; apply N.leb_le; lia). replace (y - 1900 <=? 99) with true by (symmetry; apply N.leb_le; lia). cbn [andb]. lia.
  - replace (70 <=? y - 2000) with false by (symmetry; apply N.leb_gt; lia). cbn [andb]. replace (y - 2000 <=? 69) with true by (symmetry; apply N.leb_le; lia). lia.
Qed.

(** One token for each *)
Lemma take_name w f : In w (short_days ++ long_days) -> take_token f w = f.
Proof. intros J. destruct (day_name w J) as (_ & A & B & C & D). unfold take_token. rewrite A, B, C, D. destruct f as [[] [] [] []]; reflexivity. Qed.
Lemma take_day f d tok : f_time f = None -> f_day f = None -> match_time tok = None -> match_day tok = Some d ->
  take_token f tok = {| f_time := None; f_day := Some d; f_month := f_month f; f_year := f_year f |}.
Proof. intros A B C D. unfold take_token. now rewrite A, B, C, D. Qed.
Lemma take_month f mo : 1 <= mo <= 12 -> f_month f = None -> take_token f (month_text mo) = {| f_time := f_time f; f_day := f_day f; f_month := Some mo; f_year := f_year f |}.
Proof. intros L A. destruct (month_name mo L) as (_ & B & C & D). unfold take_token. rewrite A, B, C, D. destruct f as [[] [] [] []]; reflexivity. Qed.
Lemma take_year f d y tok : f_day f = Some d -> match_time tok = None -> f_year f = None -> match_month tok = None -> match_year tok = Some y ->
  take_token f tok = {| f_time := f_time f; f_day := Some d; f_month := f_month f; f_year := Some y |}.
Proof. intros A B C D E. unfold take_token. rewrite A, B, C, D, E. destruct f as [[] [] [] []]; cbn in *; congruence. Qed.
Lemma take_time f h mi s : f_time f = None -> a_time h mi s -> take_token f (clock h mi s) = {| f_time := Some (h, mi, s); f_day := f_day f; f_month := f_month f; f_year := f_year f |}.
Proof. intros A T. unfold take_token. now rewrite A, match_time_clock by exact T. Qed.

Lemma lower_digit c : is_digit c = true -> lower_ascii c = c.
Proof. unfold is_digit, lower_ascii. intros D. apply andb_prop in D as [_ D]. apply N.leb_le in D. now replace (65 <=? c) with false by (symmetry; apply N.leb_gt; lia). Qed.

Lemma digit_no_month c t : is_digit c = true -> match_month (c :: t) = None.
Proof.
  intros D. unfold match_month. cbn [map]. rewrite (lower_digit c D). unfold is_digit in D. apply andb_prop in D as [_ D]. apply N.leb_le in D. unfold month_names, index_of, beqb.
  repeat match goal with |- context [?k =? c] => replace (k =? c) with false by (symmetry; apply N.eqb_neq; lia) end. reflexivity.
Qed.
Lemma four_no_month y : y < 10000 -> match_month (four y) = None.
Proof. intros L. pose proof (four_digits y L) as F. unfold four, two in *. cbn [app forallb] in *. apply andb_prop in F as [F _]. now apply digit_no_month. Qed.
Lemma two_no_month y : y < 100 -> match_month (two y) = None.
Proof. intros L. pose proof (two_digits y L) as F. unfold two in *. cbn [forallb] in F. apply andb_prop in F as [F _]. now apply digit_no_month. Qed.

Ltac next H := rewrite tokens_token; [|exact H|reflexivity]; cbn [fold_left].
Ltac words := cbn [text string_dec append]; repeat match goal with |- context [text ?s] => let v := eval compute in (text s) in change (text s) with v end.

Section Formats.
Variables (w : str) (y mo d h mi s : N).
Hypothesis W : In w (short_days ++ long_days).
Hypothesis AD : a_date y mo d.
Hypothesis AT : a_time h mi s.

Lemma TW : token w. Proof. apply day_name, W. Qed.
Lemma M12 : 1 <= mo <= 12. Proof. exact (date_month _ _ _ AD). Qed.
Lemma TM : token (month_text mo). Proof. apply month_name, M12. Qed.
Lemma D31 : d < 100. Proof. destruct (date_ok y mo d M12 AD). lia. Qed.
Lemma TD : token (two d). Proof. apply two_token, D31. Qed.
Lemma TC : token (clock h mi s). Proof. now apply clock_token. Qed.

Lemma dashed_ok sep (ty : str) y0 : is_token sep = false -> token ty -> match_time ty = None -> match_month ty = None -> match_year ty = Some y0 -> full_year y0 = y -> 1601 <= y ->
  parse_cookie_date (w ++ [44; 32] ++ two d ++ [sep] ++ month_text mo ++ [sep] ++ ty ++ [32] ++ clock h mi s ++ [32; 71; 77; 84]) = Date y mo d h mi s.
Proof.
  intros SP TY TT TMo TYr FY YL. rewrite parse_is. cbn [app].
  next TW. rewrite (take_name w _ W). rewrite tokens_delim by reflexivity. rewrite (tokens_token _ _ _ TD SP). cbn [fold_left].
  rewrite (take_day nothing d (two d) eq_refl eq_refl (match_time_two _ D31) (match_day_two _ D31)). rewrite (tokens_token _ _ _ TM SP). cbn [fold_left].
  rewrite take_month; [|exact M12|reflexivity]. cbn [f_time f_day f_month f_year]. next TY. rewrite (take_year _ d y0 ty); [|reflexivity|exact TT|reflexivity|exact TMo|exact TYr]. cbn [f_time f_day f_month f_year].
  next TC. rewrite take_time; [|reflexivity|exact AT]. cbn [f_time f_day f_month f_year]. change (tokens [] [71; 77; 84]) with [[71; 77; 84]]. cbn [fold_left].
  change (conclude (take_token (everything d mo y0 (h, mi, s)) [71; 77; 84]) = Date y mo d h mi s). rewrite take_everything. now apply conclude_ok.
Qed.

Lemma imf_ok : 1601 <= y < 10000 -> parse_cookie_date (imf_fixdate w y mo d h mi s) = Date y mo d h mi s.
Proof.
  intros L. apply (dashed_ok 32 (four y) y); try reflexivity; [apply four_token|apply match_time_four|apply four_no_month|apply match_year_four|apply full_year_big|]; lia.
Qed.
Lemma netscape_ok : 1601 <= y < 10000 -> parse_cookie_date (netscape w y mo d h mi s) = Date y mo d h mi s.
Proof.
  intros L. apply (dashed_ok 45 (four y) y); try reflexivity; [apply four_token|apply match_time_four|apply four_no_month|apply match_year_four|apply full_year_big|]; lia.
Qed.
Lemma rfc850_ok : 1970 <= y < 2070 -> parse_cookie_date (rfc850 w y mo d h mi s) = Date y mo d h mi s.
Proof.
  intros L. assert (y mod 100 < 100) by (apply N.mod_lt; discriminate).
  apply (dashed_ok 45 (two (y mod 100)) (y mod 100)); try reflexivity; [apply two_token|apply match_time_two|apply two_no_month|apply match_year_two|apply full_year_two|]; lia.
Qed.

Lemma asctime_tail f : f_time f = None -> f_month f = Some mo -> f_year f = None -> f_day f = Some d -> 1601 <= y < 10000 ->
  conclude (fold_left take_token (tokens [] (clock h mi s ++ 32 :: four y)) f) = Date y mo d h mi s.
Proof.
  intros A B C D L. next TC. rewrite (take_time f h mi s A AT). rewrite tokens_end by (apply four_token; lia). cbn [fold_left].
  rewrite (take_year _ d y (four y)); cbn [f_time f_day f_month f_year]; [|exact D|apply match_time_four; lia|exact C|apply four_no_month; lia|apply match_year_four; lia].
  rewrite B. apply conclude_ok; auto; [apply full_year_big|]; lia.
Qed.

Lemma asctime_ok : 1601 <= y < 10000 -> parse_cookie_date (asctime w y mo d h mi s) = Date y mo d h mi s.
Proof.
  intros L. unfold asctime. change (text " ") with [32]. rewrite parse_is. cbn [app]. next TW. rewrite (take_name w _ W). next TM. rewrite (take_month nothing mo M12 eq_refl).
  cbn [nothing f_time f_day f_month f_year]. unfold spaced. destruct (d <? 10) eqn:E.
  - apply N.ltb_lt in E. cbn [app]. rewrite tokens_delim by reflexivity.
    assert (DG : is_digit (48 + d) = true) by now apply digit_is.
    assert (TK : token [48 + d]) by (split; [discriminate|]; cbn [forallb]; now rewrite digit_token).
    change (48 + d :: 32 :: clock h mi s ++ 32 :: four y) with ([48 + d] ++ 32 :: clock h mi s ++ 32 :: four y). next TK.
    rewrite (take_day _ d [48 + d]); [now apply asctime_tail|reflexivity|reflexivity| |].
    + unfold match_time. cbn [digits]. now rewrite DG.
    + unfold match_day. cbn [digits]. rewrite DG. unfold undec. cbn [fold_left]. f_equal. lia.
  - next TD. rewrite (take_day _ d (two d)); [|reflexivity|reflexivity|apply match_time_two, D31|apply match_day_two, D31]. now apply asctime_tail.
Qed.
End Formats.

(** * What comes out *)
Definition in_range (y d h mi s : N) : Prop := 1601 <= y /\ 1 <= d <= 31 /\ h < 24 /\ mi < 60 /\ s < 60.

Lemma index_of_range : forall l n t m, index_of n t l = Some m -> n <= m < n + N.of_nat (List.length l).
Proof.
  induction l as [|x l IH]; intros n t m; cbn [index_of]; [discriminate|]. destruct (beqb x t); [intros [= <-]; cbn [List.length]; lia|]. intros E. apply IH in E. cbn [List.length]. lia.
Qed.
Lemma month_range t m : match_month t = Some m -> 1 <= m <= 12.
Proof. intros E. apply index_of_range in E. change (N.of_nat (List.length month_names)) with 12 in E. lia. Qed.

Lemma take_month_range f t : (forall m, f_month f = Some m -> 1 <= m <= 12) -> forall m, f_month (take_token f t) = Some m -> 1 <= m <= 12.
Proof.
  intros F m. unfold take_token. destruct (match f_time f with Some _ => None | None => match_time t end); [apply F|]. destruct (match f_day f with Some _ => None | None => match_day t end); [apply F|].
  destruct (match f_month f with Some _ => None | None => match_month t end) eqn:E; [cbn [f_month]; intros [= <-]; destruct (f_month f); [discriminate|]; now apply (month_range t)|].
  destruct (match f_year f with Some _ => None | None => match_year t end); apply F.
Qed.
Lemma fold_month_range : forall l f, (forall m, f_month f = Some m -> 1 <= m <= 12) -> forall m, f_month (fold_left take_token l f) = Some m -> 1 <= m <= 12.
Proof. induction l as [|t l IH]; intros f F; cbn [fold_left]; [exact F|]. apply IH. now apply take_month_range. Qed.

Lemma outcome l : match parse_cookie_date l with
  | NoDate => True
  | Date y mo d h mi s => 1601 <= y /\ a_date y mo d /\ a_time h mi s
  | ValueError => exists y mo d n, days y mo n /\ n < d <= 31
  end.
Proof.
  rewrite parse_is. pose proof (fold_month_range (tokens [] l) nothing ltac:(discriminate)) as MR. destruct (fold_left take_token (tokens [] l) nothing) as [ft fd fm fy].
  unfold conclude. cbn [f_time f_day f_month f_year] in *. destruct fd as [d|], fm as [mo|], fy as [y0|], ft as [[[h mi] s]|]; try exact Logic.I. cbv zeta. set (y := full_year y0).
  specialize (MR mo eq_refl). destruct (_ || _) eqn:E; [exact Logic.I|]. rewrite !orb_false_iff, !N.ltb_ge in E. unfold date_time.
  pose proof (proj2 (days_in_month_spec y mo _ MR) eq_refl) as DS. destruct (d <=? days_in_month y mo) eqn:DL.
  - apply N.leb_le in DL. split; [lia|]. split; [|unfold a_time; lia]. split; [lia|]. eauto.
  - apply N.leb_gt in DL. exists y, mo, d, (days_in_month y mo). split; [exact DS|lia].
Qed.
