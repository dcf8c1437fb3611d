(** C47, C48, C86-C89 *)

From Coq Require Import List Arith Bool NArith ZArith String Lia.
From Verif Require Import Bytes Text CookieModel CookieSpec CookieProofs.
Import ListNotations.

(** Whatever was put into a jar before, a cookie which is returned for a request comes from an earlier update, and may go to this host, this path and this scheme. *)
Theorem C47_sent_partial is_ip parse_int parse_date now0 us os now u r n v :
  Forall op_proper os -> snd (filter_cookies is_ip now u (run is_ip parse_int parse_date (new_jar now0 us) os)) = Some r -> In (n, v) r ->
  exists t from m, updates os t from n m /\ m_value m = v /\ may_reach is_ip from u m /\
    (shared from m \/ (exists p, path_of from m p /\ path_match p (request_path u)) /\ (m_secure m = true -> u_secure u = true) /\
      (us = false -> forall h, u_host u = Some h -> is_ip h = false)) /\ lives parse_int t now m.
Proof. exact (sent is_ip parse_int parse_date now0 us os now u r n v). Qed.
Print Assumptions C47_sent_partial.

Definition no_ip (s : str) : bool := false.
Definition int_of (s : str) : option Z := match s with [] => None | _ => if forallb is_digit s then Some (Z.of_N (undec s)) else None end.
Definition no_date (s : str) : option (option Z) := Some None.
Definition at_host (h p : string) (secure : bool) : url := {| u_host := Some (text h); u_path := text p; u_secure := secure |}.
Definition nowhere : url := {| u_host := None; u_path := []; u_secure := false |}.
Definition cookie (v d p a e : string) (secure : bool) : morsel :=
  {| m_value := text v; m_domain := Some (text d); m_path := text p; m_secure := secure; m_max_age := text a; m_expires := text e |}.
Definition asked (pd : str -> option (option Z)) (os : list op) (now : Z) (u : url) := snd (filter_cookies no_ip now u (run no_ip int_of pd (new_jar 0 false) os)).

Example C47_nonvacuous :
  asked no_date [Update 10 (at_host "www.a.com" "/x/y" true) [(text "n", cookie "1" ".a.com" "" "60" "" true); (text "o", cookie "2" "" "/" "" "" false); (text "p", cookie "3" "b.com" "/" "" "" false)]]
    1000 (at_host "api.a.com" "/x/z" true) = Some [(text "n", text "1")] /\
  asked no_date [Update 10 (at_host "www.a.com" "/x/y" true) [(text "n", cookie "1" ".a.com" "" "60" "" true); (text "o", cookie "2" "" "/" "" "" false)]]
    1000 (at_host "www.a.com" "/q" false) = Some [(text "o", text "2")].
Proof. vm_compute. auto. Qed.

(** A secure cookie for one path, which is put into a jar without a url, is sent to every host, every path, in plain text. *)
Theorem C47_shared_refuted : exists n m u, m_secure m = true /\ u_secure u = false /\ m_path m = text "/private" /\ u_path u = text "/" /\
  asked no_date [Update 0 nowhere [(n, m)]] 0 u = Some [(n, m_value m)].
Proof. exists (text "n"), (cookie "1" "" "/private" "" "" true), (at_host "any.com" "/" false). vm_compute. auto. Qed.
Print Assumptions C47_shared_refuted.

(** After a cookie with a domain which ends with a dot was put into a jar without a url, every request fails. *)
Theorem C47_keyerror_refuted : exists cs, forall now u, asked no_date [Update 0 nowhere cs] now u = None.
Proof. exists [(text "n", cookie "1" "a.com." "/" "" "" false)]. intros now u. unfold asked. now rewrite filter_same. Qed.
Print Assumptions C47_keyerror_refuted.

(** A cookie which is never given a lifetime stays until the jar is cleared, and is sent to its domain. *)
Theorem C48_session_partial is_ip parse_int parse_date now us a t u cs b n m d now' to r : let os := a ++ Update t u cs :: b in
  Forall op_proper os -> session parse_int parse_date os n -> total_dates parse_date os -> existsb is_clear b = false -> In (n, m) cs ->
  us = true \/ host_is_ip is_ip (u_host u) = false ->
  (forall d', wanted m = Some d' -> d = d' /\ forall h, u_host u = Some h -> domain_match is_ip d' h) ->
  (wanted m = None -> u_host u = Some d) ->
  (forall t' u' m', updates os t' u' n m' -> u' = u /\ m' = m) ->
  u_host to = Some d -> us = true \/ is_ip d = false -> (forall p, path_of u m p -> path_match p (request_path to)) -> (m_secure m = true -> u_secure to = true) ->
  snd (filter_cookies is_ip now' to (run is_ip parse_int parse_date (new_jar now us) os)) = Some r -> In n (map fst r).
Proof. exact (session_sent is_ip parse_int parse_date now us a t u cs b n m d now' to r). Qed.
Print Assumptions C48_session_partial.

Example C48_nonvacuous :
  asked no_date [Update 0 (at_host "a.com" "/" false) [(text "n", cookie "1" "" "" "" "" false); (text "o", cookie "2" "" "" "5" "" false)]] 100000 (at_host "a.com" "/" false) = Some [(text "n", text "1")].
Proof. reflexivity. Qed.

(** A cookie which is set for five seconds, and then again without a lifetime, is gone after ten. *)
Theorem C48_refuted : exists u n m m', m_max_age m' = [] /\ m_expires m' = [] /\
  asked no_date [Update 0 u [(n, m)]; Update 1000 u [(n, m')]] 2000 u = Some [(n, m_value m')] /\
  asked no_date [Update 0 u [(n, m)]; Update 1000 u [(n, m')]] 10000 u = Some [].
Proof. exists (at_host "a.com" "/" false), (text "n"), (cookie "1" "" "" "5" "" false), (cookie "2" "" "" "" "" false). vm_compute. auto. Qed.
Print Assumptions C48_refuted.

(** C86: the second cookie asks for the whole domain; it is not sent to a subdomain. Without the first one it is. *)
Theorem C86_refuted : exists u u' n m m', wanted m = None /\ wanted m' = u_host u /\ may_reach no_ip u u' m' /\
  asked no_date [Update 0 u [(n, m)]; Update 1000 u [(n, m')]] 2000 u' = Some [] /\
  asked no_date [Update 1000 u [(n, m')]] 2000 u' = Some [(n, m_value m')].
Proof.
  exists (at_host "a.com" "/" false), (at_host "www.a.com" "/" false), (text "n"), (cookie "1" "" "/" "" "" false), (cookie "2" "a.com" "/" "" "" false).
  split; [reflexivity|]. split; [reflexivity|]. split; [|vm_compute; auto].
  split; [now left|]. exists (text "www.a.com"). split; [reflexivity|]. right. split; [now exists (text "www")|reflexivity].
Qed.
Print Assumptions C86_refuted.

(** C87: dates are counted from 1970, the clock of the loop from the start of the system. A cookie whose date has passed, which asks for removal, is kept and sent, as
    long as the system is up for a shorter time than from 1970 to the date. *)
Theorem C87_refuted (date uptime : Z) : (1000 <= uptime <= date)%Z -> let u := at_host "a.com" "/" false in
  snd (filter_cookies no_ip uptime u (run no_ip int_of (fun _ => Some (Some date)) (new_jar 0 false) [Update 1000 u [(text "n", cookie "1" "" "/" "" "the date" false)]])) =
    Some [(text "n", text "1")].
Proof.
  intros L. cbv zeta. set (u := at_host "a.com" "/" false).
  change (run no_ip int_of (fun _ => Some (Some date)) (new_jar 0 false) [Update 1000 u [(text "n", cookie "1" "" "/" "" "the date" false)]])
    with (do_expiration 1000 {| cookies := [(text "a.com", [(text "n", cookie "1" "a.com" "/" "" "the date" false)])]; host_only := [(text "a.com", text "n")]; unsafe := false;
                                next_expiration := Z.min 0 date; expirations := [((text "a.com", text "n"), date)] |}).
  assert (F : forall t, (t <= date)%Z -> forallb (fun e : str * str * Z => (t <=? snd e)%Z) [((text "a.com", text "n"), date)] = true).
  { intros t T. cbn [forallb snd]. rewrite andb_true_r. now apply Z.leb_le. }
  match goal with |- context [do_expiration 1000 ?j] => destruct (do_expiration_none 1000 j) as (A & B & C & D); [apply F; lia|] end.
  rewrite filter_same; [|rewrite D; apply F; lia]. rewrite A. cbn [cookies flat_map snd app filter_loop]. unfold sends. cbn [m_domain cookie]. rewrite B, C. reflexivity.
Qed.
Print Assumptions C87_refuted.

(** C88: a cookie is sent at most for a second after its max-age is over. *)
Theorem C88_expired is_ip parse_int parse_date now0 us os now u r n v :
  Forall op_proper os -> snd (filter_cookies is_ip now u (run is_ip parse_int parse_date (new_jar now0 us) os)) = Some r -> In (n, v) r ->
  exists t from m, updates os t from n m /\ m_value m = v /\ forall s, max_age parse_int m = Some s -> (now < t + 1000 * s + 1000)%Z.
Proof. exact (not_after is_ip parse_int parse_date now0 us os now u r n v). Qed.
Print Assumptions C88_expired.

Example C88_nonvacuous : let u := at_host "a.com" "/" false in let os := [Update 300 u [(text "n", cookie "1" "" "/" "5" "" false)]] in
  asked no_date os 5300 u = Some [(text "n", text "1")] /\ asked no_date os 6000 u = Some [].
Proof. vm_compute. auto. Qed.

(** At 5.9 s it is still there, though its five seconds were over at 5.3 s, if the jar has looked before. *)
Theorem C88_refuted : exists u n m, asked no_date [Update 300 u [(n, m)]; Filter 400 u] 5900 u = Some [(n, m_value m)] /\ max_age int_of m = Some 5%Z.
Proof. exists (at_host "a.com" "/" false), (text "n"), (cookie "1" "" "/" "5" "" false). vm_compute. auto. Qed.
Print Assumptions C88_refuted.

(** C89: of two cookies with one name for two paths only the last one is kept. *)
Theorem C89_refuted : exists u u' n m m', m_path m = text "/a" /\ m_path m' = text "/b" /\ u_path u = text "/a" /\ path_match (m_path m) (request_path u) /\
  asked no_date [Update 0 u' [(n, m)]; Update 0 u' [(n, m')]] 0 u = Some [] /\ asked no_date [Update 0 u' [(n, m)]] 0 u = Some [(n, m_value m)].
Proof.
  exists (at_host "a.com" "/a" false), (at_host "a.com" "/" false), (text "n"), (cookie "1" "" "/a" "" "" false), (cookie "2" "" "/b" "" "" false).
  split; [reflexivity|]. split; [reflexivity|]. split; [reflexivity|]. split; [now left|]. vm_compute. auto.
Qed.
Print Assumptions C89_refuted.
