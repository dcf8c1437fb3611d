From Coq Require Import List Arith Bool NArith Lia.
From Verif Require Import Bytes Text QuoteModel IpModel IpSpec IpProofs.
Import ListNotations.

(** C28 *)
Theorem C28_round_trip : forall v, (v < 4294967296)%N -> parse_ip_v4_string (produce_ip_v4_string v) = Some v.
Proof. exact v4_round_trip. Qed.
Print Assumptions C28_round_trip.

(** Each address has one accepted text: the four decimal numbers under 256 without leading zeros. *)
Theorem C28_accepted : forall s v, parse_ip_v4_string s = Some v <->
  exists a b c d, (a < 256)%N /\ (b < 256)%N /\ (c < 256)%N /\ (d < 256)%N /\ s = joined 46 (map dec [a; b; c; d]) /\ v = horner 256 [a; b; c; d].
Proof. exact v4_accepted. Qed.
Print Assumptions C28_accepted.

Theorem C28_canonical : forall s v, parse_ip_v4_string s = Some v -> (v < 4294967296)%N /\ s = produce_ip_v4_string v.
Proof. exact v4_canonical. Qed.
Print Assumptions C28_canonical.

Example C28_nonvacuous :
  (* 192.168.0.1 *)
  parse_ip_v4_string [49; 57; 50; 46; 49; 54; 56; 46; 48; 46; 49]%N = Some 3232235521%N /\
  produce_ip_v4_string 3232235521 = [49; 57; 50; 46; 49; 54; 56; 46; 48; 46; 49]%N /\
  (* 192.168.0.01, 256.0.0.0 *)
  parse_ip_v4_string [49; 57; 50; 46; 49; 54; 56; 46; 48; 46; 48; 49]%N = None /\
  parse_ip_v4_string [50; 53; 54; 46; 48; 46; 48; 46; 48]%N = None.
Proof. vm_compute. auto. Qed.

(** C29 *)
Theorem C29_round_trip : forall v, (v < 2 ^ 128)%N -> parse_ip_v6_string (produce_ip_v6_string v) = Some v.
Proof. exact v6_round_trip. Qed.
Print Assumptions C29_round_trip.

Theorem C29_written : forall v, (v < 2 ^ 128)%N -> denotes digit (produce_ip_v6_string v) v.
Proof. exact v6_produced. Qed.
Print Assumptions C29_written.

Theorem C29_accepted : forall s v, ~ In 37%N s -> (parse_ip_v6_string s = Some v <-> denotes digit s v).
Proof. exact v6_exact. Qed.
Print Assumptions C29_accepted.

Theorem C29_bound : forall s v, denotes digit s v -> (v < 2 ^ 128)%N.
Proof. exact denotes_bound. Qed.
Print Assumptions C29_bound.

Definition text_fe80_1 : str := [102; 101; 56; 48; 58; 58; 49]%N.
Definition text_FE80_1 : str := [70; 69; 56; 48; 58; 58; 49]%N.

Example C29_nonvacuous :
  parse_ip_v6_string text_fe80_1 = Some (65152 * 2 ^ 112 + 1)%N /\
  produce_ip_v6_string (65152 * 2 ^ 112 + 1) = text_fe80_1 /\
  (* 1:0:0:2:3:4:5:6 *)
  produce_ip_v6_string (2 ^ 112 + 2 * 2 ^ 64 + 3 * 2 ^ 48 + 4 * 2 ^ 32 + 5 * 2 ^ 16 + 6) = [49; 58; 58; 50; 58; 51; 58; 52; 58; 53; 58; 54]%N.
Proof. vm_compute. auto. Qed.

(** C77 *)
Theorem C77_forms_refuted : exists s v, denotes any_digit s v /\ parse_ip_v6_string s = None.
Proof.
  exists text_FE80_1, (65152 * 2 ^ 112 + 1)%N. split; [|vm_compute; reflexivity].
  assert (D : forall ps gs qs hs, Forall2 (group_text any_digit) ps gs -> Forall2 (group_text any_digit) qs hs -> length gs + length hs < 8 ->
    denotes any_digit (joined 58 ps ++ [58; 58]%N ++ joined 58 qs) (horner 65536 (gs ++ repeat 0%N (8 - (length gs + length hs)) ++ hs)))
    by (intros; apply Denotes_short; assumption).
  specialize (D [[70; 69; 56; 48]%N] [65152%N] [[49%N]] [1%N]). vm_compute in D. vm_compute. apply D; [| |lia].
  - repeat constructor. exists [15; 14; 8; 0]%N. split; [|reflexivity].
    constructor; [apply (Any_AF 70); lia|]. constructor; [apply (Any_AF 69); lia|]. constructor; [apply Any_lower, (Digit_09 56); lia|].
    constructor; [apply Any_lower, (Digit_09 48); lia|constructor].
  - repeat constructor. exists [1%N]. split; [|reflexivity]. constructor; [apply Any_lower, (Digit_09 49); lia|constructor].
Qed.
Print Assumptions C77_forms_refuted.

(** The address with a zone, but "::%zone". *)
Theorem C77_zone_refuted : exists s z v, denotes digit s v /\ parse_ip_v6_string (s ++ 37%N :: z) = None.
Proof.
  exists [58; 58]%N, [49%N], 0%N. split; [|vm_compute; reflexivity].
  apply (Denotes_short digit [] [] [] []); [constructor|constructor|cbn; lia].
Qed.
Print Assumptions C77_zone_refuted.

(** Lower case texts, with and without a zone. Missing: upper case digits, "::" with a zone, and the form with a dotted IPv4 tail. *)
Theorem C77_forms_partial : forall s v, denotes digit s v ->
  parse_ip_v6_string s = Some v /\ (s <> [58; 58]%N -> forall z, parse_ip_v6_string (s ++ 37%N :: z) = Some v).
Proof. exact v6_forms. Qed.
Print Assumptions C77_forms_partial.

Example C77_nonvacuous : parse_ip_v6_string (text_fe80_1 ++ [37; 50]%N) = Some (65152 * 2 ^ 112 + 1)%N /\
  parse_ip_v6_string [58; 58; 37; 50]%N = None /\ parse_ip_v6_string text_FE80_1 = None.
Proof. vm_compute. auto. Qed.
