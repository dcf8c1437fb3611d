From Coq Require Import List Arith Bool NArith String Lia.
From Verif Require Import Bytes Text QuoteModel QuoteSpec HeadModel HeadSpec HeadProofs.
Import ListNotations.
Local Open Scope string_scope.
Local Open Scope list_scope.

(** C25: what is written is read up to its empty line, and the headers come back with the method and the path. *)
Theorem C25_request_headers : forall m p hs v,
  valid_method m -> valid_path p -> Forall valid_header hs ->
  exists d v', read_head (write_request m p hs v) = Some d /\ parse_request d = Some (v', m, p, hs).
Proof. exact request_headers. Qed.
Print Assumptions C25_request_headers.

Theorem C25_response_round_trip : forall status phrase hs v,
  (100 <= status < 1000)%N -> one_line phrase -> trimmed phrase -> Forall valid_header hs ->
  exists d, read_head (write_response status phrase hs v) = Some d /\ parse_response d = Some (v, status, phrase, hs).
Proof. exact response_head. Qed.
Print Assumptions C25_response_round_trip.

Definition example_headers : headers :=
  [(text "Host", text "a:80"); (text "X-Empty", []); (text "x", text "caf" ++ [233; 32; 8364]%N)].

Example C25_nonvacuous :
  valid_method (text "GET") /\ valid_path (text "/a?b=" ++ [233]%N) /\ Forall valid_header example_headers /\
  option_map parse_request (read_head (write_request (text "GET") (text "/a?b=" ++ [233]%N) example_headers {| major := 1; minor := 1 |}))
    = Some (Some ({| major := 1; minor := 1 |}, text "GET", text "/a?b=" ++ [233]%N, example_headers)) /\
  option_map parse_response (read_head (write_response 404 (text "Not Found") example_headers {| major := 1; minor := 0 |}))
    = Some (Some ({| major := 1; minor := 0 |}, 404%N, text "Not Found", example_headers)).
Proof.
  split; [|split; [|split; [|split; vm_compute; reflexivity]]].
  - split; [split; [discriminate|]|]; repeat (apply Forall_cons || apply Forall_nil); try (left; vm_compute; intuition discriminate); vm_compute; tauto.
  - split; [discriminate|]. repeat (apply Forall_cons || apply Forall_nil); unfold scalar; cbn; lia.
  - assert (T : forall s, forallb (fun c => existsb (N.eqb c) (text "HostX-Emptyx")) s = true -> Forall token_char s).
    { intros s Hs. apply Forall_forall. intros c Hc. rewrite forallb_forall in Hs. apply Hs in Hc. apply existsb_exists in Hc.
      destruct Hc as (x & Hx & E). apply N.eqb_eq in E. subst x. unfold token_char. cbn in *. intuition lia. }
    repeat (apply Forall_cons || apply Forall_nil); (split; [split; [discriminate|apply T + idtac]|split; [split; [|split]|split]]); try reflexivity;
      try (cbn; intuition discriminate); repeat (apply Forall_cons || apply Forall_nil); try (unfold scalar; cbn; lia).
Qed.

(** The version is not written as given. *)
Theorem C71_version_refuted : exists m p hs v d v' m' p' hs',
  valid_method m /\ valid_path p /\ Forall valid_header hs /\
  read_head (write_request m p hs v) = Some d /\ parse_request d = Some (v', m', p', hs') /\ v' <> v.
Proof.
  exists (text "GET"), (text "/"), [], {| major := 1; minor := 0 |}, (text "GET / HTTP/1.1"), {| major := 1; minor := 1 |},
    (text "GET"), (text "/"), [].
  split; [|split; [|split; [constructor|split; [vm_compute; reflexivity|split; [vm_compute; reflexivity|discriminate]]]]].
  - split; [split; [discriminate|]|]; repeat (apply Forall_cons || apply Forall_nil); try (left; vm_compute; intuition discriminate); vm_compute; tauto.
  - split; [discriminate|]. repeat (apply Forall_cons || apply Forall_nil); unfold scalar; cbn; lia.
Qed.
Print Assumptions C71_version_refuted.

(** Missing for C71: versions whose minor number is not the major one, as 1.0. *)
Theorem C71_request_partial : forall m p hs v,
  valid_method m -> valid_path p -> Forall valid_header hs -> minor v = major v ->
  exists d, read_head (write_request m p hs v) = Some d /\ parse_request d = Some (v, m, p, hs).
Proof. exact request_version. Qed.
Print Assumptions C71_request_partial.

Example C71_nonvacuous :
  option_map parse_request (read_head (write_request (text "A") (text "*") [] {| major := 10; minor := 10 |}))
  = Some (Some ({| major := 10; minor := 10 |}, text "A", text "*", [])).
Proof. vm_compute. reflexivity. Qed.

(** A header value can bring another header along. *)
Theorem C70_injection_refuted : exists m p k v d hs',
  valid_method m /\ valid_path p /\ token k /\ Forall ascii v /\
  read_head (write_request m p [(k, v)] {| major := 1; minor := 1 |}) = Some d /\
  parse_request d = Some ({| major := 1; minor := 1 |}, m, p, hs') /\ 1 < List.length hs'.
Proof.
  exists (text "GET"), (text "/"), (text "a"), (text "b" ++ crlf ++ text "evil: 1"),
    (text "GET / HTTP/1.1" ++ crlf ++ text "a: b" ++ crlf ++ text "evil: 1"), [(text "a", text "b"); (text "evil", text "1")].
  split; [|split; [|split; [|split; [|split; [vm_compute; reflexivity|split; [vm_compute; reflexivity|cbn; lia]]]]]].
  - split; [split; [discriminate|]|]; repeat (apply Forall_cons || apply Forall_nil); try (left; vm_compute; intuition discriminate); vm_compute; tauto.
  - split; [discriminate|]. repeat (apply Forall_cons || apply Forall_nil); unfold scalar; cbn; lia.
  - split; [discriminate|]. repeat constructor; cbn; lia.
  - repeat constructor.
Qed.
Print Assumptions C70_injection_refuted.

(** Values without a line break are carried: [C25_request_headers]. *)
Example C70_nonvacuous : valid_header (text "a", text "b: c") /\ ~ valid_header (text "a", text "b" ++ crlf ++ text "c: d").
Proof.
  split.
  - split; [split; [discriminate|repeat constructor; cbn; lia]|]. split; [|split; reflexivity].
    split; [|split; cbn; intuition discriminate]. repeat (apply Forall_cons || apply Forall_nil); unfold scalar; cbn; lia.
  - intros (_ & (_ & H & _) & _). apply H. cbn. tauto.
Qed.

(** An answer which asks for an upgrade loses its body, and so does the answer for a refused CONNECT. *)
Theorem C69_framing_refuted :
  (exists status length, body_framing Other status true false length <> rfc_framing Other status false length) /\
  (exists status length, body_framing Connect status false false length <> rfc_framing Connect status false length).
Proof.
  split; [exists 426%N, (Some 53%N)|exists 407%N, (Some 5%N)]; discriminate.
Qed.
Print Assumptions C69_framing_refuted.

(** Missing for C69: the two cases above. *)
Theorem C69_framing_partial : forall m status upgraded chunked length,
  (100 <= status)%N -> (m = Connect -> 200 <= status < 300)%N ->
  (upgraded = true -> length = None \/ rfc_framing m status chunked length = NoBody) ->
  body_framing m status upgraded chunked length = rfc_framing m status chunked length.
Proof. exact framing_partial. Qed.
Print Assumptions C69_framing_partial.

Example C69_nonvacuous :
  body_framing Other 200 false true (Some 5%N) = Chunked /\ body_framing Other 200 false false (Some 5%N) = Exactly 5 /\
  body_framing Other 200 true false None = UntilEof /\ body_framing Head 200 false false (Some 5%N) = NoBody /\
  rfc_framing Other 101 false None = NoBody.
Proof. repeat split. Qed.
