(** C134-C138: http messages. *)

From Coq Require Import List Arith Bool NArith String Lia.
From Verif Require Import Bytes Text HeadModel MessageModel MessageSpec MessageProofs.
Import ListNotations.

(** Functions like those of python, for the examples. *)
Definition ex_isdigit (s : str) : bool := negb (beqb s []) && forallb (fun c => is_digit c || (c =? 178)%N) s.
Definition ex_to_int (s : str) : option N := if existsb (N.eqb 178) s then None else Some (undec s).
Example python_nonvacuous : python (map lower1) ex_isdigit ex_to_int.
Proof.
  split; try reflexivity.
  - intros s A. unfold ex_isdigit. rewrite andb_true_iff, negb_true_iff, forallb_forall. rewrite Forall_forall. split.
    + intros [H1 H2]. split; [intros ->; discriminate|]. intros c Hc. specialize (H2 c Hc). apply orb_true_iff in H2.
      destruct H2 as [H2|H2]; [exact H2|]. apply N.eqb_eq in H2. unfold ascii in A. rewrite Forall_forall in A. apply A in Hc. lia.
    + intros [H1 H2]. split; [destruct s; [congruence|reflexivity]|]. intros c Hc. rewrite (H2 c Hc). reflexivity.
  - intros s Hn H. unfold ex_to_int. destruct (existsb (N.eqb 178) s) eqn:E; [|reflexivity]. apply existsb_exists in E. destruct E as (c & Hc & E).
    apply N.eqb_eq in E. subst c. rewrite Forall_forall in H. apply H in Hc. discriminate.
Qed.

(** C134. A response ends where RFC 7230 says it does: false when the transfer codings are given in two fields, of which only
    the first one is looked at. *)
Theorem C134_two_fields_refuted : forall fold isdigit to_int brotli, python fold isdigit to_int ->
  exists h, rfc_end Other 200 h Chunked /\ reads (response_reader fold isdigit to_int brotli Other 200 h) = Some UntilEof.
Proof. intros. apply two_fields. assumption. Qed.
Print Assumptions C134_two_fields_refuted.

(** False for every other coding whose name contains "chunked", as [x-chunked]. *)
Theorem C134_substring_refuted : forall fold isdigit to_int brotli, python fold isdigit to_int ->
  exists h, rfc_end Other 200 h UntilEof /\ reads (response_reader fold isdigit to_int brotli Other 200 h) = Some Chunked.
Proof. intros. apply substring. assumption. Qed.
Print Assumptions C134_substring_refuted.

(** False for a response with another transfer coding and a content length: the length is used. *)
Theorem C134_length_refuted : forall fold isdigit to_int brotli, python fold isdigit to_int ->
  exists h, rfc_end Other 200 h UntilEof /\ reads (response_reader fold isdigit to_int brotli Other 200 h) = Some (Exactly 5).
Proof. intros. apply coded_length. assumption. Qed.
Print Assumptions C134_length_refuted.

(** Two different content lengths are not refused: the first one is used. *)
Theorem C134_two_lengths_refuted : forall fold isdigit to_int brotli, python fold isdigit to_int ->
  exists h, (forall f, ~ rfc_end Other 200 h f) /\ reads (response_reader fold isdigit to_int brotli Other 200 h) = Some (Exactly 5).
Proof. intros. apply two_lengths. assumption. Qed.
Print Assumptions C134_two_lengths_refuted.

(** A content length which is no number is not always refused with a payload error: "²" raises a ValueError. *)
Theorem C134_superscript_refuted : forall fold isdigit to_int brotli status, python fold isdigit to_int ->
  response_reader fold isdigit to_int brotli Other status (only [(ContentLength, [[178%N]])]) = ValueErr.
Proof. intros. apply superscript. assumption. Qed.
Print Assumptions C134_superscript_refuted.

(** With at most one transfer coding field, which ends with "chunked", at most one content length, and no Upgrade field, the
    reader reads what the RFC says, or the content coding is not supported. Missing are the cases above. *)
Theorem C134_framing_partial : forall fold isdigit to_int brotli m status h f, python fold isdigit to_int ->
  (100 <= status)%N -> (m = Connect -> 200 <= status < 300)%N -> simple h -> rfc_end m status h f ->
  reads (response_reader fold isdigit to_int brotli m status h) = Some f \/ response_reader fold isdigit to_int brotli m status h = CodingErr.
Proof. intros. apply framing_simple; assumption. Qed.
Print Assumptions C134_framing_partial.

(** A content length of ascii which is no number is refused. *)
Theorem C134_bad_length : forall fold isdigit to_int brotli status h d ds, python fold isdigit to_int ->
  h ContentLength = d :: ds -> ascii d -> (d = [] \/ exists c, In c d /\ is_digit c = false) ->
  response_reader fold isdigit to_int brotli Other status h = PayloadErr.
Proof. intros. eapply bad_length; eassumption. Qed.
Print Assumptions C134_bad_length.

Example C134_nonvacuous :
  let h := only [(TransferEncoding, [text "gzip , CHUNKED"]); (ContentLength, [text "12"]); (ContentEncoding, [text "br"])] in
  simple h /\ rfc_end Other 200 h Chunked /\ response_reader (map lower1) ex_isdigit ex_to_int true Other 200 h = ReadChunked (Some Brotli) /\
  response_reader (map lower1) ex_isdigit ex_to_int false Other 200 h = CodingErr /\
  response_reader (map lower1) ex_isdigit ex_to_int true Other 200 (only [(ContentLength, [text "12"])]) = ReadExactly 12 None /\
  response_reader (map lower1) ex_isdigit ex_to_int true Other 200 (only [(ContentLength, [text "-1"])]) = PayloadErr.
Proof.
  cbv zeta. assert (E : ends_chunked (elements (text "gzip , CHUNKED"))) by (exists [text "gzip"], (text "CHUNKED"); split; reflexivity).
  split; [|split; [|vm_compute; auto]].
  - split; [reflexivity|]. split; right.
    + eexists. split; [reflexivity|]. split; [apply asc; reflexivity|]. right. exact E.
    + exists (text "12"). split; [reflexivity|]. split; [discriminate|]. repeat (apply Forall_cons || apply Forall_nil); reflexivity.
  - apply R_chunked; try reflexivity; try discriminate; try lia. exact E.
Qed.

(** C135. The body of a response is decoded with its content coding: false for a body which lasts until the connection is
    closed, it is given as it was received. *)
Theorem C135_until_eof_refuted : forall fold isdigit to_int brotli, python fold isdigit to_int ->
  exists h, h ContentEncoding = [text "gzip"] /\ rfc_end Other 200 h UntilEof /\
    response_reader fold isdigit to_int brotli Other 200 h = ReadUntilEof.
Proof. intros. apply eof_not_decoded. Qed.
Print Assumptions C135_until_eof_refuted.

(** False for two codings in two fields: only the first one is undone, in the wrong order. *)
Theorem C135_two_fields_refuted : forall fold isdigit to_int brotli, python fold isdigit to_int ->
  exists h, h ContentEncoding = [text "gzip"; text "br"] /\ rfc_end Other 200 h Chunked /\
    response_reader fold isdigit to_int brotli Other 200 h = ReadChunked (Some Gzip).
Proof. intros. apply second_coding_lost. assumption. Qed.
Print Assumptions C135_two_fields_refuted.

(** A body which ends by itself is decoded by its coding, and is never given when the coding is not known. *)
Theorem C135_decoded_partial : forall fold isdigit to_int brotli status h, python fold isdigit to_int ->
  let r := response_reader fold isdigit to_int brotli Other status h in
  (reads r = Some Chunked \/ exists n, reads r = Some (Exactly n)) ->
  (h ContentEncoding = [] -> decodes r = None) /\
  (forall e, h ContentEncoding = [e] -> ascii e ->
     word (text "gzip") e /\ decodes r = Some Gzip \/ word (text "deflate") e /\ decodes r = Some Deflate \/
     word (text "br") e /\ brotli = true /\ decodes r = Some Brotli \/ word (text "identity") e /\ decodes r = None).
Proof. intros. apply coding_partial; assumption. Qed.
Print Assumptions C135_decoded_partial.

(** A coding which is known is never refused. *)
Theorem C135_known : forall fold isdigit to_int brotli m status h, python fold isdigit to_int ->
  (h ContentEncoding = [] \/ exists e es, h ContentEncoding = e :: es /\ ascii e /\
     (word (text "gzip") e \/ word (text "deflate") e \/ word (text "identity") e \/ word (text "br") e /\ brotli = true)) ->
  response_reader fold isdigit to_int brotli m status h <> CodingErr.
Proof. intros. apply coding_known; assumption. Qed.
Print Assumptions C135_known.

Example C135_nonvacuous :
  response_reader (map lower1) ex_isdigit ex_to_int true Other 200 (only [(ContentLength, [text "7"]); (ContentEncoding, [text "Deflate"])]) = ReadExactly 7 (Some Deflate) /\
  response_reader (map lower1) ex_isdigit ex_to_int true Other 200 (only [(ContentLength, [text "7"]); (ContentEncoding, [text "gzip, br"])]) = CodingErr.
Proof. vm_compute. auto. Qed.

(** C136. A connection is kept open after a response exactly when RFC 7230 says so: false for HTTP/1.0 with any Connection
    field which is not "close". *)
Theorem C136_old_refuted : forall fold isdigit to_int, python fold isdigit to_int ->
  exists h, persistent {| major := 1; minor := 0 |} h false /\ keep_alive_enabled fold {| major := 1; minor := 0 |} h = true.
Proof. intros. eapply old_kept. eassumption. Qed.
Print Assumptions C136_old_refuted.

(** False for "close" in a second Connection field. *)
Theorem C136_second_refuted : forall fold isdigit to_int, python fold isdigit to_int ->
  exists h, persistent {| major := 1; minor := 1 |} h false /\ keep_alive_enabled fold {| major := 1; minor := 1 |} h = true.
Proof. intros. eapply second_close. eassumption. Qed.
Print Assumptions C136_second_refuted.

(** False for every other option which contains "close". *)
Theorem C136_substring_refuted : forall fold isdigit to_int, python fold isdigit to_int ->
  exists h, persistent {| major := 1; minor := 1 |} h true /\ keep_alive_enabled fold {| major := 1; minor := 1 |} h = false.
Proof. intros. eapply closed_too_early. eassumption. Qed.
Print Assumptions C136_substring_refuted.

(** For a single plain Connection field, or none, it is so. *)
Theorem C136_persistent_partial : forall fold isdigit to_int v h b, python fold isdigit to_int ->
  plain_connection v h -> persistent v h b -> keep_alive_enabled fold v h = b.
Proof. intros. eapply persistent_partial; eassumption. Qed.
Print Assumptions C136_persistent_partial.

(** "close" within the first field always closes. *)
Theorem C136_close : forall fold isdigit to_int v h c cs e, python fold isdigit to_int ->
  h Connection = c :: cs -> ascii c -> In e (elements c) -> word (text "close") e -> keep_alive_enabled fold v h = false.
Proof. intros. eapply close_first; eassumption. Qed.
Print Assumptions C136_close.

Example C136_nonvacuous :
  let h := only [(Connection, [text "TE, Close"])] in
  plain_connection {| major := 1; minor := 1 |} h /\ persistent {| major := 1; minor := 1 |} h false /\
  keep_alive_enabled (map lower1) {| major := 1; minor := 0 |} (only []) = false /\
  keep_alive_enabled (map lower1) {| major := 1; minor := 1 |} (only []) = true /\
  keep_alive_enabled (map lower1) {| major := 1; minor := 0 |} (only [(Connection, [text "Keep-Alive"])]) = true.
Proof.
  cbv zeta. assert (O : option_in (text "close") (only [(Connection, [text "TE, Close"])])).
  { exists (text "Close"). split; [vm_compute; auto|reflexivity]. }
  split; [|split; [apply P_close; exact O|vm_compute; auto]].
  right. eexists. split; [reflexivity|]. split; [apply asc; reflexivity|]. split; [intros; exact O|]. intros _. left. exact O.
Qed.

(** C137. The keep-alive information is read from its header: every list of parameters is, the last value of each counts, and
    values which can not be read are ignored. *)
Theorem C137_reads : forall fold isdigit to_int, python fold isdigit to_int ->
  forall timeout to_float default_timeout count to_count default_count s l, parameters s l ->
  let i := from_header_value fold timeout to_float default_timeout count to_count default_count (Some s) in
  last_of (text "timeout") to_float default_timeout l (fst i) /\ last_of (text "max") to_count default_count l (snd i).
Proof. intros. eapply info_reads; eassumption. Qed.
Print Assumptions C137_reads.

(** A parameter without a value makes the next one unknown: the timeout of [foo,timeout=5] is not read. *)
Theorem C137_hidden_refuted : forall fold isdigit to_int, python fold isdigit to_int ->
  forall timeout to_float default_timeout count to_count default_count,
  from_header_value fold timeout to_float default_timeout count to_count default_count (Some (text "foo,timeout=5")) = (default_timeout, default_count).
Proof. intros. eapply info_hidden; eassumption. Qed.
Print Assumptions C137_hidden_refuted.

(** The information survives the way through the header when its timeout survives being written without a fraction ... *)
Theorem C137_round_trip_partial : forall fold isdigit to_int, python fold isdigit to_int ->
  forall timeout timeout_eqb to_float format0 default_timeout count count_eqb to_count show_count default_count,
  (forall a b, timeout_eqb a b = true <-> a = b) -> (forall a b, count_eqb a b = true <-> a = b) ->
  (forall t, token (format0 t)) -> (forall n, token (show_count n)) -> (forall n, to_count (show_count n) = Some n) ->
  forall t n, to_float (format0 t) = Some t \/ t = default_timeout ->
  from_header_value fold timeout to_float default_timeout count to_count default_count
    (to_header_value timeout timeout_eqb format0 default_timeout count count_eqb show_count default_count (t, n)) = (t, n).
Proof. intros. eapply info_round_trip; eassumption. Qed.
Print Assumptions C137_round_trip_partial.

(** ... but two timeouts which are written in the same way, as 2.25 and 2.0, do not both survive. *)
Theorem C137_round_trip_refuted : forall fold timeout timeout_eqb to_float format0 default_timeout count count_eqb to_count show_count default_count,
  (forall a b, timeout_eqb a b = true <-> a = b) -> forall t t' n,
  t <> t' -> t <> default_timeout -> t' <> default_timeout -> format0 t = format0 t' ->
  let to := to_header_value timeout timeout_eqb format0 default_timeout count count_eqb show_count default_count in
  let from := from_header_value fold timeout to_float default_timeout count to_count default_count in
  to (t, n) = to (t', n) /\ (from (to (t, n)) <> (t, n) \/ from (to (t', n)) <> (t', n)).
Proof. intros. apply info_lossy; assumption. Qed.
Print Assumptions C137_round_trip_refuted.

(** With timeouts as tenths of seconds, and counts which are not negative. *)
Definition ex_float (s : str) : option N := if forallb is_digit s then Some (undec s * 10)%N else None.
Definition ex_format (t : N) : str := dec (t / 10).
Definition ex_from := from_header_value (map lower1) N ex_float 150%N N (fun s => Some (undec s)) 0%N.
Definition ex_to := to_header_value N N.eqb ex_format 150%N N N.eqb dec 0%N.
Example C137_nonvacuous : ex_from (Some (text "Timeout=5, max = 100")) = (50, 100)%N /\
  ex_to (50, 100)%N = Some (text "timeout=5,max=100") /\ ex_to (150, 0)%N = None /\ ex_from (ex_to (22, 0)%N) = (20, 0)%N /\
  parameters (text "Timeout=5, max=100") [(text "Timeout", text "5"); (text "max", text "100")].
Proof.
  split; [vm_compute; reflexivity|]. split; [vm_compute; reflexivity|]. split; [vm_compute; reflexivity|]. split; [vm_compute; reflexivity|].
  apply (K_next [] (text "Timeout") (text "5") [] (text " max=100") [(text "max", text "100")]);
    [apply Forall_nil|apply tok; [discriminate|reflexivity]|apply tok; [discriminate|reflexivity]|apply Forall_nil|].
  apply (K_last [32%N] (text "max") (text "100") []);
    [repeat constructor|apply tok; [discriminate|reflexivity]|apply tok; [discriminate|reflexivity]|apply Forall_nil].
Qed.

(** C138. The body of a request is read as its headers say: false, asking for the reader of any request which is not upgraded
    raises, since requests have no status. *)
Theorem C138_request_refuted : forall fold isdigit to_int brotli connect head h, python fold isdigit to_int ->
  (h Upgrade = [] \/ exists us, h Upgrade = [] :: us) ->
  (h ContentLength = [] \/ exists d ds, h ContentLength = d :: ds /\ d <> [] /\ Forall (fun c => is_digit c = true) d) ->
  payload_reader_task fold isdigit to_int brotli (Request connect head) h = AttributeErr.
Proof. intros. apply request_raises; assumption. Qed.
Print Assumptions C138_request_refuted.

(** An upgraded one has no body, but after CONNECT everything is read. *)
Theorem C138_upgraded : forall fold isdigit to_int brotli connect head h u us c cs, python fold isdigit to_int ->
  h Upgrade = u :: us -> u <> [] -> h Connection = c :: cs -> ascii c -> word (text "upgrade") c -> h ContentLength = [] ->
  payload_reader_task fold isdigit to_int brotli (Request connect head) h = if connect && negb head then ReadUntilEof else NoReader.
Proof. intros. eapply request_upgraded; eassumption. Qed.
Print Assumptions C138_upgraded.

Example C138_nonvacuous :
  payload_reader_task (map lower1) ex_isdigit ex_to_int true (Request false false) (only [(ContentLength, [text "3"])]) = AttributeErr /\
  payload_reader_task (map lower1) ex_isdigit ex_to_int true (Request true false) (only [(Upgrade, [text "x"]); (Connection, [text "Upgrade"])]) = ReadUntilEof.
Proof. vm_compute. auto. Qed.
