(** C131-C133: credentials. *)

From Coq Require Import List Arith Bool NArith String.
From Verif Require Import Bytes Text AuthModel AuthSpec AuthProofs.
Import ListNotations.

(** C131. Credentials which were put into a header are read back from it: false for a password with a line feed, which is
    accepted and written, but can not be read (the '.' of the regular expression does not match it). *)
Theorem C131_round_trip_refuted : exists u p h,
  new u p = Some (u, p) /\ to_header latin1 (u, p) = Some h /\ from_header latin1 h = None.
Proof. exact newline_lost. Qed.
Print Assumptions C131_round_trip_refuted.

(** Without line feeds they are, for every encoding which can be undone and leaves ascii as it is. What is missing are the
    texts with line feeds. *)
Theorem C131_round_trip_partial : forall e u p h, good_encoding e -> no_colon u -> no_line_feed u -> no_line_feed p ->
  to_header e (u, p) = Some h -> from_header e h = Some (u, p).
Proof. exact round_trip. Qed.
Print Assumptions C131_round_trip_partial.

(** Latin1, the default, is such an encoding, and every text of it can be written. *)
Theorem C131_latin1 : good_encoding latin1 /\ forall u p, latin u -> latin p -> exists h, to_header latin1 (u, p) = Some h.
Proof. split; [exact latin1_good|exact latin1_written]. Qed.
Print Assumptions C131_latin1.

(** The header is always a single line of printable ascii, whatever the credentials are, and its token is the base64 form of
    the encoded "user:password". *)
Theorem C131_header : forall e c h, good_encoding e -> to_header e c = Some h ->
  header_text h /\ exists b, enc e (fst c ++ [58%N] ++ snd c) = Some b /\ h = text "Basic " ++ b64encode b /\ base64 b (b64encode b).
Proof. exact one_line. Qed.
Print Assumptions C131_header.

Example C131_nonvacuous : to_header latin1 (text "Aladdin", text "open sesame") = Some (text "Basic QWxhZGRpbjpvcGVuIHNlc2FtZQ==") /\
  from_header latin1 (text "  bASIC   QWxhZGRpbjpvcGVuIHNlc2FtZQ==  ") = Some (text "Aladdin", text "open sesame").
Proof. vm_compute. auto. Qed.

(** C132. Only the method 'basic' is read: false, 'baſic' with a long s is read too, since the method is casefolded. *)
Theorem C132_method_refuted : exists h u p, h = [98; 97; 383; 105; 99; 32]%N ++ text "bWU6cHc=" /\
  from_header latin1 h = Some (u, p) /\ forall m, (exists token, h = m ++ [32%N] ++ token) -> ~ basic_word m.
Proof. exact foreign_method. Qed.
Print Assumptions C132_method_refuted.

(** A token which is not base64 is refused: false, characters which are not of the alphabet are skipped. *)
Theorem C132_token_refuted : exists h token u p, h = text "Basic " ++ token /\ from_header latin1 h = Some (u, p) /\ forall b, ~ base64 b token.
Proof. exact lenient. Qed.
Print Assumptions C132_token_refuted.

(** What is read always comes from a method which casefolds to 'basic' and a token which decodes to the credentials; the user
    never has a ':', so the credentials read are ones which could have been created. *)
Theorem C132_read_only : forall e h u p, from_header e h = Some (u, p) ->
  no_colon u /\ no_line_feed u /\ no_line_feed p /\ new u p = Some (u, p) /\
  exists w1 m w2 token w3 b t, h = w1 ++ m ++ w2 ++ token ++ w3 /\ w2 <> [] /\
    Forall (fun c => re_space c = true) w1 /\ Forall (fun c => re_space c = true) w2 /\ Forall (fun c => re_space c = true) w3 /\
    folds_to_basic m /\ b64decode token = Some b /\ dec e b = Some t /\ means t u p.
Proof. exact read_credentials. Qed.
Print Assumptions C132_read_only.

(** Every header of the method, in any case of its letters, with a token which is base64 of a text without line feeds is read. *)
Theorem C132_reads : forall w token b t e u p, basic_word w -> base64 b token -> all_bytes b -> dec e b = Some t -> no_line_feed t ->
  means t u p -> from_header e (w ++ [32%N] ++ token) = Some (u, p).
Proof. exact every_case. Qed.
Print Assumptions C132_reads.

Example C132_nonvacuous : from_header latin1 (text "bAsIc bWU6cHc=") = Some (text "me", text "pw") /\
  from_header latin1 (text "Basic bWU=") = Some (text "me", []) /\ from_header latin1 (text "Bearer bWU6cHc=") = None /\
  from_header latin1 (text "Basic bWU6cHc") = None.
Proof. vm_compute. auto. Qed.

(** C133. The credentials of a url are sent: false for a url with a password only ('http://:secret@host/'), which is requested
    without credentials. *)
Theorem C133_password_refuted : exists p, p <> [] /\ http_authorization None (Some p) = NoHeader.
Proof. exact password_only. Qed.
Print Assumptions C133_password_refuted.

(** False for a user with a (quoted) ':', with which the request raises. *)
Theorem C133_colon_refuted : exists u p, u <> [] /\ http_authorization (Some u) (Some p) = Raised.
Proof. exact colon_raises. Qed.
Print Assumptions C133_colon_refuted.

(** False for every web socket: connecting to a url with credentials always raises, since the header is built with a method
    which does not exist. *)
Theorem C133_web_socket_refuted :
  (forall user password, user <> None \/ password <> None -> web_socket_authorization user password = Raised) /\
  exists u p, latin u /\ latin p /\ no_colon u /\ (forall v, web_socket_authorization (Some u) (Some p) <> Header v) /\
    (exists v, http_authorization (Some u) (Some p) = Header v).
Proof. split; [exact web_socket_raises|exact web_socket_never]. Qed.
Print Assumptions C133_web_socket_refuted.

(** A user of latin1 without ':' and line feeds is sent together with their password, in a header which is read back as these. *)
Theorem C133_http_partial : forall u p, u <> [] -> no_colon u -> no_line_feed u ->
  no_line_feed (match p with Some p => p | None => [] end) -> latin u -> latin (match p with Some p => p | None => [] end) ->
  exists h, http_authorization (Some u) p = Header h /\ header_text h /\
    from_header latin1 h = Some (u, match p with Some p => p | None => [] end).
Proof. exact http_sent. Qed.
Print Assumptions C133_http_partial.

(** Nothing else is ever sent: a header carries the user and the password of the url. *)
Theorem C133_only : forall user p v, http_authorization user p = Header v ->
  exists u, user = Some u /\ u <> [] /\ no_colon u /\ to_header latin1 (u, match p with Some p => p | None => [] end) = Some v.
Proof. exact http_only. Qed.
Print Assumptions C133_only.

(** The credentials of a url with a user are never left out: they are sent or the request fails, which happens only when the
    user has a colon or there is a character which latin-1 has not. *)
Theorem C133_not_dropped : forall u p, u <> [] ->
  (exists v, http_authorization (Some u) p = Header v) \/
  http_authorization (Some u) p = Raised /\ (~ no_colon u \/ exists c, In c (u ++ match p with Some p => p | None => [] end) /\ (255 < c)%N).
Proof. exact http_raises. Qed.
Print Assumptions C133_not_dropped.

Example C133_nonvacuous : http_authorization (Some (text "me")) None = Header (text "Basic bWU6") /\
  http_authorization None None = NoHeader /\ http_authorization (Some [8364]%N) None = Raised.
Proof. vm_compute. auto. Qed.
