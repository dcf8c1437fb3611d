(** C123-C130: the opening handshake of web sockets. *)

From Coq Require Import List Arith Bool NArith String Permutation.
From Verif Require Import Bytes Text HeadSpec ExtModel ExtSpec HandshakeModel HandshakeSpec HandshakeProofs.
Import ListNotations.

(** C123. The server opens a connection only for a request to open a web socket: false, [Upgrade: h2c] is as good. The test
    is [len(upgrade) != 1 and ...], so a single protocol is never looked at. *)
Theorem C123_upgrade_refuted : forall b64encode b64decode sha1 ext_name ext_valid iter k, good_key b64decode k ->
  exists c q exts sub resp,
    serve b64encode b64decode sha1 ext_name ext_valid iter c (inl q) = Opened exts sub resp /\
    forall vs names, vals Upgrade (q_headers q) vs -> listed protocol vs names -> ~ names_websocket names.
Proof. intros. eapply h2c_opened. eassumption. Qed.
Print Assumptions C123_upgrade_refuted.

(** The method and the version of the request are not looked at: a POST of HTTP/1.0 opens a web socket (RFC 6455, 4.2.1
    requires a GET of HTTP/1.1 or higher). *)
Theorem C123_method_refuted : forall b64encode b64decode sha1 ext_name ext_valid iter k, good_key b64decode k ->
  exists c q exts sub resp,
    q_method q = text "POST" /\ q_minor q = 0%N /\
    serve b64encode b64decode sha1 ext_name ext_valid iter c (inl q) = Opened exts sub resp.
Proof. intros. eapply post_opened. eassumption. Qed.
Print Assumptions C123_method_refuted.

(** What an opened request has: everything but a proper Upgrade header. *)
Theorem C123_accepts_partial : forall b64encode b64decode sha1 ext_name ext_valid iter c q exts sub resp,
  serve b64encode b64decode sha1 ext_name ext_valid iter c (inl q) = Opened exts sub resp ->
  plain_config c q /\
  (exists vs names, vals Connection (q_headers q) vs /\ listed token vs names /\ wants_upgrade names) /\
  (exists vs names, vals Upgrade (q_headers q) vs /\ listed protocol vs names /\ names <> [] /\
    (List.length names <> 1 -> exists v r, names = v :: r /\ ignoring_case v (text "websocket"))) /\
  (exists k, vals Key (q_headers q) [k] /\ good_key b64decode k /\ In (Accept, b64encode (sha1 (k ++ guid))) resp) /\
  vals Version (q_headers q) [text "13"].
Proof. exact accepts. Qed.
Print Assumptions C123_accepts_partial.

(** Every proper request is opened, if no extensions are involved. *)
Theorem C123_complete : forall b64encode b64decode sha1 ext_name ext_valid iter c q k,
  plain_config c q -> no_extensions c (q_headers q) -> subs_listed c (q_headers q) -> opening b64decode (q_headers q) k ->
  exists sub resp, serve b64encode b64decode sha1 ext_name ext_valid iter c (inl q) = Opened [] sub resp.
Proof. exact complete. Qed.
Print Assumptions C123_complete.

(** C124. A client which does not ask for the upgrade is told so (426): false, without an Upgrade header it is told that the
    server failed (500). *)
Theorem C124_missing_refuted : forall b64encode b64decode sha1 ext_name ext_valid iter (k : str),
  exists c q, plain_config c q /\ vals Upgrade (q_headers q) [] /\
    vals Connection (q_headers q) [text "Upgrade"] /\ vals Key (q_headers q) [k] /\ vals Version (q_headers q) [text "13"] /\
    serve b64encode b64decode sha1 ext_name ext_valid iter c (inl q) = Refused 500.
Proof. exact no_upgrade_500. Qed.
Print Assumptions C124_missing_refuted.

(** Nor is a malformed header the fault of the client (400): the ValueError of the parsers is an internal error (500). *)
Theorem C124_malformed_refuted : forall b64encode b64decode sha1 ext_name ext_valid iter (k : str),
  exists c q vs, plain_config c q /\ vals Upgrade (q_headers q) [text "websocket"] /\
    vals Key (q_headers q) [k] /\ vals Version (q_headers q) [text "13"] /\
    vals Connection (q_headers q) vs /\ (forall names, ~ listed token vs names) /\
    serve b64encode b64decode sha1 ext_name ext_valid iter c (inl q) = Refused 500.
Proof. exact malformed_500. Qed.
Print Assumptions C124_malformed_refuted.

(** Nor is a key with octets which are not utf-8 (they are escaped as surrogates): encoding it again fails, which is an internal
    error (500). *)
Theorem C124_key_refuted : forall b64encode b64decode sha1 ext_name ext_valid iter, exists c q k, plain_config c q /\
  vals Connection (q_headers q) [text "Upgrade"] /\ vals Upgrade (q_headers q) [text "websocket"] /\ vals Version (q_headers q) [text "13"] /\
  vals Key (q_headers q) [k] /\ ~ good_key b64decode k /\ serve b64encode b64decode sha1 ext_name ext_valid iter c (inl q) = Refused 500.
Proof. exact surrogate_500. Qed.
Print Assumptions C124_key_refuted.

(** With well formed lists and at least one protocol in them the answer is exactly one of three. *)
Theorem C124_status_partial : forall b64encode b64decode sha1 ext_name ext_valid iter c q cvs cn uvs un ks vns,
  plain_config c q -> no_extensions c (q_headers q) -> subs_listed c (q_headers q) ->
  vals Connection (q_headers q) cvs -> listed token cvs cn ->
  vals Upgrade (q_headers q) uvs -> listed protocol uvs un -> un <> [] ->
  vals Key (q_headers q) ks -> Forall no_surrogate ks -> vals Version (q_headers q) vns ->
  let first_ok := List.length un <> 1 -> exists v r, un = v :: r /\ ignoring_case v (text "websocket") in
  let key_ok := exists k, ks = [k] /\ good_key b64decode k in
  let run := serve b64encode b64decode sha1 ext_name ext_valid iter c (inl q) in
  (~ (wants_upgrade cn /\ first_ok) -> run = Refused 426) /\
  (wants_upgrade cn -> first_ok -> ~ (key_ok /\ vns = [text "13"]) -> run = Refused 400) /\
  (wants_upgrade cn -> first_ok -> key_ok -> vns = [text "13"] -> exists sub resp, run = Opened [] sub resp).
Proof. exact statuses. Qed.
Print Assumptions C124_status_partial.

(** C125. A server which is given its allowed origins refuses the others: false. The protocol sets [self.origin] to [None]
    after it has set it from the parameters (and where it is compared, the code is [origin in origin]). *)
Theorem C125_origin_refuted : forall b64encode b64decode sha1 ext_name ext_valid iter k, good_key b64decode k ->
  exists c q exts sub resp,
    c_origin c = Some [text "https://example.com"] /\ vals Origin (q_headers q) [text "https://evil.example"] /\
    serve b64encode b64decode sha1 ext_name ext_valid iter c (inl q) = Opened exts sub resp.
Proof. intros. eapply evil_origin. eassumption. Qed.
Print Assumptions C125_origin_refuted.

(** Neither the allowed origins nor the Origin header have any influence. *)
Theorem C125_ignored : forall b64encode b64decode sha1 ext_name ext_valid iter c c' q q',
  c_early c = None -> c' = Config (c_serving c) None (c_origin c') (c_exts c) (c_subs c) (c_select c) (c_extra c) ->
  (forall n l, n <> Origin -> vals n (q_headers q) l <-> vals n (q_headers q') l) ->
  serve b64encode b64decode sha1 ext_name ext_valid iter c (inl q) =
  serve b64encode b64decode sha1 ext_name ext_valid iter c' (inl q').
Proof. exact any_origin. Qed.
Print Assumptions C125_ignored.

(** C126. An extension which both sides know is agreed on: false, the server answers with an internal error, because
    [build_extensions] is given tuples instead of extensions. The client is this library's own. *)
Theorem C126_negotiated_refuted : forall b64encode b64decode sha1 ext_name ext_params ext_valid iter raw e,
  token_extension (ext_name e, ext_params e) -> ext_valid e (ext_params e) [] = true ->
  List.length raw = 16 -> b64decode (b64encode raw) = Some raw -> no_surrogate (b64encode raw) ->
  exists c q, c_serving c = true /\ c_exts c = Some [e] /\
    q_headers q = client_request b64encode ext_name ext_params raw None (Some [e]) None [] /\
    serve b64encode b64decode sha1 ext_name ext_valid iter c (inl q) = Refused 500.
Proof. intros. eapply extension_500; eassumption. Qed.
Print Assumptions C126_negotiated_refuted.

(** An extension which the server does not know is declined (RFC 6455, 9.1; the comment in the code says so too): false, the
    whole handshake is refused. *)
Theorem C126_declined_refuted : forall b64encode b64decode sha1 ext_name ext_params ext_valid iter raw e,
  token_extension (ext_name e, ext_params e) ->
  List.length raw = 16 -> b64decode (b64encode raw) = Some raw -> no_surrogate (b64encode raw) ->
  exists c q, c_serving c = true /\ c_exts c = Some [] /\
    q_headers q = client_request b64encode ext_name ext_params raw None (Some [e]) None [] /\
    serve b64encode b64decode sha1 ext_name ext_valid iter c (inl q) = Refused 400.
Proof. intros. eapply unknown_400; eassumption. Qed.
Print Assumptions C126_declined_refuted.

(** So no opened connection of a server has an extension, and no response names one of its own accord. *)
Theorem C126_never : forall b64encode b64decode sha1 ext_name ext_valid iter c q exts sub resp,
  serve b64encode b64decode sha1 ext_name ext_valid iter c (inl q) = Opened exts sub resp ->
  exts = [] /\ forall v, In (Extensions, v) resp -> In (Extensions, v) (c_extra c).
Proof. exact never_negotiated. Qed.
Print Assumptions C126_never.

(** C127. The selected sub-protocol is offered by the client, supported by the server, and the sum of its positions in both
    lists is the least; the response names it. *)
Theorem C127_selected : forall b64encode b64decode sha1 ext_name ext_valid iter, (forall l, Permutation (iter l) l) ->
  forall c q exts s resp, c_select c = None ->
  serve b64encode b64decode sha1 ext_name ext_valid iter c (inl q) = Opened exts (Some s) resp ->
  exists available vs offered, c_subs c = Some available /\ vals Protocol (q_headers q) vs /\ listed token vs offered /\
    In s offered /\ In s available /\ In (Protocol, s) resp /\
    forall s' i j i' j', first_at s offered i -> first_at s available j -> first_at s' offered i' -> first_at s' available j' ->
      i + j <= i' + j'.
Proof. exact selected. Qed.
Print Assumptions C127_selected.

(** None is selected only if there is no common one. *)
Theorem C127_none : forall b64encode b64decode sha1 ext_name ext_valid iter, (forall l, Permutation (iter l) l) ->
  forall c q exts resp available vs offered, c_select c = None ->
  serve b64encode b64decode sha1 ext_name ext_valid iter c (inl q) = Opened exts None resp ->
  c_subs c = Some available -> vals Protocol (q_headers q) vs -> listed token vs offered ->
  forall s, In s offered -> ~ In s available.
Proof. exact selected_none. Qed.
Print Assumptions C127_none.

(** A selection which is given decides, with the names offered and the names available. *)
Theorem C127_selector : forall b64encode b64decode sha1 ext_name ext_valid iter c q exts sub resp available vs offered select,
  c_select c = Some select -> serve b64encode b64decode sha1 ext_name ext_valid iter c (inl q) = Opened exts sub resp ->
  c_subs c = Some available -> vals Protocol (q_headers q) vs -> vs <> [] -> listed token vs offered -> sub = select offered available.
Proof. exact selector. Qed.
Print Assumptions C127_selector.

(** The selection is determined by the two lists: false, among equally good ones the order decides in which python iterates a
    set of strings, and that differs from process to process. *)
Theorem C127_determined_refuted : forall b64encode b64decode sha1 ext_name ext_valid k, good_key b64decode k ->
  exists c q iter1 iter2 s1 s2 r1 r2,
    c_select c = None /\ (forall l, Permutation (iter1 l) l) /\ (forall l, Permutation (iter2 l) l) /\ s1 <> s2 /\
    serve b64encode b64decode sha1 ext_name ext_valid iter1 c (inl q) = Opened [] s1 r1 /\
    serve b64encode b64decode sha1 ext_name ext_valid iter2 c (inl q) = Opened [] s2 r2.
Proof. exact ties. Qed.
Print Assumptions C127_determined_refuted.

(** C128. A server which is shutting down says so (503): false. The arguments of [AbortHandshake] are exchanged, and the
    handler of the exception raises an AttributeError; nothing is sent. *)
Theorem C128_shutdown_refuted : forall b64encode b64decode sha1 ext_name ext_valid iter q,
  exists c, c_serving c = false /\ serve b64encode b64decode sha1 ext_name ext_valid iter c (inl q) = Escaped.
Proof. exact shutdown_escapes. Qed.
Print Assumptions C128_shutdown_refuted.

(** The response of the request processor is sent: false, a text is joined with bytes, and nothing is sent. *)
Theorem C128_early_refuted : forall b64encode b64decode sha1 ext_name ext_valid iter q,
  exists c f, c_serving c = true /\ c_early c = Some f /\ f q = Some (Abort (PStr (text "Not for you.")) (PStatus 403)) /\
    serve b64encode b64decode sha1 ext_name ext_valid iter c (inl q) = Escaped.
Proof. exact early_escapes. Qed.
Print Assumptions C128_early_refuted.

(** Whatever the request processor returns, no whole response is ever sent; but the connection is never opened either. *)
Theorem C128_never_complete : forall b64encode b64decode sha1 ext_name ext_valid iter c q a,
  c_serving c = false \/ (exists f, c_early c = Some f /\ f q = Some a) ->
  (forall st, serve b64encode b64decode sha1 ext_name ext_valid iter c (inl q) <> Refused st) /\
  (forall x s r, serve b64encode b64decode sha1 ext_name ext_valid iter c (inl q) <> Opened x s r).
Proof. exact never_complete. Qed.
Print Assumptions C128_never_complete.

(** C129. The client connects only if the server has switched to the web socket protocol: false, [Upgrade: h2c] is accepted. *)
Theorem C129_upgrade_refuted : forall b64encode sha1 ext_name ext_valid raw,
  exists h, (forall vs names, vals Upgrade h vs -> listed protocol vs names -> ~ names_websocket names) /\
    check_response b64encode sha1 ext_name ext_valid raw None None 1 101 h = Connected [] None.
Proof. intros. apply (client_h2c b64encode (fun _ => None)). Qed.
Print Assumptions C129_upgrade_refuted.

(** A response which is not good is reported as [InvalidHandshake]: false, without an Upgrade header it is an IndexError. *)
Theorem C129_error_refuted : forall b64encode sha1 ext_name ext_valid raw,
  exists h, vals Upgrade h [] /\ check_response b64encode sha1 ext_name ext_valid raw None None 1 101 h = Failed.
Proof. exact client_failed. Qed.
Print Assumptions C129_error_refuted.

(** What an accepted response has: everything but a proper Upgrade header. In particular its key is the one which belongs to
    the key of the request, and it names no extension and no sub-protocol which the client does not have. *)
Theorem C129_accepts_partial : forall b64encode sha1 ext_name ext_valid raw exts subs minor status h accepted sub,
  check_response b64encode sha1 ext_name ext_valid raw exts subs minor status h = Connected accepted sub ->
  minor = 1%N /\ status = 101%N /\
  (exists vs names, vals Connection h vs /\ listed token vs names /\ wants_upgrade names) /\
  (exists vs names, vals Upgrade h vs /\ listed protocol vs names /\ names <> [] /\
    (List.length names <> 1 -> exists v r, names = v :: r /\ ignoring_case v (text "websocket"))) /\
  vals Accept h [b64encode (sha1 (b64encode raw ++ guid))] /\
  (accepted = [] \/ exists available, exts = Some available /\ forall e, In e accepted -> In e available) /\
  (exts = None -> vals Extensions h []) /\
  match sub with
  | None => vals Protocol h []
  | Some s => exists available vs, subs = Some available /\ In s available /\ vals Protocol h vs /\ listed token vs [s]
  end.
Proof. exact client_accepts. Qed.
Print Assumptions C129_accepts_partial.

(** C130. A client and a server of this library, which do not both have extensions, connect and agree on the sub-protocol. *)
Theorem C130_connect : forall b64encode b64decode sha1 ext_name ext_params ext_valid iter, (forall l, Permutation (iter l) l) ->
  forall c raw origin exts subs more,
  others (c_extra c) -> others more ->
  c_serving c = true -> c_early c = None -> c_select c = None -> (c_exts c = None \/ exts = None) ->
  List.length raw = 16 -> b64decode (b64encode raw) = Some raw -> no_surrogate (b64encode raw) ->
  match subs with Some l => Forall token l | None => True end ->
  exists sub resp,
    serve b64encode b64decode sha1 ext_name ext_valid iter c
      (inl (Request (text "GET") 1 (client_request b64encode ext_name ext_params raw origin exts subs more))) = Opened [] sub resp /\
    check_response b64encode sha1 ext_name ext_valid raw exts subs 1 101 resp = Connected [] sub.
Proof. intros. eapply interop with (extra_ok := c_extra c); try eassumption. reflexivity. Qed.
Print Assumptions C130_connect.

(** A concrete run: texts are their own base64, the digest is the text. *)
Definition toy_key : str := text "0123456789abcdef".
Definition toy_config : config :=
  Config true None None None (Some [text "chat"; text "superchat"]) None [(Other (text "x-server"), text "a")].
Definition toy_request : headers := client_request (fun x => x) (fun _ => []) (fun _ => []) toy_key None None (Some [text "mail"; text "superchat"; text "chat"]) [].

Example C123_nonvacuous : opening Some toy_request toy_key /\
  serve (fun x => x) Some (fun x => x) (fun _ => []) (fun _ _ _ => true) (fun l => l) plain (inl (Request (text "GET") 1 (ask [text "h2c"] toy_key []))) =
  Opened [] None [(Upgrade, text "websocket"); (Connection, text "Upgrade"); (Accept, toy_key ++ guid)].
Proof.
  split; [|vm_compute; reflexivity].
  assert (T : forall h n, vals n h (values h n)) by (intros; apply vals_values).
  assert (K : good_key Some toy_key).
  { split; [apply surrogate_iff; vm_compute; reflexivity|]. exists toy_key. split; reflexivity. }
  constructor.
  - apply check_connection_none. vm_compute. reflexivity.
  - exists (values toy_request Upgrade), (text "websocket"). split; [apply T|]. split.
    + apply (collect_listed _ _ ups_iff). vm_compute. reflexivity.
    + apply websocket_iff. vm_compute. reflexivity.
  - split; [|exact K]. exact (T toy_request Key).
  - exact (T toy_request Version).
Qed.
Example C127_nonvacuous :
  serve (fun x => x) Some (fun x => x) (fun _ => []) (fun _ _ _ => true) (fun l => l) toy_config (inl (Request (text "GET") 1 toy_request)) =
  Opened [] (Some (text "superchat"))
    [(Upgrade, text "websocket"); (Connection, text "Upgrade"); (Accept, toy_key ++ guid); (Protocol, text "superchat"); (Other (text "x-server"), text "a")].
Proof. vm_compute. reflexivity. Qed.
Example C130_nonvacuous : exists resp,
  serve (fun x => x) Some (fun x => x) (fun _ => []) (fun _ _ _ => true) (fun l => l) toy_config (inl (Request (text "GET") 1 toy_request)) =
  Opened [] (Some (text "superchat")) resp /\
  check_response (fun x => x) (fun x => x) (fun _ => []) (fun _ _ _ => true) toy_key None (Some [text "mail"; text "superchat"; text "chat"]) 1 101 resp =
  Connected [] (Some (text "superchat")) /\
  (* an other key is not accepted *)
  check_response (fun x => x) (fun x => x) (fun _ => []) (fun _ _ _ => true) (text "1123456789abcdef") None (Some [text "mail"; text "superchat"; text "chat"]) 1 101 resp = Invalid.
Proof. eexists. split; [vm_compute; reflexivity|]. split; vm_compute; reflexivity. Qed.
