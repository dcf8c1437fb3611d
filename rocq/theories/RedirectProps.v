(** C104 - C108: redirects of the http client. *)
From Coq Require Import List Bool Arith Lia.
From Verif Require Import RedirectModel RedirectSpec RedirectProofs.
Import ListNotations.

(** ** C104: how redirects are followed *)

Lemma request_bounded jar load says second m u h data auth redirects rs :
  length (fst (request jar load says second m u h data auth redirects rs)) <= Nat.max 1 redirects /\
  (Nat.max 1 redirects <= length rs -> snd (request jar load says second m u h data auth redirects rs) <> Waiting).
Proof.
  unfold request. destruct (_ && _ && _); [cbn [fst snd length]; split; [lia|discriminate]|]. apply go_bounded.
Qed.

(** No more requests than allowed are sent; a server which keeps answering does not keep the client busy forever. *)
Theorem C104_bounded : forall jar load says second m u h data auth redirects rs,
  length (fst (request jar load says second m u h data auth redirects rs)) <= Nat.max 1 redirects /\
  (Nat.max 1 redirects <= length rs -> snd (request jar load says second m u h data auth redirects rs) <> Waiting).
Proof. exact request_bounded. Qed.
Print Assumptions C104_bounded.

Lemma request_nth jar load says second m u h data auth redirects rs k q q' :
  nth_error (fst (request jar load says second m u h data auth redirects rs)) k = Some q ->
  nth_error (fst (request jar load says second m u h data auth redirects rs)) (S k) = Some q' ->
  exists r, nth_error rs k = Some r /\ In (s_status r) [301; 302; 303; 307] /\ redirects_to r (q_url q') /\
            (q_method q', q_data q') = redirected (s_status r) (q_method q) (q_data q).
Proof.
  unfold request. destruct (_ && _ && _); [destruct k; discriminate|]. apply go_next.
Qed.

(** Each further request goes where the last response pointed to, with the method and body RFC 9110 wants. *)
Theorem C104_next : forall jar load says second m u h data auth redirects rs k q q',
  nth_error (fst (request jar load says second m u h data auth redirects rs)) k = Some q ->
  nth_error (fst (request jar load says second m u h data auth redirects rs)) (S k) = Some q' ->
  exists r, nth_error rs k = Some r /\ In (s_status r) [301; 302; 303; 307] /\ redirects_to r (q_url q') /\
            (q_method q', q_data q') = redirected (s_status r) (q_method q) (q_data q).
Proof. exact request_nth. Qed.
Print Assumptions C104_next.

Lemma request_follows jar load says second m u h data auth redirects pre r post :
  Forall follows_on pre -> length pre < redirects -> ~ In (s_status r) [301; 302; 303; 307] ->
  let res := request jar load says second m u h data auth redirects (pre ++ r :: post) in
  snd res = Returned r pre \/ snd res = Conflict.
Proof. unfold request. destruct (_ && _ && _); [auto|]. intros. apply (go_follows jar load says second pre 0 m u h data _ redirects []); auto. Qed.

(** Less than [redirects] redirects are followed, and the response at their end is returned with the others as its
    history. Missing: a chain of exactly [redirects] redirects, see [C104_limit_refuted], and targets
    without a scheme, see [C104_relative_refuted]. *)
Theorem C104_follows_partial : forall jar load says second m u h data auth redirects pre r post,
  Forall follows_on pre -> length pre < redirects -> ~ In (s_status r) [301; 302; 303; 307] ->
  let res := request jar load says second m u h data auth redirects (pre ++ r :: post) in
  snd res = Returned r pre \/ snd res = Conflict.
Proof. exact request_follows. Qed.
Print Assumptions C104_follows_partial.

Lemma request_too_many jar load says second m u h data auth redirects pre post :
  Forall follows_on pre -> length pre = redirects -> 0 < redirects ->
  let res := request jar load says second m u h data auth redirects (pre ++ post) in
  snd res = TooMany \/ snd res = Conflict.
Proof. unfold request. destruct (_ && _ && _); [auto|]. intros. apply (go_too_many jar load says second pre 0 m u h data _ redirects []); auto. Qed.

(** "[redirects]: the maximal amount of allowed redirects": a chain of exactly that many redirects is not followed to
    its end; with the default 3 the third redirect is an error, with 1 no redirect is followed (http_client.py:250-254). *)
Theorem C104_limit_refuted : exists redirects pre r, length pre = redirects /\ 0 < redirects /\ Forall follows_on pre /\ s_status r = 200 /\
  forall jar load says second m u auth, snd (request jar load says second m u (fun _ => []) None auth redirects (pre ++ [r])) = TooMany.
Proof.
  exists 3, (repeat (mk_response 302 (Absolute (mk_url true 0 443 None 0))) 3), (mk_response 200 NoTarget). split; [reflexivity|]. split; [lia|].
  assert (F : Forall follows_on (repeat (mk_response 302 (Absolute (mk_url true 0 443 None 0))) 3))
    by (apply Forall_forall; intros x H; apply repeat_spec in H; subst x; split; cbn; auto).
  split; [exact F|]. split; [reflexivity|]. intros.
  destruct (request_too_many jar load says second m u (fun _ => []) None auth 3 _ [mk_response 200 NoTarget] F eq_refl ltac:(lia)) as [H|H]; [exact H|].
  exfalso. unfold request in H. rewrite andb_false_r in H. exact (go_no_conflict _ _ _ _ _ _ _ _ _ _ _ _ H).
Qed.
Print Assumptions C104_limit_refuted.

(** Any chain of that length ends so. *)
Theorem C104_too_many : forall jar load says second m u h data auth redirects pre post,
  Forall follows_on pre -> length pre = redirects -> 0 < redirects ->
  let res := request jar load says second m u h data auth redirects (pre ++ post) in
  snd res = TooMany \/ snd res = Conflict.
Proof. exact request_too_many. Qed.
Print Assumptions C104_too_many.

Lemma request_returned jar load says second m u h data auth redirects rs r hist :
  snd (request jar load says second m u h data auth redirects rs) = Returned r hist ->
  let n := length (fst (request jar load says second m u h data auth redirects rs)) in
  nth_error rs (n - 1) = Some r /\ (hist = firstn (n - 1) rs \/ s_target r = NoTarget /\ hist = firstn n rs).
Proof.
  unfold request. destruct (_ && _ && _); [discriminate|]. intros E. exact (go_returned jar load says second rs _ _ _ _ _ _ _ [] _ _ E).
Qed.

(** What is returned is the answer to the last request; its history are the answers to the earlier ones (and, if it is a
    redirect without a place to go, itself). *)
Theorem C104_returned : forall jar load says second m u h data auth redirects rs r hist,
  snd (request jar load says second m u h data auth redirects rs) = Returned r hist ->
  let n := length (fst (request jar load says second m u h data auth redirects rs)) in
  nth_error rs (n - 1) = Some r /\ (hist = firstn (n - 1) rs \/ s_target r = NoTarget /\ hist = firstn n rs).
Proof. exact request_returned. Qed.
Print Assumptions C104_returned.

(** RFC 9110, 15.4.9: 308 is a redirect as 307 is. It is not followed, whatever the limit: the response is returned
    (http_client.py:249, 511). *)
Theorem C104_308_refuted : forall jar load says second m u auth redirects v rs,
  snd (request jar load says second m u (fun _ => []) None auth redirects (mk_response 308 (Absolute v) :: rs))
  = Returned (mk_response 308 (Absolute v)) [].
Proof.
  intros. unfold request. rewrite andb_false_r. cbn [go].
  destruct (build _ _ _ _ _ _ _) as [[h c]|] eqn:E; [reflexivity|]. discriminate E.
Qed.
Print Assumptions C104_308_refuted.

(** RFC 9110, 10.2.2: a Location can be a relative reference, as '/login'. It is refused as a foreign scheme
    (http_client.py:277, 540), whatever the limit but 1 (and 0). *)
Theorem C104_relative_refuted : forall jar load says second m u auth redirects n rs,
  snd (request jar load says second m u (fun _ => []) None auth (S (S redirects)) (mk_response 302 (Relative n) :: rs)) = BadScheme.
Proof.
  intros. unfold request. rewrite andb_false_r. cbn [go].
  destruct (build _ _ _ _ _ _ _) as [[h c]|] eqn:E; [reflexivity|]. discriminate E.
Qed.
Print Assumptions C104_relative_refuted.

(** "The history are the earlier responses": a redirect which names no place to go is returned with itself in its history
    (http_client.py:251, 268-270). *)
Theorem C104_history_refuted : forall jar load says second m u auth redirects rs,
  snd (request jar load says second m u (fun _ => []) None auth (S (S redirects)) (mk_response 302 NoTarget :: rs))
  = Returned (mk_response 302 NoTarget) [mk_response 302 NoTarget].
Proof.
  intros. unfold request. rewrite andb_false_r. cbn [go].
  destruct (build _ _ _ _ _ _ _) as [[h c]|] eqn:E; [reflexivity|]. discriminate E.
Qed.
Print Assumptions C104_history_refuted.

(** A small world for the examples: hosts 0 and 1, the jar has the cookie (7, 8) for host 0 and (9, 9) for host 1. *)
Definition ex_url (host rest : nat) : url := mk_url true host 443 None rest.
Definition ex_jar (i : nat) (u : url) : list (nat * nat) := if u_host u =? 0 then [(7, 8)] else if u_host u =? 1 then [(9, 9)] else [].
Definition ex_load (n : nat) : list (nat * nat) := [].
Definition ex_says (n : nat) : bool := n =? 5.
Definition ex_request := request ex_jar ex_load ex_says.
Definition ex_empty : hdrs := fun _ => [].
Definition ex_header (k : hname) (l : list value) : hdrs := fun k' => if hname_dec k' k then l else [].

Example C104_nonvacuous :
  let res := ex_request true MPost (ex_url 0 0) ex_empty (Some (mk_payload (Some 4) 1 [])) None 3
               [mk_response 302 (Absolute (ex_url 0 5)); mk_response 307 (Absolute (ex_url 1 6)); mk_response 200 NoTarget] in
  map q_url (fst res) = [ex_url 0 0; ex_url 0 5; ex_url 1 6] /\ map q_method (fst res) = [MPost; MGet; MGet] /\
  map (fun q => q_headers q HLength) (fst res) = [[Size 4]; []; []] /\
  snd res = Returned (mk_response 200 NoTarget) [mk_response 302 (Absolute (ex_url 0 5)); mk_response 307 (Absolute (ex_url 1 6))].
Proof. vm_compute. tauto. Qed.

(** ** C105: credentials *)

(** [_request]: without credentials in urls, and with at most one Authorization header given, that header goes to the
    origin of the first url only, and to it until the first redirect to another origin. Missing: credentials in urls and
    several headers, see [C105_request_refuted]; [_request2], see [C105_request2_refuted]. *)
Theorem C105_confined_partial : forall jar load says m u h data auth redirects rs pre q post,
  length (h HAuthorization) <= 1 ->
  fst (request jar load says false m u h data auth redirects rs) = pre ++ q :: post ->
  (forall q', In q' (pre ++ q :: post) -> u_user (q_url q') = None) ->
  (stayed (origin u) pre (q_url q) -> q_headers q HAuthorization = h HAuthorization) /\
  (~ stayed (origin u) pre (q_url q) -> q_headers q HAuthorization = []).
Proof. exact auth_confined. Qed.
Print Assumptions C105_confined_partial.

(** Credentials arrive: those of the parameter of [_request2], otherwise those of the url a request goes to. *)
Theorem C105_sent : forall jar load says second m u h data auth redirects rs pre q post,
  fst (request jar load says second m u h data auth redirects rs) = pre ++ q :: post ->
  forall c, (second = true /\ auth = Some c \/ (second = false \/ auth = None) /\ u_user (q_url q) = Some c) -> In (Basic c) (q_headers q HAuthorization).
Proof. exact auth_sent. Qed.
Print Assumptions C105_sent.

(** [_request2] sends the Authorization header, and the credentials of its parameter, to any place it is redirected to:
    it lacks the deletion [_request] has (http_client.py:289-293 against 551). *)
Theorem C105_request2_refuted :
  (exists q, nth_error (fst (ex_request true MGet (ex_url 0 0) (ex_header HAuthorization [Given 1]) None None 3 [mk_response 302 (Absolute (ex_url 1 0))])) 1 = Some q /\
     origin (q_url q) <> origin (ex_url 0 0) /\ q_headers q HAuthorization = [Given 1]) /\
  (exists q, nth_error (fst (ex_request true MGet (ex_url 0 0) ex_empty None (Some 2) 3 [mk_response 302 (Absolute (ex_url 1 0))])) 1 = Some q /\
     origin (q_url q) <> origin (ex_url 0 0) /\ q_headers q HAuthorization = [Basic 2]).
Proof. split; eexists; (split; [reflexivity|]); split; try discriminate; reflexivity. Qed.
Print Assumptions C105_request2_refuted.

(** [_request] deletes one of the values only: with an Authorization header and credentials in the url there are two, and
    the second goes to the other origin. *)
Theorem C105_request_refuted :
  exists q, nth_error (fst (ex_request false MGet (mk_url true 0 443 (Some 4) 0) (ex_header HAuthorization [Given 1]) None None 3
                              [mk_response 302 (Absolute (ex_url 1 0))])) 1 = Some q /\
     origin (q_url q) <> origin (ex_url 0 0) /\ q_headers q HAuthorization = [Basic 4].
Proof. eexists; (split; [reflexivity|]); split; try discriminate; reflexivity. Qed.
Print Assumptions C105_request_refuted.

Example C105_nonvacuous :
  let res := ex_request false MGet (ex_url 0 0) (ex_header HAuthorization [Given 1]) None None 5
     [mk_response 302 (Absolute (ex_url 0 5)); mk_response 302 (Absolute (ex_url 1 0)); mk_response 302 (Absolute (ex_url 0 0)); mk_response 200 NoTarget] in
  map (fun q => q_headers q HAuthorization) (fst res) = [[Given 1]; [Given 1]; []; []].
Proof. vm_compute. reflexivity. Qed.

(** ** C106: the Host header *)

(** Every request carries one Host header: the one given, otherwise the host and port of the first url. So it is right
    for the first request, and as long as redirects stay on the host. *)
Theorem C106_host_partial : forall jar load says second m u h data auth redirects rs pre q post,
  fst (request jar load says second m u h data auth redirects rs) = pre ++ q :: post ->
  match h HHost with [] => exists v, q_headers q HHost = [v] /\ names_host u v | l => q_headers q HHost = l end.
Proof. exact host_named. Qed.
Print Assumptions C106_host_partial.

(** "The Host header names the host the request is sent to": after a redirect to another host it still names the first
    one, since the header dictionary of the first request is used again (client_request.py:183, http_client.py:222-235). *)
Theorem C106_host_refuted : forall second,
  exists q, nth_error (fst (ex_request second MGet (ex_url 0 0) ex_empty None None 3 [mk_response 302 (Absolute (ex_url 1 0))])) 1 = Some q /\
     u_host (q_url q) = 1 /\ q_headers q HHost = [HostPort 0 None].
Proof. intros [|]; eexists; (split; [reflexivity|]); split; reflexivity. Qed.
Print Assumptions C106_host_refuted.

Example C106_nonvacuous :
  map (fun q => q_headers q HHost) (fst (ex_request true MGet (mk_url true 0 444 None 0) ex_empty None None 3 [mk_response 303 (Absolute (mk_url true 0 444 None 5))]))
  = [[HostPort 0 (Some 444)]; [HostPort 0 (Some 444)]].
Proof. vm_compute. reflexivity. Qed.

(** ** C107: cookies *)

(** The cookies the jar has for an url are sent to it; all cookies which are sent come from the given header or from the
    jar, for this or an earlier url. Missing: only for this url, see [C107_leak_refuted]. *)
Theorem C107_cookies_partial : forall jar load says second m u h data auth redirects rs pre q post,
  length (h HCookie) <= 1 ->
  fst (request jar load says second m u h data auth redirects rs) = pre ++ q :: post ->
  length (q_headers q HCookie) <= 1 /\
  (NoDup (map fst (jar (length pre) (q_url q))) -> forall x, In x (jar (length pre) (q_url q)) -> In x (cookies_of load (q_headers q))) /\
  (forall x, In x (cookies_of load (q_headers q)) -> In x (cookies_of load h) \/
     exists j q', nth_error (pre ++ [q]) j = Some q' /\ In x (jar j (q_url q'))).
Proof. exact cookies_followed. Qed.
Print Assumptions C107_cookies_partial.

(** The cookies of a given header are sent with every request, unless the jar has one of the same name for one of the
    urls so far. *)
Theorem C107_given : forall jar load says second m u h data auth redirects rs pre q post x,
  length (h HCookie) <= 1 ->
  fst (request jar load says second m u h data auth redirects rs) = pre ++ q :: post ->
  In x (cookies_of load h) ->
  (forall j q', nth_error (pre ++ [q]) j = Some q' -> ~ In (fst x) (map fst (jar j (q_url q')))) ->
  In x (cookies_of load (q_headers q)).
Proof. exact given_cookies_sent. Qed.
Print Assumptions C107_given.

(** "A cookie is sent only to urls it is for": after a redirect the cookies of the first host are sent to the second
    one, with its own cookies or without (client_request.py:193-212 with the dictionary of the first request). *)
Theorem C107_leak_refuted : forall second,
  (exists q, nth_error (fst (ex_request second MGet (ex_url 0 0) ex_empty None None 3 [mk_response 302 (Absolute (ex_url 1 0))])) 1 = Some q /\
     q_headers q HCookie = [Cookies [(7, 8); (9, 9)]] /\ ~ In (7, 8) (ex_jar 1 (q_url q))) /\
  (exists q, nth_error (fst (ex_request second MGet (ex_url 0 0) ex_empty None None 3 [mk_response 302 (Absolute (ex_url 2 0))])) 1 = Some q /\
     q_headers q HCookie = [Cookies [(7, 8)]] /\ ex_jar 1 (q_url q) = []).
Proof.
  intros [|]; (split; eexists; (split; [reflexivity|]); split; [reflexivity| |reflexivity|]); try reflexivity;
  cbn; intuition discriminate.
Qed.
Print Assumptions C107_leak_refuted.

Example C107_nonvacuous :
  map (fun q => q_headers q HCookie) (fst (ex_request true MGet (ex_url 0 0) ex_empty None None 3 [mk_response 303 (Absolute (ex_url 0 5))]))
  = [[Cookies [(7, 8)]]; [Cookies [(7, 8)]]].
Proof. vm_compute. reflexivity. Qed.

(** ** C108: the body *)

(** A body is sent either chunked, then the header says so and there is no Content-Length, or with a Content-Length,
    which is the size of this body unless it was given. Nothing is sent chunked without a body. *)
Theorem C108_framed : forall jar load says second m u h data auth redirects rs pre q post,
  fst (request jar load says second m u h data auth redirects rs) = pre ++ q :: post ->
  match q_data q with
  | None => q_chunked q = false
  | Some p =>
      (q_chunked q = true -> q_headers q HLength = [] /\ In Chunked (q_headers q HTransfer)) /\
      (q_chunked q = false -> q_headers q HLength <> [] /\
         (h HLength = [] -> exists n, p_size p = Some n /\ q_headers q HLength = [Size n]))
  end.
Proof. exact body_framed. Qed.
Print Assumptions C108_framed.

(** The header says 'chunked' exactly if chunks are sent. Missing: another Transfer-Encoding is given, see
    [C108_transfer_refuted]. *)
Theorem C108_announced_partial : forall jar load says second m u h data auth redirects rs pre q post,
  h HTransfer = [] \/ h HTransfer = [Chunked] ->
  fst (request jar load says second m u h data auth redirects rs) = pre ++ q :: post ->
  (q_chunked q = true <-> In Chunked (q_headers q HTransfer)).
Proof. exact chunks_announced. Qed.
Print Assumptions C108_announced_partial.

(** A request without a body has none of the headers which describe one; also when it is a redirected request which had
    a body. Missing: several values of a header, or another Transfer-Encoding than 'chunked', are given. *)
Theorem C108_no_body_partial : forall jar load says second m u h data auth redirects rs pre q post,
  length (h HEncoding) <= 1 -> length (h HLength) <= 1 -> length (h HType) <= 1 -> h HTransfer = [] \/ h HTransfer = [Chunked] ->
  fst (request jar load says second m u h data auth redirects rs) = pre ++ q :: post -> q_data q = None ->
  q_headers q HEncoding = [] /\ q_headers q HLength = [] /\ q_headers q HType = [] /\ q_headers q HTransfer = [].
Proof. exact no_body_no_headers. Qed.
Print Assumptions C108_no_body_partial.

(** With a Transfer-Encoding given as another text which contains 'chunked' ("gzip, chunked", "Chunked"), the body is sent
    with two such headers, since an assignment adds a value; and after a redirect which drops the body, the GET request
    announces a chunked body which never comes (client_request.py:223-227 and 271). *)
Theorem C108_transfer_refuted : forall second,
  let res := ex_request second MPost (ex_url 0 0) (ex_header HTransfer [Given 5]) (Some (mk_payload (Some 4) 1 [])) None 3
               [mk_response 303 (Absolute (ex_url 0 5)); mk_response 200 NoTarget] in
  exists q0 q1, fst res = [q0; q1] /\ q_headers q0 HTransfer = [Given 5; Chunked] /\
    q_method q1 = MGet /\ q_data q1 = None /\ q_headers q1 HTransfer = [Chunked].
Proof. intros [|]; cbv zeta; do 2 eexists; (split; [reflexivity|]); repeat split; reflexivity. Qed.
Print Assumptions C108_transfer_refuted.

Example C108_nonvacuous :
  let res := ex_request true (MOther 1) (ex_url 0 0) ex_empty (Some (mk_payload None 1 [])) None 3
               [mk_response 307 (Absolute (ex_url 0 5)); mk_response 303 (Absolute (ex_url 0 6)); mk_response 200 NoTarget] in
  map (fun q => q_headers q HTransfer) (fst res) = [[Chunked]; [Chunked]; []] /\ map q_chunked (fst res) = [true; true; false].
Proof. vm_compute. tauto. Qed.
