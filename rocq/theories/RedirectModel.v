(** Model of how the http client sends a request and follows redirects: [HTTPClient._request] and
    [HTTPClient._request2] (/repo/scarletio/http_client/http_client.py:141-303 and 306-558), with the headers made by
    [ClientRequest.__new__] (/repo/scarletio/http_client/client_request.py:144-295) and the few dictionary methods they
    use (/repo/scarletio/utils/multi_value_dictionary.py, through ignore_case_multi_value_dictionary.py).

    One and the same header dictionary is given to each of the requests, and [ClientRequest.__new__] changes it. It is
    modelled as a function from names to the values the name has; the order of different names is left out. The values
    made by the code are kept as what they are made of: the rendering of cookies, sizes and credentials is not modelled
    here. An url is its scheme, host, port and credentials (and a number for the rest); [jar]
    (CookieJar.filter_cookies for the n-th request, see CookieModel.v), [load] (SimpleCookie.load) and [says_chunked]
    ("chunked" in the casefolded text) are any functions. A payload is its size, type and extra headers.

    Not modelled: the method CONNECT (proxies), compression, the connection, what is done with the response but its
    status and target; negative numbers of redirects; dots at the end of a host name; targets with a scheme but no host.

    [URL.scheme] of a target without a scheme is None (url.py:719-727), not '', so http_client.py:277 and 540 refuse it: the
    lines which would join it to the url (286-287, 548-549) are never reached. *)
From Coq Require Import List Bool Arith.
Import ListNotations.

Inductive hname := HAuthorization | HHost | HCookie | HLength | HType | HEncoding | HTransfer | HAccept | HAcceptEncoding | HOther (n : nat).
Definition hname_dec (a b : hname) : {a = b} + {a <> b}.
Proof. decide equality. apply Nat.eq_dec. Defined.

Inductive value :=
  | Given (n : nat)                          (* a text of the caller *)
  | Basic (c : nat)                          (* BasicAuthorization(...).to_header() *)
  | HostPort (host : nat) (port : option nat)
  | Cookies (l : list (nat * nat))           (* names and values *)
  | Size (n : nat)
  | Chunked                                  (* 'chunked' *)
  | TypeOf (n : nat)
  | Default.                                 (* of DEFAULT_HEADERS *)
Definition value_dec (a b : value) : {a = b} + {a <> b}.
Proof. repeat decide equality. Defined.

Definition hdrs : Type := hname -> list value.
Definition put (h : hdrs) (k : hname) (l : list value) : hdrs := fun k' => if hname_dec k' k then l else h k'.

(** [headers[key] = value], multi_value_dictionary.py:141-149: adds another value *)
Definition hset (h : hdrs) (k : hname) (v : value) : hdrs :=
  if in_dec value_dec v (h k) then h else put h k (h k ++ [v]).
(** [del headers[key]], 153-162: removes the first value *)
Definition hdel (h : hdrs) (k : hname) : hdrs := put h k (tl (h k)).
(** [headers.setdefault(key, value)], 284-310 *)
Definition hsetdefault (h : hdrs) (k : hname) (v : value) : hdrs :=
  match h k with [] => put h k [v] | _ => h end.
(** [headers.get(key, None)] *)
Definition hget (h : hdrs) (k : hname) : option value := hd_error (h k).
(** [key in headers] *)
Definition hhas (h : hdrs) (k : hname) : bool := match h k with [] => false | _ => true end.

(** ** Urls, payloads, methods *)
Record url := mk_url { u_secure : bool; u_host : nat; u_port : nat; u_user : option nat; u_rest : nat }.
Definition default_port (secure : bool) : nat := if secure then 443 else 80.
Definition origin (u : url) : bool * nat * nat := (u_secure u, u_host u, u_port u).
Definition origin_dec (a b : bool * nat * nat) : {a = b} + {a <> b}.
Proof. repeat decide equality. Defined.
(** client_request.py:184-188 *)
Definition host_value (u : url) : value :=
  HostPort (u_host u) (if u_port u =? default_port (u_secure u) then None else Some (u_port u)).

Record payload := mk_payload { p_size : option nat; p_type : nat; p_extra : list (nat * nat) }.
Inductive meth := MGet | MHead | MPost | MOther (n : nat).

(** Relative: without a scheme; Foreign: with a scheme but http and https *)
Inductive target := NoTarget | Absolute (u : url) | Relative (n : nat) | Foreign.
Record response := mk_response { s_status : nat; s_target : target }.

(** What was sent. *)
Record sent := mk_sent { q_method : meth; q_url : url; q_headers : hdrs; q_data : option payload; q_chunked : bool }.

Inductive result :=
  | Returned (r : response) (history : list response)
  | TooMany | BadScheme | Conflict  (* ConnectionError, ConnectionError, ValueError *)
  | Waiting.                        (* the server did not answer yet *)

Section WithOracles.

Variable jar : nat -> url -> list (nat * nat).
Variable load : nat -> list (nat * nat).
Variable says_chunked : nat -> bool.

(** "'chunked' in headers.get(TRANSFER_ENCODING, '').casefold()", client_request.py:231 *)
Definition wants_chunked (h : hdrs) : bool :=
  match hget h HTransfer with
  | Some Chunked => true
  | Some (Given n) => says_chunked n
  | _ => false
  end.

(** cookie.load *)
Definition loaded (v : value) : list (nat * nat) :=
  match v with Cookies l => l | Given n => load n | _ => [] end.
(** [cookie[key] = value]: SimpleCookie is a dict *)
Fixpoint cookie_set (k v : nat) (l : list (nat * nat)) : list (nat * nat) :=
  match l with
  | [] => [(k, v)]
  | (k', v') :: r => if k' =? k then (k, v) :: r else (k', v') :: cookie_set k v r
  end.
Definition cookie_merge (old new : list (nat * nat)) : list (nat * nat) :=
  fold_left (fun l kv => cookie_set (fst kv) (snd kv) l) new old.

(** client_request.py:161-175 *)
Definition add_authorization (u : url) (auth : option nat) (h : hdrs) : hdrs :=
  match (match auth with Some c => Some c | None => u_user u end) with
  | Some c => hset h HAuthorization (Basic c)
  | None => h
  end.
(** client_request.py:178-190 *)
Definition add_host (u : url) (h : hdrs) : hdrs :=
  let h := hsetdefault (hsetdefault h HAccept Default) HAcceptEncoding Default in
  if hhas h HHost then h else hset h HHost (host_value u).
(** client_request.py:193-212 *)
Definition add_cookies (cookies : list (nat * nat)) (h : hdrs) : hdrs :=
  match cookies with
  | [] => h
  | _ =>
      let old := match hget h HCookie with Some v => loaded v | None => [] end in
      hset (put h HCookie (tl (h HCookie))) HCookie (Cookies (cookie_merge old cookies))
  end.
(** client_request.py:215-275; None: ValueError. Compression means chunked (234-235). *)
Definition add_body (data : option payload) (h : hdrs) : option (hdrs * bool) :=
  match data with
  | None => Some (hdel (hdel (hdel (hdel h HEncoding) HLength) HType) HTransfer, false)
  | Some p =>
      let chunked := wants_chunked h || hhas h HEncoding in
      let '(h, chunked) :=
        if chunked then (h, true)
        else if hhas h HLength then (h, false)
        else match p_size p with
             | None => (h, true)
             | Some n => (hset h HLength (Size n), false)
             end in
      let h := if hhas h HType then h else hset h HType (TypeOf (p_type p)) in
      let h := fold_left (fun h kv => hsetdefault h (HOther (fst kv)) (Given (snd kv))) (p_extra p) h in
      if chunked
      then if hhas h HLength then None else Some (hset h HTransfer Chunked, true)
      else Some (h, false)
  end.

Definition build (u : url) (data : option payload) (cookies : list (nat * nat)) (auth : option nat) (h : hdrs) : option (hdrs * bool) :=
  add_body data (add_cookies cookies (add_host u (add_authorization u auth h))).

(** http_client.py:249, 511 *)
Definition is_redirect (status : nat) : bool :=
  (status =? 301) || (status =? 302) || (status =? 303) || (status =? 307).
(** http_client.py:256-259, 519-522 *)
Definition becomes_get (status : nat) (m : meth) : bool :=
  match m with
  | MHead => false
  | MPost => (status =? 303) || (status =? 301) || (status =? 302)
  | _ => status =? 303
  end.

(** The loop of [_request] ([second = false]) and of [_request2] ([second = true]). [i] counts the requests. The server
    answers with [rs]. *)
Fixpoint go (second : bool) (i : nat) (m : meth) (u : url) (h : hdrs) (data : option payload) (auth : option nat)
    (redirects : nat) (history : list response) (rs : list response) {struct rs} : list sent * result :=
  match build u data (jar i u) auth h with
  | None => ([], Conflict)
  | Some (h, chunked) =>
      let q := mk_sent m u h data chunked in
      match rs with
      | [] => ([q], Waiting)
      | r :: rs =>
          match is_redirect (s_status r), redirects with
          | true, S redirects =>
              let history := history ++ [r] in
              match redirects with
              | O => ([q], TooMany)
              | _ =>
                  let get := becomes_get (s_status r) m in
                  let m := if get then MGet else m in
                  let data := if get then None else data in
                  let h := if get then hdel h HLength else h in
                  let next u' :=
                    let h := if second then h else if origin_dec (origin u) (origin u') then h else hdel h HAuthorization in
                    let (qs, x) := go second (S i) m u' h data auth redirects history rs in
                    (q :: qs, x) in
                  match s_target r with
                  | NoTarget => ([q], Returned r history)
                  | Foreign | Relative _ => ([q], BadScheme)
                  | Absolute u' => next u'
                  end
              end
          | _, _ => ([q], Returned r history)
          end
      end
  end.

(** http_client.py:213-216; 456-478: ValueError when both the header and the parameter are given. [_request] has no
    parameter [authorization]. *)
Definition request (second : bool) (m : meth) (u : url) (h : hdrs) (data : option payload) (auth : option nat) (redirects : nat)
    (rs : list response) : list sent * result :=
  if second && (match auth with Some _ => true | None => false end) && hhas h HAuthorization then ([], Conflict)
  else go second 0 m u h data (if second then auth else None) redirects [] rs.

End WithOracles.
