(** Model of the opening handshake of web sockets: /repo/scarletio/web_socket/web_socket_client.py:218-383 and
    /repo/scarletio/web_socket/web_socket_server_protocol.py:163-208, 257-582, with the header lists of
    web_common/header_building_and_parsing.py (ExtModel.v).

    Modelled: the headers which the client sends, what the server looks at, which response or error follows, what the client
    checks in the response. Strings are lists of code points. A header dictionary is the list of its (name, value) pairs in
    the order of their insertion; setting a pair which is there already changes nothing (C34), the names are compared without
    their case, so the names used here are constructors. The base64 functions, sha1, [are_valid_parameters] of the
    extensions, the request processor, the sub-protocol selector and the order in which a set is iterated are arbitrary
    functions.

    Not modelled: reading the request and the response from the socket (HeadModel.v; here its result or its exception is an
    input), user supplied functions which raise, the Host and Authorization headers, a transport which is gone before the
    response is written, the Date and Server headers (they are set only if missing and nobody looks at them here), closing
    the connection after a refusal (WsModel.v). *)

From Coq Require Import List Arith Bool NArith String.
From Verif Require Import Bytes Text ExtModel.
Import ListNotations.

Definition str := list N.

Inductive hname := Connection | Upgrade | Key | Version | Accept | Extensions | Protocol | Origin | Other (name : str).

(** Equality of names; [Other] is a name which is none of the others. *)
Definition hname_eqb (a b : hname) : bool :=
  match a, b with
  | Connection, Connection | Upgrade, Upgrade | Key, Key | Version, Version | Accept, Accept
  | Extensions, Extensions | Protocol, Protocol | Origin, Origin => true
  | Other x, Other y => beqb x y
  | _, _ => false
  end.

Definition headers := list (hname * str).
Definition pair_eqb (p q : hname * str) : bool := hname_eqb (fst p) (fst q) && beqb (snd p) (snd q).

(** utils/multi_value_dictionary.py, [__setitem__] and [get_all]; [None] if there is no value. *)
Definition hput (h : headers) (p : hname * str) : headers := if existsb (pair_eqb p) h then h else h ++ [p].
Definition hput_all (h : headers) (ps : headers) : headers := fold_left hput ps h.
Definition get_all (h : headers) (n : hname) : option (list str) :=
  match map snd (filter (fun p => hname_eqb (fst p) n) h) with [] => None | l => Some l end.

(** [str.lower] on the ascii letters (the only ones which a parsed name can have). *)
Definition lower (s : str) : str := map (fun c => if (65 <=? c)%N && (c <=? 90)%N then (c + 32)%N else c) s.

(** A list which several headers carry together (web_socket_server_protocol.py:296-300, 307-311, 403-405, 446-448;
    web_socket_client.py:274-278, 286-290, 328-330, 354-356); [None]: the ValueError of a parser. *)
Fixpoint collect {A} (parse : str -> option (list A)) (vs : list str) : option (list A) :=
  match vs with
  | [] => Some []
  | v :: vs =>
      match parse v with
      | None => None
      | Some l => option_map (app l) (collect parse vs)
      end
  end.
Definition collect_opt {A} (parse : str -> option (list A)) (vs : option (list str)) : option (list A) :=
  match vs with None => Some [] | Some l => collect parse l end.

Definition parse_exts (s : str) := parse_extensions (S (List.length s)) s.

Definition surrogate (c : N) : bool := (55296 <=? c)%N && (c <=? 57343)%N.
Definition guid : str := text "258EAFA5-E914-47DA-95CA-C5AB0DC85B11".

Fixpoint index (x : str) (l : list str) : nat :=
  match l with [] => 0 | y :: l => if beqb y x then 0 else S (index x l) end.
Definition mem (x : str) (l : list str) : bool := existsb (beqb x) l.
Fixpoint distinct (l : list str) : list str :=
  match l with [] => [] | x :: l => if mem x l then distinct l else x :: distinct l end.

(** What python values a request processor can put in the arguments of [AbortHandshake]. *)
Inductive pyval := PStr (s : str) | PBytes (b : bytes) | PStatus (code : N) | PInt (n : N).
Record abort := Abort { a_message : pyval; a_code : pyval }.

(** The exceptions of the handshake, by the branches of web_socket_server_protocol.py:501-553. *)
Inductive exc := EConnection | EAbort (a : abort) | EOrigin | EUpgrade | EHandshake | EPayload | EOther.

Record request := Request { q_method : str; q_minor : N; q_headers : headers }.

(** The parameters of a server (web_socket_server_protocol.py:174-187). [c_early]: the request processor. *)
Record config := Config {
  c_serving : bool;
  c_early : option (request -> option abort);
  c_origin : option (list str);
  c_exts : option (list nat);
  c_subs : option (list str);
  c_select : option (list str -> list str -> option str);
  c_extra : headers;
}.

Inductive outcome :=
| Opened (exts : list nat) (sub : option str) (response : headers)  (* 101 is written, the connection is open *)
| Refused (status : N)   (* a whole response with this status is written, then the connection is failed *)
| Cut (status : N)       (* the head of a response is written, its body is not *)
| Silent                 (* nothing is written, [handshake] returns [False] *)
| Escaped.               (* nothing is written, an exception leaves [handshake] and the task ends with it *)

(** What the client makes of the response: the connection, [InvalidHandshake] or an other exception. *)
Inductive verdict := Connected (exts : list nat) (sub : option str) | Invalid | Failed.

Section Handshake.
Variable b64encode : bytes -> str.
Variable b64decode : str -> option bytes.          (* [b64decode(.., validate = True)]; [None]: BinasciiError *)
Variable sha1 : str -> bytes.                      (* the digest of the encoded text *)
Variable ext_name : nat -> str.                    (* [extension.name] *)
Variable ext_params : nat -> list parameter.       (* [extension.request_params] *)
Variable ext_valid : nat -> list parameter -> list nat -> bool.  (* [extension.are_valid_parameters] *)
Variable iter : list str -> list str.              (* the order in which python iterates a set *)

(** web_socket_server_protocol.py:480, web_socket_client.py:298 *)
Definition accept_key (key : str) : str := b64encode (sha1 (key ++ guid)).

(** web_socket_server_protocol.py:407-419, web_socket_client.py:332-343; [None]: no extension matches. *)
Fixpoint match_extensions (available : list nat) (parsed : list extension) (accepted : list nat) : option (list nat) :=
  match parsed with
  | [] => Some accepted
  | (name, parameters) :: parsed =>
      match List.find (fun e => beqb (ext_name e) name && ext_valid e parameters accepted) available with
      | Some e => match_extensions available parsed (accepted ++ [e])
      | None => None
      end
  end.

(** web_socket_server_protocol.py:296-305 *)
Definition check_connection (h : headers) : option exc :=
  match collect_opt parse_subprotocols (get_all h Connection) with
  | None => Some EOther
  | Some names => if existsb (fun v => beqb (lower v) (text "upgrade")) names then None else Some EUpgrade
  end.

(** web_socket_server_protocol.py:313, web_socket_client.py:292: [None] is the IndexError of [upgrade[0]]. *)
Definition upgrade_test (names : list str) : option bool :=
  if negb (List.length names =? 1) then
    match names with [] => None | v :: _ => Some (negb (beqb (lower v) (text "websocket"))) end
  else Some false.

(** web_socket_server_protocol.py:307-316 *)
Definition check_upgrade (h : headers) : option exc :=
  match collect_opt parse_upgrades (get_all h Upgrade) with
  | None => Some EOther
  | Some names => match upgrade_test names with None => Some EOther | Some true => Some EUpgrade | Some false => None end
  end.

(** web_socket_server_protocol.py:318-344; the left is the key. *)
Definition check_key (h : headers) : str + exc :=
  match get_all h Key with
  | None => inr EHandshake
  | Some (_ :: _ :: _) => inr EHandshake
  | Some [] => inr EOther
  | Some [key] =>
      if existsb surrogate key then inr EOther       (* [key.encode()] *)
      else match b64decode key with
      | None => inr EHandshake
      | Some raw => if negb (List.length raw =? 16) then inr EHandshake else inl key
      end
  end.

(** web_socket_server_protocol.py:346-364 *)
Definition check_version (h : headers) : option exc :=
  match get_all h Version with
  | None => Some EHandshake
  | Some [v] => if beqb v (text "13") then None else Some EHandshake
  | Some _ => Some EHandshake
  end.

(** web_socket_server_protocol.py:366-387 with the attribute [self.origin]; [origin in origin] is a text in itself. *)
Definition check_origin (self_origin : option (list str)) (h : headers) : option exc :=
  match self_origin with
  | None => None
  | Some _ =>
      match get_all h Origin with
      | None => Some EOrigin
      | Some [o] => if match Bytes.find o o with Some _ => true | None => false end then None else Some EOrigin
      | Some _ => Some EOrigin
      end
  end.

(** web_socket_server_protocol.py:389-432. The left are the accepted extensions; [build_extensions] is given tuples, whose
    [.name] is an AttributeError, so there is no header to put in the response. *)
Definition check_extensions (available : option (list nat)) (h : headers) : list nat + exc :=
  match available, get_all h Extensions with
  | None, _ | _, None => inl []
  | Some available, Some vs =>
      match collect parse_exts vs with
      | None => inr EOther
      | Some parsed =>
          match match_extensions available parsed [] with
          | None => inr EHandshake
          | Some [] => inl []
          | Some (_ :: _) => inr EOther
          end
      end
  end.

(** web_socket_server_protocol.py:462-469, the loop over the set. *)
Fixpoint lowest (parsed available : list str) (names : list str) (priority : nat) (selected : option str) : option str :=
  match names with
  | [] => selected
  | s :: names =>
      let p := index s parsed + index s available in
      if p <? priority then lowest parsed available names p (Some s) else lowest parsed available names priority selected
  end.

(** web_socket_server_protocol.py:435-473; [None] is a ValueError. *)
Definition choose_subprotocol (c : config) (h : headers) : option (option str) :=
  match c_subs c, get_all h Protocol with
  | None, _ | _, None => Some None
  | Some available, Some vs =>
      match collect parse_subprotocols vs with
      | None => None
      | Some parsed =>
          match c_select c with
          | Some select => Some (select parsed available)
          | None =>
              let names := iter (filter (fun s => mem s available) (distinct parsed)) in
              Some (lowest parsed available names (List.length parsed + List.length available) None)
          end
      end
  end.

(** web_socket_server_protocol.py:475-491 *)
Definition build_response (c : config) (key : str) (sub : option str) : headers :=
  hput_all
    ([(Upgrade, text "websocket"); (Connection, text "Upgrade"); (Accept, accept_key key)]
     ++ match sub with Some s => [(Protocol, s)] | None => [] end)
    (c_extra c).

(** web_socket_server_protocol.py:516-580 *)
Definition refuse (e : exc) : outcome :=
  match e with
  | EConnection => Silent                                     (* 504-514 *)
  | EAbort a =>                                               (* 517-524, http_protocol.py:723-766 *)
      match a_message a with
      | PStr s =>
          match rev s with
          | 10%N :: _ => match a_code a with PStatus n => Cut n | _ => Silent end
          | _ => Escaped                                      (* [str + bytes] *)
          end
      | _ => Escaped                                          (* [bytes.endswith(str)], no [.endswith] *)
      end
  | EOrigin => Refused 403
  | EUpgrade => Refused 426
  | EHandshake => Refused 400
  | EPayload => Refused 400
  | EOther => Refused 500
  end.

(** web_socket_server_protocol.py:268-499 *)
Definition handshake (c : config) (self_origin : option (list str)) (read : request + exc) : outcome :=
  match read with
  | inr e => refuse e
  | inl q =>
      let h := q_headers q in
      if negb (c_serving c) then
        (* 290-294: the arguments are in the wrong order *)
        refuse (EAbort (Abort (PStatus 503) (PStr (text "Server is shutting down."))))
      else match match c_early c with None => None | Some f => f q end with
      | Some a => refuse (EAbort a)
      | None =>
          match check_connection h with Some e => refuse e | None =>
          match check_upgrade h with Some e => refuse e | None =>
          match check_key h with inr e => refuse e | inl key =>
          match check_version h with Some e => refuse e | None =>
          match check_origin self_origin h with Some e => refuse e | None =>
          match check_extensions (c_exts c) h with inr e => refuse e | inl exts =>
          match choose_subprotocol c h with None => refuse EOther | Some sub =>
            Opened exts sub (build_response c key sub)
          end end end end end end end
      end
  end.

(** web_socket_server_protocol.py:179 and 189: the attribute is set from the parameters, then to [None]. *)
Definition new_protocol_origin (c : config) : option (list str) := 
  let origin := c_origin c in let origin := None in origin.

(** A connection of a server. *)
Definition serve (c : config) (read : request + exc) : outcome := handshake c (new_protocol_origin c) read.

(** web_socket_client.py:218-252 without Host and Authorization. *)
Definition client_request (raw_key : bytes) (origin : option str) (exts : option (list nat)) (subs : option (list str))
    (more : headers) : headers :=
  hput_all
    ([(Upgrade, text "websocket"); (Connection, text "Upgrade"); (Key, b64encode raw_key); (Version, text "13")]
     ++ match origin with Some o => [(Origin, o)] | None => [] end
     ++ match exts with Some l => [(Extensions, build_extensions (map (fun e => (ext_name e, ext_params e)) l))] | None => [] end
     ++ match subs with Some l => [(Protocol, build_subprotocols l)] | None => [] end)
    more.

(** web_socket_client.py:261-370; [minor]: the version of the response is HTTP/1.[minor]. *)
Definition check_response (raw_key : bytes) (exts : option (list nat)) (subs : option (list str))
    (minor status : N) (h : headers) : verdict :=
  if negb (minor =? 1)%N then Invalid
  else if negb (status =? 101)%N then Invalid
  else match collect_opt parse_subprotocols (get_all h Connection) with
  | None => Failed
  | Some names =>
  if negb (existsb (fun v => beqb (lower v) (text "upgrade")) names) then Invalid
  else match collect_opt parse_upgrades (get_all h Upgrade) with
  | None => Failed
  | Some names =>
  match upgrade_test names with
  | None => Failed
  | Some true => Invalid
  | Some false =>
  match get_all h Accept with
  | None => Invalid
  | Some [k] =>
      if negb (beqb k (accept_key (b64encode raw_key))) then Invalid
      else match
        match get_all h Extensions with
        | None => inl []
        | Some vs =>
            match exts with
            | None => inr Invalid
            | Some available =>
                match collect parse_exts vs with
                | None => inr Failed
                | Some parsed =>
                    match match_extensions available parsed [] with None => inr Invalid | Some l => inl l end
                end
            end
        end
      with
      | inr v => v
      | inl accepted =>
          match get_all h Protocol with
          | None => Connected accepted None
          | Some vs =>
              match subs with
              | None => Invalid
              | Some available =>
                  match collect parse_subprotocols vs with
                  | None => Failed
                  | Some [] => Failed
                  | Some [s] => if mem s available then Connected accepted (Some s) else Invalid
                  | Some (_ :: _ :: _) => Invalid
                  end
              end
          end
      end
  | Some _ => Invalid
  end end end end.

End Handshake.
