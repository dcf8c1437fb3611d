(** Model of a response and its connection: [ClientResponse] (scarletio/http_client/client_response.py 179-313, 453-486), [Connection.release]
    and [close] (scarletio/http_client/connection.py), [write_body] of the request (scarletio/http_client/client_request.py 451-488), [should_close]
    (scarletio/web_common/http_protocol.py 73-90), and what they use of the protocol (scarletio/core/protocols_and_transports/protocol.py 426-531,
    577-660) and of the payload stream (payload_stream.py 165-450).

    One request and its response on one connection. Bodies are lists of numbers. Not modelled: iteration over the body (C44), cookies, detaching,
    [__del__], the limit of requests of a connection, and what a payload reader does with the bytes (C23, C24): data come with whether they end the body and
    whether bytes are left over. Nor a cancellation of a reading task after the waiter is done. *)

From Coq Require Import List Arith Bool.
Import ListNotations.

Inductive final := Success | Error | Aborted.
Inductive waiter := Nobody | WPending | WDone | WError | WCancelled.
Inductive fate := Held | Pooled | Shut.
Inductive writer := Writing | Written | Stopped.
Inductive result := Body (d : list nat) | NoBody | Raises | CancelledError.

Record world := mk_world {
  (* the protocol: _payload_stream is not None, _exception is not None, _at_eof, _offset or _chunks, the transport is there *)
  p_stream : bool; p_exception : bool; p_eof : bool; p_left : bool; transport : bool;
  (* the payload stream: done, _chunks, the callbacks are still to be run, the waiter *)
  s_done : option final; s_chunks : list nat; s_callbacks : bool; s_waiter : waiter;
  (* the response *)
  head : bool; keep : bool; upgraded : bool; released : bool; closed : bool; connection : bool; stream : bool; body : option (list nat);
  (* the task which writes the body of the request; what became of the connection *)
  write : writer; conn : fate;
  (* tasks waiting in read, and what calls of read gave *)
  reading : list nat; results : list (nat * result);
  (* what has happened: the body received so far, whether this is all of it *)
  got : list nat; complete : bool
}.

Definition begin : world :=
  mk_world false false false false true None [] false Nobody false false false false false true false None Writing Held [] [] [] false.

Definition set_protocol w s e q l t := mk_world s e q l t (s_done w) (s_chunks w) (s_callbacks w) (s_waiter w) (head w) (keep w) (upgraded w) (released w) (closed w) (connection w) (stream w) (body w) (write w) (conn w) (reading w) (results w) (got w) (complete w).
Definition set_stream w d c b x := mk_world (p_stream w) (p_exception w) (p_eof w) (p_left w) (transport w) d c b x (head w) (keep w) (upgraded w) (released w) (closed w) (connection w) (stream w) (body w) (write w) (conn w) (reading w) (results w) (got w) (complete w).
Definition set_response w r c n s b := mk_world (p_stream w) (p_exception w) (p_eof w) (p_left w) (transport w) (s_done w) (s_chunks w) (s_callbacks w) (s_waiter w) (head w) (keep w) (upgraded w) r c n s b (write w) (conn w) (reading w) (results w) (got w) (complete w).
Definition set_conn w x f := mk_world (p_stream w) (p_exception w) (p_eof w) (p_left w) (transport w) (s_done w) (s_chunks w) (s_callbacks w) (s_waiter w) (head w) (keep w) (upgraded w) (released w) (closed w) (connection w) (stream w) (body w) x f (reading w) (results w) (got w) (complete w).
Definition set_reads w l r := mk_world (p_stream w) (p_exception w) (p_eof w) (p_left w) (transport w) (s_done w) (s_chunks w) (s_callbacks w) (s_waiter w) (head w) (keep w) (upgraded w) (released w) (closed w) (connection w) (stream w) (body w) (write w) (conn w) l r (got w) (complete w).

(** should_close, http_protocol.py 73-90 *)
Definition should_close (w : world) : bool := p_stream w || p_exception w || (negb (p_eof w) && p_left w).

(** _release_connection, 247-264; Connection.release; the connector keeps the protocol or closes it *)
Definition release_connection (w : world) : world :=
  if connection w
  then set_conn (set_response w (released w) (closed w) false (stream w) (body w)) (write w) (if should_close w || negb (head w && keep w) then Shut else Pooled)
  else w.

(** _clean_up_writer, 283-291; a writer which is stopped writes the end mark of the body, not the body, client_request.py 473-475 *)
Definition clean_up_writer (w : world) : world := set_conn w (match write w with Writing => Stopped | x => x end) (conn w).

(** _response_eof, 222-244 *)
Definition response_eof (w : world) : world :=
  if closed w then w
  else if connection w && upgraded w then w
  else let w := if connection w then release_connection (set_response w true (closed w) true (stream w) (body w)) else w in
       clean_up_writer (set_response w (released w) true (connection w) (stream w) (body w)).

(** The stream is done, payload_stream.py 165-236, 314-338: its waiter is told, then its callbacks are run, last first: the one of the protocol, then the response's *)
Definition told (x y : waiter) : waiter := match x with WPending => y | x => x end.
Definition run_callbacks (w : world) : world :=
  if s_callbacks w then response_eof (set_stream w (s_done w) (s_chunks w) false (s_waiter w)) else w.
Definition success (w : world) : world :=
  match s_done w with Some _ => w | None => run_callbacks (set_stream w (Some Success) (s_chunks w) (s_callbacks w) (told (s_waiter w) WDone)) end.
Definition failure (w : world) : world :=
  match s_done w with Some _ => w | None => run_callbacks (set_stream w (Some Error) [] (s_callbacks w) (told (s_waiter w) WError)) end.
(** _abort; _payload_stream_abortion_callback, protocol.py 648-659: eof_received, 441-483, of which nothing reaches the stream any more *)
Definition abort (w : world) : world :=
  match s_done w with
  | Some _ => w
  | None =>
      let w := set_stream w (Some Aborted) (s_chunks w) (s_callbacks w) (told (s_waiter w) WError) in
      run_callbacks (if s_callbacks w then set_protocol w false (p_exception w) true (p_left w) (transport w) else w)
  end.

(** set_exception, protocol.py 426-437 *)
Definition set_exception (w : world) : world :=
  let s := p_stream w in
  let w := set_protocol w false true (p_eof w) (p_left w) (transport w) in
  if s then failure w else w.

(** _notify_content, 267-280 *)
Definition notify_content (w : world) : world :=
  let w := if stream w && connection w then set_exception w else w in
  set_response w true (closed w) (connection w) (stream w) (body w).

Inductive payload :=
| Nothing                                 (* no body: HEAD, 204 and the like *)
| Tunnel                                  (* CONNECT *)
| AtOnce (d : list nat) (more : bool)     (* the body came together with the head *)
| Later (d : list nat).                   (* a part of it *)

Inductive op :=
| Head (k u : bool) (p : payload)         (* start_processing, 179-219 *)
| Data (d : list nat) (last more : bool)  (* data_received, protocol.py 487-531 *)
| Eof (ok : bool)                         (* eof_received from the transport; [ok]: this ends the body *)
| Broken                                  (* set_exception from the transport *)
| WriteDone                               (* the body of the request is written *)
| Read (i : nat)                          (* read, 294-313, by the task [i] *)
| Resume (i : nat)                        (* the task goes on after the waiter is done *)
| CancelRead (i : nat)                    (* the task is cancelled, and with it the waiter *)
| Close                                   (* 453-470 *)
| Release.                                (* 473-486 *)

(** read gives a result; [stream] is forgotten, 310-311 *)
Definition gives (w : world) (i : nat) (r : result) : world := set_reads w (filter (fun j => negb (j =? i)) (reading w)) (results w ++ [(i, r)]).
Definition forget (w : world) (b : option (list nat)) : world := set_response w (released w) (closed w) (connection w) false b.
(** payload_stream.py 425-439, after the waiter *)
Definition joined (w : world) (i : nat) : world :=
  let d := s_chunks w in gives (forget (set_stream w (s_done w) [] (s_callbacks w) (s_waiter w)) (Some d)) i (Body d).
Definition continued (w : world) (i : nat) : world :=
  match s_waiter w with
  | WDone => joined w i
  | WError => let w := abort w in gives (forget w (body w)) i Raises
  | WCancelled => let w := abort w in gives (forget w (body w)) i CancelledError
  | _ => w
  end.

Definition step (w : world) (a : op) : world :=
  match a with
  | Head k u p =>
      if head w || closed w || p_exception w || p_eof w then w
      else
        let w := mk_world (p_stream w) (p_exception w) (p_eof w) (p_left w) (transport w) (s_done w) (s_chunks w) (s_callbacks w) (s_waiter w) true k u (released w) (closed w) (connection w) (stream w) (body w) (write w) (conn w) (reading w) (results w)
                   (match p with AtOnce d _ | Later d => d | _ => [] end) (match p with Later _ => false | _ => true end) in
        match p with
        | Nothing => response_eof w
        | Tunnel => w
        | AtOnce d l =>      (* the stream is done before it is the protocol's, protocol.py 607-608 *)
            let w := response_eof (set_stream (set_protocol w false (p_exception w) (p_eof w) l (transport w)) (Some Success) d false Nobody) in
            set_response w (released w) (closed w) (connection w) true (body w)
        | Later d =>
            let w := set_stream (set_protocol w true (p_exception w) (p_eof w) false (transport w)) None d true Nobody in
            set_response w (released w) (closed w) (connection w) true (body w)
        end
  | Data d last more =>
      if negb (transport w) || negb (head w) then w
      else if p_stream w then
        let w := mk_world (p_stream w) (p_exception w) (p_eof w) more (transport w) (s_done w) (s_chunks w ++ d) (s_callbacks w) (s_waiter w) (head w) (keep w) (upgraded w) (released w) (closed w) (connection w) (stream w) (body w) (write w) (conn w) (reading w) (results w)
                   (got w ++ d) last in
        if last then let w := success w in set_protocol w false (p_exception w) (p_eof w) (p_left w) (transport w)      (* 501-502, then 527-528 *)
        else w
      else set_protocol w (p_stream w) (p_exception w) (p_eof w) true (transport w)
  | Eof ok =>
      if negb (transport w) then w
      else
        let s := p_stream w in
        let w := set_protocol w false (p_exception w) true (p_left w) false in
        if s then
          if ok then success (mk_world (p_stream w) (p_exception w) (p_eof w) (p_left w) (transport w) (s_done w) (s_chunks w) (s_callbacks w) (s_waiter w) (head w) (keep w) (upgraded w) (released w) (closed w) (connection w) (stream w) (body w) (write w) (conn w) (reading w) (results w) (got w) true)
          else failure w
        else w
  | Broken => if negb (transport w) then w else set_exception (set_protocol w (p_stream w) (p_exception w) (p_eof w) (p_left w) false)
  | WriteDone => match write w with Writing => set_conn w Written (conn w) | _ => w end
  | Read i =>
      if existsb (Nat.eqb i) (reading w) then w
      else if stream w then
        match s_done w with
        | Some Success => joined w i
        | Some _ => gives (forget w (body w)) i Raises
        | None => match s_waiter w with
                  | WCancelled => continued w i
                  | _ => set_reads (set_stream w (s_done w) (s_chunks w) (s_callbacks w) WPending) (reading w ++ [i]) (results w)
                  end
        end
      else gives w i (match body w with Some d => Body d | None => NoBody end)
  | Resume i => if existsb (Nat.eqb i) (reading w) then continued w i else w
  | CancelRead i =>
      if existsb (Nat.eqb i) (reading w)
      then match s_waiter w with WPending => set_stream w (s_done w) (s_chunks w) (s_callbacks w) WCancelled | _ => w end
      else w
  | Close =>
      let w := if released w then w else notify_content w in
      if closed w then w
      else let w := set_response w (released w) true (connection w) (stream w) (body w) in
           clean_up_writer (if connection w then set_conn (set_response w (released w) (closed w) false (stream w) (body w)) (write w) Shut else w)
  | Release =>
      let w := if released w then w else notify_content w in
      if closed w then w
      else clean_up_writer (release_connection (set_response w (released w) true (connection w) (stream w) (body w)))
  end.

Definition run (w : world) (l : list op) : world := fold_left step l w.
