(** Model of the connection pool: /repo/scarletio/http_client/protocol_basket.py:7-275, connector_base.py:12-333, connection.py:8-240.

    Of a protocol the parts are kept which [get_transport] and [should_close] read; [closing] and [lost] tell what happened to its
    transport. [LOOP_TIME()] is an argument of the operations, [create_connection] gives a new protocol each time. The callbacks of a
    connection are operations which come before the one that runs them. [detached] is a record of the proof only. *)

From Coq Require Import List Arith Bool.
Import ListNotations.

Definition key := (nat * bool)%type. (* host, secure *)
Definition secure (k : key) : bool := snd k.
Definition keq (a b : key) : bool := Nat.eqb (fst a) (fst b) && Bool.eqb (snd a) (snd b).

Record proto := {
  transport : bool;   (* get_transport() is not None *)
  payload : bool;     (* _payload_stream is not None *)
  exception : bool;   (* _exception is not None *)
  at_eof : bool;
  buffered : bool;    (* _offset or _chunks *)
  closing : bool;     (* close() or abort() of the transport was called *)
  lost : bool         (* connection_lost was called *)
}.

Definition fresh_proto : proto :=
  {| transport := true; payload := false; exception := false; at_eof := false; buffered := false; closing := false; lost := false |}.

(** /repo/scarletio/web_common/http_protocol.py:73-90 *)
Definition should_close (p : proto) : bool :=
  if payload p then true else if exception p then true else if negb (at_eof p) && buffered p then true else false.

(** /repo/scarletio/core/protocols_and_transports/protocol.py:374-377 and transport.abort() *)
Definition closed_proto (p : proto) : proto :=
  {| transport := transport p; payload := payload p; exception := exception p; at_eof := at_eof p; buffered := buffered p;
     closing := closing p || transport p; lost := lost p |}.

(** What happens to a protocol: data_received (without a reader), eof_received followed by close() of the transport
    (transport_layer.py:716-722), connection_lost (protocol.py:344-359, 426-445: the transport stays set), a transport which can not be
    paused (protocol.py:541-545), and the reads of a request. *)
Inductive event := Data | Eof | Lost (error : bool) | Unpausable | Reading (payload buffered : bool).
Definition happens (p : proto) (e : event) : proto :=
  match e with
  | Data => {| transport := transport p; payload := payload p; exception := exception p; at_eof := at_eof p; buffered := true; closing := closing p; lost := lost p |}
  | Eof => {| transport := transport p; payload := false; exception := exception p; at_eof := true; buffered := buffered p; closing := true; lost := lost p |}
  | Lost true => {| transport := transport p; payload := false; exception := true; at_eof := at_eof p; buffered := buffered p; closing := closing p; lost := true |}
  | Lost false => {| transport := transport p; payload := false; exception := exception p; at_eof := true; buffered := buffered p; closing := closing p; lost := true |}
  | Unpausable => {| transport := false; payload := payload p; exception := exception p; at_eof := at_eof p; buffered := buffered p; closing := closing p; lost := lost p |}
  | Reading a b => {| transport := transport p; payload := a; exception := exception p; at_eof := at_eof p; buffered := b; closing := closing p; lost := lost p |}
  end.

(** protocol, expiration, performed_requests *)
Record item := { proto_of : nat; expiration : nat; performed : nat }.
Record basket := { available : list item; used : list nat }.

Definition protos := nat -> proto.
Definition update (s : protos) (i : nat) (p : proto) : protos := fun j => if Nat.eqb j i then p else s j.
Definition close_one (s : protos) (i : nat) : protos := update s i (closed_proto (s i)).

(** * ProtocolBasket *)

(** __bool__, protocol_basket.py:85-87; an empty list is None *)
Definition basket_bool (b : basket) : bool :=
  negb match available b with [] => true | _ => false end || negb match used b with [] => true | _ => false end.

(** clean_up_expired_protocols, :90-115 *)
Fixpoint clean_items (k : key) (now : nat) (s : protos) (l : list item) : protos * list item :=
  match l with
  | [] => (s, [])
  | i :: l' =>
      let '(s, l') := clean_items k now s l' in
      if Nat.ltb now (expiration i) then (s, i :: l')
      else (if secure k && transport (s (proto_of i)) then close_one s (proto_of i) else s, l')
  end.

(** The first one of the lowest expiration, :156-167 *)
Fixpoint take_lowest (l : list item) : option (item * list item) :=
  match l with
  | [] => None
  | i :: l' =>
      match take_lowest l' with
      | None => Some (i, [])
      | Some (hit, rest) => if Nat.ltb (expiration hit) (expiration i) then Some (hit, i :: rest) else Some (i, l')
      end
  end.

(** pop_available_protocol, :135-194; all protocols are HttpReadProtocol-s *)
Fixpoint pop_items (fuel : nat) (k : key) (now : nat) (s : protos) (l : list item) : protos * list item * option (nat * nat) :=
  match fuel with
  | 0 => (s, l, None)
  | S fuel =>
      match take_lowest l with
      | None => (s, l, None)
      | Some (hit, l) =>
          let p := s (proto_of hit) in
          if negb (transport p) then pop_items fuel k now s l
          else if Nat.ltb (expiration hit) now || should_close p then pop_items fuel k now (close_one s (proto_of hit)) l
          else (s, l, Some (proto_of hit, performed hit))
      end
  end.

(** close, :118-132 *)
Definition close_basket (s : protos) (b : basket) : protos :=
  fold_left close_one (used b) (fold_left (fun s i => close_one s (proto_of i)) (available b) s).

(** add_used_protocol, :197-211; remove_used_protocol, :214-233; add_available_protocol, :236-259 *)
Definition add_used (b : basket) (p : nat) : basket :=
  {| available := available b; used := if existsb (Nat.eqb p) (used b) then used b else p :: used b |}.
Definition remove_used (b : basket) (p : nat) : basket :=
  {| available := available b; used := filter (fun q => negb (Nat.eqb q p)) (used b) |}.
Definition add_available (b : basket) (p now timeout n : nat) : basket :=
  {| available := available b ++ [{| proto_of := p; expiration := now + timeout; performed := n |}]; used := used b |}.

(** * protocols_by_host *)

Definition baskets := list (key * basket).
Fixpoint bget (d : baskets) (k : key) : option basket :=
  match d with [] => None | (k', b) :: d' => if keq k' k then Some b else bget d' k end.
Fixpoint bset (d : baskets) (k : key) (b : basket) : baskets :=
  match d with [] => [(k, b)] | (k', b') :: d' => if keq k' k then (k', b) :: d' else (k', b') :: bset d' k b end.
Fixpoint bdel (d : baskets) (k : key) : baskets :=
  match d with [] => [] | (k', b) :: d' => if keq k' k then d' else (k', b) :: bdel d' k end.

Definition empty_basket : basket := {| available := []; used := [] |}.
Definition bget_new (d : baskets) (k : key) : basket := match bget d k with Some b => b | None => empty_basket end.
(** A basket which changed: [if not protocol_basket: del protocols_by_host[key]] *)
Definition bkeep (d : baskets) (k : key) (b : basket) : baskets := if basket_bool b then bset d k b else bdel d k.

Record connection := { conn_key : key; conn_proto : option nat; conn_performed : nat }.

Record state := {
  stat : protos;
  next : nat;                    (* the next new protocol *)
  hosts : baskets;
  closed : bool;
  handle : option nat;           (* clean_up_handle: the time it is called at *)
  conns : list connection;       (* the n-th created one *)
  detached : list nat
}.

Definition initial : state :=
  {| stat := fun _ => fresh_proto; next := 0; hosts := []; closed := false; handle := None; conns := []; detached := [] |}.

Definition with_hosts (s : state) (p : protos) (d : baskets) : state :=
  {| stat := p; next := next s; hosts := d; closed := closed s; handle := handle s; conns := conns s; detached := detached s |}.

Fixpoint nth_update {A} (l : list A) (n : nat) (x : A) : list A :=
  match l, n with [], _ => [] | _ :: l', 0 => x :: l' | y :: l', S n => y :: nth_update l' n x end.

(** [self.protocol = None] *)
Definition clear_conn (s : state) (c : nat) : state :=
  match nth_error (conns s) c with
  | None => s
  | Some k =>
      {| stat := stat s; next := next s; hosts := hosts s; closed := closed s; handle := handle s;
         conns := nth_update (conns s) c {| conn_key := conn_key k; conn_proto := None; conn_performed := conn_performed k |};
         detached := detached s |}
  end.

(** * ConnectorBase *)

(** pop_available_protocol, connector_base.py:164-191 *)
Definition pop_available (s : state) (k : key) (now : nat) : state * option (nat * nat) :=
  match bget (hosts s) k with
  | None => (s, None)
  | Some b =>
      let '(p, l, r) := pop_items (length (available b)) k now (stat s) (available b) in
      (with_hosts s p (bkeep (hosts s) k {| available := l; used := used b |}), r)
  end.

(** connect, :160-161, with add_used_protocol, :194-213 *)
Definition connected (s : state) (k : key) (p n : nat) : state :=
  {| stat := stat s; next := next s; hosts := bset (hosts s) k (add_used (bget_new (hosts s) k) p); closed := closed s; handle := handle s;
     conns := conns s ++ [{| conn_key := k; conn_proto := Some p; conn_performed := n |}]; detached := detached s |}.

(** release_used_protocol, :244-267 *)
Definition release_used (s : state) (k : key) (p : nat) : state :=
  if closed s then s
  else match bget (hosts s) k with
       | None => s
       | Some b => with_hosts s (stat s) (bkeep (hosts s) k (remove_used b p))
       end.

(** release, :270-307; [force]: force_close *)
Definition release (force : bool) (s : state) (k : key) (p : nat) (close : bool) (timeout n now : nat) : state :=
  if closed s then s
  else
    let s := release_used s k p in
    if close || force || should_close (stat s p) then with_hosts s (close_one (stat s) p) (hosts s)
    else
      {| stat := stat s; next := next s; hosts := bset (hosts s) k (add_available (bget_new (hosts s) k) p now timeout n); closed := closed s;
         handle := match handle s with None => Some (now + timeout) | h => h end; conns := conns s; detached := detached s |}.

(** get_closest_expiration, protocol_basket.py:262-275 and connector_base.py:310-333 *)
Definition lowest (a : option nat) (i : nat) : option nat := match a with None => Some i | Some x => Some (if Nat.ltb i x then i else x) end.
Definition closest (d : baskets) : option nat := fold_left (fun a kb => fold_left lowest (map expiration (available (snd kb))) a) d None.

(** _clean_up, :73-106 *)
Fixpoint clean_hosts (now : nat) (s : protos) (d : baskets) : protos * baskets :=
  match d with
  | [] => (s, [])
  | (k, b) :: d' =>
      let '(s, l) := clean_items k now s (available b) in
      let '(s, d') := clean_hosts now s d' in
      let b := {| available := l; used := used b |} in
      (s, if basket_bool b then (k, b) :: d' else d')
  end.
Definition clean_up (s : state) (now : nat) : state :=
  let '(p, d) := clean_hosts now (stat s) (hosts s) in
  {| stat := p; next := next s; hosts := d; closed := closed s; handle := closest d; conns := conns s; detached := detached s |}.

(** close, :109-127 *)
Definition close_connector (s : state) (running : bool) : state :=
  if closed s then s
  else
    {| stat := if running then fold_left (fun p kb => close_basket p (snd kb)) (hosts s) (stat s) else stat s;
       next := next s; hosts := []; closed := true; handle := handle s; conns := conns s; detached := detached s |}.

(** * The operations *)

(** keep_alive_info: max_requests ([None]: the default) and connection_timeout *)
Record keep_alive := { max_requests : option nat; connection_timeout : nat }.

Inductive op :=
| Connect (k : key) (now : nat) | Created (k : key)
| Release (c : nat) (info : option keep_alive) (now : nat) | Close_conn (c : nat) | Detach (c : nat) | Del (c : nat) (running : bool)
| Clean_up (now : nat) | Close (running : bool) | Happens (p : nat) (e : event).
Inductive out := Got (p n : nat) | Creating | Connector_closed | Nothing.

Definition held_by (s : state) (c : nat) : option (key * nat * nat) :=
  match nth_error (conns s) c with
  | Some k => match conn_proto k with Some p => Some (conn_key k, p, conn_performed k) | None => None end
  | None => None
  end.

Definition step (force : bool) (s : state) (o : op) : state * out :=
  match o with
  | Connect k now => (* connect, connector_base.py:130-161 *)
      let '(s, r) := pop_available s k now in
      match r with
      | Some (p, n) => (connected s k p n, Got p n)
      | None => (s, Creating)
      end
  | Created k => (* :155-161 *)
      let p := next s in
      let s := {| stat := stat s; next := S p; hosts := hosts s; closed := closed s; handle := handle s; conns := conns s; detached := detached s |} in
      if closed s then (with_hosts s (close_one (stat s) p) (hosts s), Connector_closed) else (connected s k p 0, Got p 0)
  | Release c info now => (* Connection.release, connection.py:171-207 *)
      match held_by s c with
      | None => (s, Nothing)
      | Some (k, p, n) =>
          let n := n + 1 in
          let s := clear_conn s c in
          let '(close, timeout) :=
            if should_close (stat s p) then (true, 0)
            else match info with
                 | None => (true, 0)
                 | Some i =>
                     if match max_requests i with None => false | Some m => Nat.leb m n end then (true, 0) else (false, connection_timeout i)
                 end in
          (release force s k p close timeout n now, Nothing)
      end
  | Close_conn c => (* Connection.close, :159-168 *)
      match held_by s c with None => (s, Nothing) | Some (k, p, n) => (release force (clear_conn s c) k p true 0 0 0, Nothing) end
  | Detach c => (* Connection.detach, :210-222 *)
      match held_by s c with
      | None => (s, Nothing)
      | Some (k, p, n) =>
          let s := release_used (clear_conn s c) k p in
          ({| stat := stat s; next := next s; hosts := hosts s; closed := closed s; handle := handle s; conns := conns s; detached := p :: detached s |}, Nothing)
      end
  | Del c running => (* Connection.__del__, :82-88; the connection is gone after *)
      match held_by s c with
      | None => (s, Nothing)
      | Some (k, p, n) => (if running then release force (clear_conn s c) k p true 0 0 0 else clear_conn s c, Nothing)
      end
  | Clean_up now => (clean_up s now, Nothing)
  | Close running => (close_connector s running, Nothing)
  | Happens p e => (if Nat.ltb p (next s) then with_hosts s (update (stat s) p (happens (stat s p) e)) (hosts s) else s, Nothing)
  end.

Fixpoint run (force : bool) (s : state) (os : list op) : state * list out :=
  match os with [] => (s, []) | o :: os' => let '(s1, r) := step force s o in let '(s2, rs) := run force s1 os' in (s2, r :: rs) end.
