(** C123-C130: the opening handshake in terms of the headers which are sent. *)

From Coq Require Import List Arith Bool NArith String.
From Verif Require Import Bytes Text HeadSpec ExtSpec HandshakeModel.
Import ListNotations.

(** The values of the headers named [n], in their order. *)
Inductive vals (n : hname) : headers -> list str -> Prop :=
| V_nil : vals n [] []
| V_here : forall v h l, vals n h l -> vals n ((n, v) :: h) (v :: l)
| V_skip : forall m v h l, m <> n -> vals n h l -> vals n ((m, v) :: h) l.

(** The names which some header values list together (RFC 7230, 7: repeated headers are one list). *)
Inductive listed (ok : str -> Prop) : list str -> list str -> Prop :=
| L_nil : listed ok [] []
| L_cons : forall v vs a b, names_text ok a v -> listed ok vs b -> listed ok (v :: vs) (a ++ b).

(** Equal but for the case of ascii letters. *)
Definition ignoring_case : str -> str -> Prop :=
  Forall2 (fun x y => x = y \/ (65 <= x <= 90 /\ y = x + 32)%N \/ (65 <= y <= 90 /\ x = y + 32)%N).

Definition wants_upgrade (names : list str) : Prop := Exists (fun n => ignoring_case n (text "upgrade")) names.
Definition names_websocket (names : list str) : Prop := Exists (fun n => ignoring_case n (text "websocket")) names.

Definition no_surrogate (s : str) : Prop := Forall (fun c => ~ (55296 <= c <= 57343)%N) s.
(** A key: base64 of 16 bytes. *)
Definition good_key (b64decode : str -> option bytes) (k : str) : Prop :=
  no_surrogate k /\ exists raw, b64decode k = Some raw /\ List.length raw = 16.

(** A request to open a web socket (RFC 6455, 4.2.1) with the key [k]. *)
Record opening (b64decode : str -> option bytes) (h : headers) (k : str) : Prop := {
  o_connection : exists vs names, vals Connection h vs /\ listed token vs names /\ wants_upgrade names;
  o_upgrade : exists vs name, vals Upgrade h vs /\ listed protocol vs [name] /\ ignoring_case name (text "websocket");
  o_key : vals Key h [k] /\ good_key b64decode k;
  o_version : vals Version h [text "13"];
}.

(** The server has nothing to say about extensions, and the sub-protocols of the request are a list of names. *)
Definition plain_config (c : config) (q : request) : Prop :=
  c_serving c = true /\ match c_early c with None => True | Some f => f q = None end.
Definition no_extensions (c : config) (h : headers) : Prop := c_exts c = None \/ vals Extensions h [].
Definition subs_listed (c : config) (h : headers) : Prop :=
  c_subs c = None \/ exists vs names, vals Protocol h vs /\ listed token vs names.

(** The first position of [s]. *)
Definition first_at (s : str) (l : list str) (i : nat) : Prop :=
  nth_error l i = Some s /\ forall j, j < i -> nth_error l j <> Some s.

(** No header which the handshake itself uses. *)
Definition others (h : headers) : Prop := Forall (fun p => exists n, fst p = Other n) h.
