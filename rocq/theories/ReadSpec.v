(** Vocabulary for C18, C19 and C63, C64: what a user of a byte stream expects, independent of chunks and offsets. *)

From Coq Require Import List Arith Bool NArith.
From Verif Require Import Bytes ReadModel.
Import ListNotations.

(** The bytes the transport delivered in a history. *)
Definition received (ops : list op) : bytes := concat (map (fun x => match x with OData d => d | _ => [] end) ops).

(** [serves1 d r a d']: [a] is a right answer to the request [r] when the unread rest of the whole stream is [d], and
    [d'] is what is unread afterwards. *)
Inductive serves1 : bytes -> request -> answer -> bytes -> Prop :=
  | S_exact : forall x d, serves1 (x ++ d) (RExact (length x)) (AData x) d
  | S_exact_short : forall d n, length d < n -> serves1 d (RExact n) AError []
  | S_upto : forall x d, serves1 (x ++ d) (RUpTo (length x)) (AData x) d
  | S_upto_short : forall d n, length d < n -> serves1 d (RUpTo n) (AData d) []
  | S_all : forall d, serves1 d RAll (AData d) []
  | S_once : forall x d, x <> [] -> serves1 (x ++ d) ROnce (AData x) d
  | S_once_end : serves1 [] ROnce (AData []) [].

Inductive serves : bytes -> list (request * answer) -> bytes -> Prop :=
  | S_nil : forall d, serves d [] d
  | S_cons : forall d r a d1 l d2, serves1 d r a d1 -> serves d1 l d2 -> serves d ((r, a) :: l) d2.

(** Histories of the transport and of exact / bounded / unbounded / single reads: no data after the end of the stream,
    nobody cancels a read and the connection does not fail. *)
Definition plain_request (r : request) : bool := match r with RUntil _ => false | _ => true end.
Definition plain_op (x : op) : bool :=
  match x with OData _ | OEof => true | ORead r => plain_request r | _ => false end.

Fixpoint data_ends (eof : bool) (ops : list op) : bool :=
  match ops with
  | [] => true
  | OData _ :: l => negb eof && data_ends eof l
  | OEof :: l => data_ends true l
  | _ :: l => data_ends eof l
  end.

Definition plain (ops : list op) : Prop := forallb plain_op ops = true /\ data_ends false ops = true.

(** Answers of the reads that were not rejected because another read was in progress. *)
Definition accepted (l : answers) : answers := filter (fun x => match snd x with AAssertion => false | _ => true end) l.

(** What is received and not yet read. *)
Definition unread (cs : list bytes) (o : nat) : bytes :=
  match cs with [] => [] | c :: cs' => skipn o c ++ concat cs' end.

(** The first occurrence of [b] in [d] is between [pre] and [post]. *)
Definition first_split (b d pre post : bytes) : Prop :=
  d = pre ++ b ++ post /\ (forall p s, d = p ++ b ++ s -> length pre <= length p).
Definition lacks (b d : bytes) : Prop := forall p s, d <> p ++ b ++ s.

(** [x] is obtained from [y] by deleting bytes. *)
Inductive subseq : bytes -> bytes -> Prop :=
  | Sub_nil : subseq [] []
  | Sub_take : forall a x y, subseq x y -> subseq (a :: x) (a :: y)
  | Sub_skip : forall a x y, subseq x y -> subseq x (a :: y).

(** No read in progress, connection alive, some of the first chunk may be consumed. *)
Definition idle (w : world) : Prop :=
  w_reader w = None /\ w_eof w = false /\ w_failed w = false /\
  Forall (fun c => c <> []) (w_chunks w) /\
  match w_chunks w with [] => w_offset w = 0 | c :: _ => w_offset w < length c end.

(** The already consumed part of the first buffered chunk is harmless to a search for [b]. *)
Definition offset_ok (b : bytes) (w : world) : Prop :=
  match w_chunks w with
  | [] => True
  | c :: _ => w_offset w = 0 \/ length b = 1 \/ w_offset w + (w_offset w + (length b - 1)) <= length c
  end.

(** Segments big enough that the carried over partial match is never extended by a whole segment. *)
Definition big_enough (b c : bytes) : Prop := c <> [] /\ (length b <= length c \/ length b <= 2).
