(** C134-C138: http messages, independent of how their headers are looked at. *)

From Coq Require Import List Arith Bool NArith String.
From Verif Require Import Bytes Text HeadModel MessageModel.
Import ListNotations.

Definition ascii (s : str) : Prop := Forall (fun c => c < 128)%N s.
Definition lower1 (c : N) : N := if ((65 <=? c) && (c <=? 90))%N then (c + 32)%N else c.

(** What is assumed of python's functions; '²' is a digit which is not a number. *)
Record python (fold : str -> str) (isdigit : str -> bool) (to_int : str -> option N) : Prop := {
  fold_ascii : forall s, ascii s -> fold s = map lower1 s;
  isdigit_ascii : forall s, ascii s -> (isdigit s = true <-> s <> [] /\ Forall (fun c => is_digit c = true) s);
  to_int_ascii : forall s, s <> [] -> Forall (fun c => is_digit c = true) s -> to_int s = Some (undec s);
  isdigit_superscript : isdigit [178%N] = true;
  to_int_superscript : to_int [178%N] = None
}.

(** RFC 7230, 7: a list in a field: elements with blanks around them, separated by commas; several fields of the same name
    mean their values joined by commas. *)
Definition blank (c : N) : bool := ((c =? 32) || (c =? 9))%N.
Fixpoint commas (l : str) : list str :=
  match l with
  | [] => [[]]
  | c :: l =>
      if (c =? 44)%N then [] :: commas l
      else match commas l with p :: ps => (c :: p) :: ps | [] => [[c]] end
  end.
Definition trim (s : str) : str := rev (drop_while blank (rev (drop_while blank s))).
Definition elements (v : str) : list str := filter (fun e => negb (beqb e [])) (map trim (commas v)).
Definition list_of (vs : list str) : list str := flat_map elements vs.

(** A word in every case of its letters. *)
Definition word (w s : str) : Prop := map lower1 s = w.

(** RFC 7230, 3.3.3 (3): the last transfer coding decides. *)
Definition ends_chunked (l : list str) : Prop := exists a e, l = a ++ [e] /\ word (text "chunked") e.

(** RFC 7230, 3.3.3: how a response ends. *)
Inductive rfc_end (m : method_kind) (status : N) (h : fields) : framing -> Prop :=
| R_head : m = Head -> rfc_end m status h NoBody
| R_status : (status = 204 \/ status = 304 \/ status < 200)%N -> rfc_end m status h NoBody
| R_connect : m = Connect -> (200 <= status < 300)%N -> rfc_end m status h NoBody
| R_chunked : m = Other -> (200 <= status)%N -> status <> 204%N -> status <> 304%N ->
    ends_chunked (list_of (h TransferEncoding)) -> rfc_end m status h Chunked
| R_coded : m = Other -> (200 <= status)%N -> status <> 204%N -> status <> 304%N ->
    list_of (h TransferEncoding) <> [] -> ~ ends_chunked (list_of (h TransferEncoding)) -> rfc_end m status h UntilEof
| R_length : forall d, m = Other -> (200 <= status)%N -> status <> 204%N -> status <> 304%N ->
    list_of (h TransferEncoding) = [] -> h ContentLength <> [] -> Forall (eq d) (h ContentLength) ->
    d <> [] -> Forall (fun c => is_digit c = true) d ->
    rfc_end m status h (if (undec d =? 0)%N then NoBody else Exactly (undec d))
| R_close : m = Other -> (200 <= status)%N -> status <> 204%N -> status <> 304%N ->
    list_of (h TransferEncoding) = [] -> h ContentLength = [] -> rfc_end m status h UntilEof.

(** What a reader reads. *)
Definition reads (r : reader) : option framing :=
  match r with
  | NoReader => Some NoBody
  | ReadChunked _ => Some Chunked
  | ReadExactly n _ => Some (Exactly n)
  | ReadUntilEof => Some UntilEof
  | _ => None
  end.
Definition decodes (r : reader) : option coding :=
  match r with ReadChunked d | ReadExactly _ d => d | _ => None end.

(** RFC 7230, 6.3: whether the connection stays open after a message. *)
Definition option_in (w : str) (h : fields) : Prop := exists e, In e (list_of (h Connection)) /\ word w e.
Inductive persistent (v : version) (h : fields) : bool -> Prop :=
| P_close : option_in (text "close") h -> persistent v h false
| P_11 : ~ option_in (text "close") h -> (major v = 1 /\ 1 <= minor v \/ 1 < major v)%N -> persistent v h true
| P_10 : ~ option_in (text "close") h -> (major v = 1 /\ minor v = 0)%N -> option_in (text "keep-alive") h -> persistent v h true
| P_old : ~ option_in (text "keep-alive") h -> (major v = 1 /\ minor v = 0)%N -> persistent v h false.

(** The fields which are given, all other ones are missing. *)
Definition only (l : list (field * list str)) : fields := fun f =>
  match List.find (fun p => match fst p, f with
    | Connection, Connection | Upgrade, Upgrade | TransferEncoding, TransferEncoding | ContentEncoding, ContentEncoding
    | ContentLength, ContentLength | KeepAlive, KeepAlive => true | _, _ => false end) l with
  | Some p => snd p | None => [] end.

(** A parameter of the keep-alive header. *)
Definition blanks (s : str) : Prop := Forall (fun c => blank c = true) s.
Definition token_char (c : N) : Prop := (32 < c < 127)%N /\ c <> 61%N /\ c <> 44%N /\ c <> 36%N.
Definition token (s : str) : Prop := s <> [] /\ Forall token_char s.
(** The parameters, separated by commas with blanks around. *)
Inductive parameters : str -> list (str * str) -> Prop :=
| K_last : forall b k v b', blanks b -> token k -> token v -> blanks b' -> parameters (b ++ k ++ [61%N] ++ v ++ b') [(k, v)]
| K_next : forall b k v b' s l, blanks b -> token k -> token v -> blanks b' -> parameters s l ->
    parameters (b ++ k ++ [61%N] ++ v ++ b' ++ [44%N] ++ s) ((k, v) :: l).
(** The value of the last parameter with the given name whose value can be read. *)
Inductive last_of {T} (w : str) (read : str -> option T) (default : T) : list (str * str) -> T -> Prop :=
| V_nil : last_of w read default [] default
| V_snoc_yes : forall l k v t, word w k -> read v = Some t -> last_of w read default (l ++ [(k, v)]) t
| V_snoc_no : forall l k v t, ~ word w k \/ read v = None -> last_of w read default l t -> last_of w read default (l ++ [(k, v)]) t.
