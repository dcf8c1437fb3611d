(** What a reader of a multipart body sees (RFC 2046, 5.1.1), written from the RFC and not from the writer. *)

From Coq Require Import List Arith Bool NArith.
From Coq Require String.
Import String.StringSyntax.
From Verif Require Import Bytes Text QuoteModel DispoModel AuthSpec MultiModel PartModel.
Import ListNotations.

(** [p] occurs in [d]. *)
Definition occurs (p d : bytes) : Prop := exists a b, d = a ++ p ++ b.

(** The text before the first [p], and after it. *)
Fixpoint cut (p d : bytes) : option (bytes * bytes) :=
  if starts_with p d then Some ([], skipn (length p) d)
  else match d with
       | [] => None
       | c :: d => match cut p d with Some (a, b) => Some (c :: a, b) | None => None end
       end.

(** A delimiter: a line end, two hyphens and the boundary; the line end belongs to it. *)
Definition delimiter (boundary : bytes) : bytes := [13; 10; 45; 45]%N ++ boundary.

(** The header lines, up to an empty line, and what is after it. *)
Fixpoint read_headers (fuel : nat) (d : bytes) : option (list (bytes * bytes) * bytes) :=
  match fuel with
  | 0 => None
  | S fuel =>
      match cut [13; 10]%N d with
      | None => None
      | Some ([], rest) => Some ([], rest)
      | Some (line, rest) =>
          match cut [58; 32]%N line with
          | None => None
          | Some (name, value) => match read_headers fuel rest with Some (hs, r) => Some ((name, value) :: hs, r) | None => None end
          end
      end
  end.

(** What is after a delimiter: two hyphens end the body, a line end starts a part, which goes until the next delimiter. *)
Fixpoint read_parts (fuel : nat) (boundary d : bytes) : option (list (list (bytes * bytes) * bytes)) :=
  match fuel with
  | 0 => None
  | S fuel =>
      if starts_with [45; 45]%N d then Some []
      else if starts_with [13; 10]%N d then
        match cut (delimiter boundary) (skipn 2 d) with
        | None => None
        | Some (part, rest) =>
            match read_headers (S (length part)) part, read_parts fuel boundary rest with
            | Some hc, Some l => Some (hc :: l)
            | _, _ => None
            end
        end
      else None
  end.

(** A body; what is before its first delimiter is dropped, the line end of that is not needed at the start. *)
Definition read_body (boundary d : bytes) : option (list (list (bytes * bytes) * bytes)) :=
  match cut (delimiter boundary) ([13; 10]%N ++ d) with
  | None => None
  | Some (_, rest) => read_parts (S (length d)) boundary rest
  end.

(** bchars of RFC 2046; at most 70 of them, the last one is not a space. *)
Definition bchar (c : N) : bool :=
  ((48 <=? c) && (c <=? 57) || (65 <=? c) && (c <=? 90) || (97 <=? c) && (c <=? 122) ||
   existsb (N.eqb c) [39; 40; 41; 43; 95; 44; 45; 46; 47; 58; 61; 63; 32])%N.
Definition rfc_boundary (b : bytes) : Prop :=
  1 <= length b <= 70 /\ Forall (fun c => bchar c = true) b /\ last b 0%N <> 32%N.

(** A header which stays one line. *)
Definition plain_header (p : str * str) : Prop :=
  ~ In 58%N (fst p) /\ fst p <> [] /\ Forall (fun c => c <> 13 /\ c <> 10)%N (fst p ++ snd p).

(** [casefold], of text in ascii. *)
Definition lower1 (c : N) : N := if ((65 <=? c) && (c <=? 90))%N then (c + 32)%N else c.
Definition folds (fold : str -> str) : Prop := forall s, Forall (fun c => (c < 128)%N) s -> fold s = map lower1 s.

(** Lines of encoded text (RFC 2045, 6.8): no run of more than 76 characters without a line end. *)
Definition short_lines (d : bytes) : Prop := forall a x b, d = a ++ x ++ b -> ~ In 10%N x -> length x <= 76.

(** How a header is a line, and how lines are the head of a part. *)
Definition line (p : str * str) : bytes := utf8 (fst p) ++ [58; 32]%N ++ utf8 (snd p) ++ [13; 10]%N.
Definition block (l : list (str * str)) : bytes := concat (map line l) ++ [13; 10]%N.
Definition seen (l : list (str * str)) : list (bytes * bytes) := map (fun p => (utf8 (fst p), utf8 (snd p))) l.

(** A payload writes as many bytes as it says. *)
Definition honest (contents : nat -> list bytes) (p : payload) : Prop :=
  forall n, p_size p = Some n -> length (concat (contents (p_id p))) = n.

(** A payload which is sent as it is. *)
Definition uncoded (fold : str -> str) (p : payload) : Prop :=
  get fold (p_headers p) CONTENT_ENCODING = None /\ get fold (p_headers p) CONTENT_TRANSFER_ENCODING = None.

(** Its headers: its own, and its length if that is known. *)
Definition with_length (fold : str -> str) (show : nat -> str) (p : payload) : list (str * str) :=
  match p_size p with
  | Some n => items (set_item fold (p_headers p) CONTENT_LENGTH (show n))
  | None => items (p_headers p)
  end.

(** How a form is filled. *)
Inductive form_op :=
| AddJson (name json : str)
| AddField (name : str) (v : value) (content_type file_name transfer_encoding : option str).
Definition apply_op (m : form) (o : form_op) : form :=
  match o with
  | AddJson name json => add_json m name json
  | AddField name v c f t => add_field m name v c f t
  end.
Definition filled (quote_fields : bool) (l : list form_op) : form := fold_left apply_op l (new_form quote_fields).

(** The field which is added: bytes and files without a file name get one. *)
Definition field_of (o : form_op) : field :=
  match o with
  | AddJson name json => mk_field name None [(text "Content-Type", text "application/json")] (VText json)
  | AddField name v c f t =>
      mk_field name
        (match f, v, t with
         | Some f, _, _ => Some f
         | None, VFile (Some n) _, _ => Some n
         | None, VFile None _, _ => Some name
         | None, VBytes _, None => Some name
         | None, _, _ => None
         end)
        (match c with Some c => [(text "Content-Type", c)] | None => [] end ++
         match t with Some t => [(text "Content-Transfer-Encoding", t)] | None => [] end) v
  end.

(** A form which is nothing but names and texts (or numbers): it is sent urlencoded. *)
Definition simple (o : form_op) : bool :=
  match o with AddField _ (VText _) None None None => true | AddField _ VOther None None None => true | _ => false end.

(** The bytes of a value. *)
Definition bytes_of (v : value) : bytes :=
  match v with VText s => utf8 s | VBytes b => b | VFile _ b => b | VOther => [] end.

(** The type of a field: the one which was given, or that of its value. *)
Definition type_of (guess : str -> option str) (f : field) : str :=
  match lookup (f_headers f) CONTENT_TYPE with
  | Some c => c
  | None =>
      match f_value f with
      | VText _ => text "text/plain; charset=utf-8"
      | VFile (Some n) _ => match guess n with Some mime => mime | None => text "application/octet-stream" end
      | _ => text "application/octet-stream"
      end
  end.

(** The fields whose transfer encoding is not given, or is base64. *)
Definition plain_or_base64 (f : field) : Prop :=
  lookup (f_headers f) CONTENT_TRANSFER_ENCODING = None \/ lookup (f_headers f) CONTENT_TRANSFER_ENCODING = Some (text "base64").

(** The headers and the content a field has to be sent with. *)
Definition form_part (guess : str -> option str) (show : nat -> str) (quote_fields : bool) (f : field) (sent : list (str * str) * bytes) : Prop :=
  exists h, build (text "form-data") (type_options f) quote_fields = Some h /\
  match lookup (f_headers f) CONTENT_TRANSFER_ENCODING with
  | None =>
      fst sent = [(text "Content-Type", type_of guess f); (text "Content-Disposition", h); (text "Content-Length", show (length (bytes_of (f_value f))))] /\
      snd sent = bytes_of (f_value f)
  | Some t =>
      fst sent = [(text "Content-Type", type_of guess f); (text "Content-Transfer-Encoding", t); (text "Content-Disposition", h)] /\
      (all_bytes (bytes_of (f_value f)) -> base64 (bytes_of (f_value f)) (snd sent))
  end.
