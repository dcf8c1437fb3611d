(** Model of multipart bodies and forms: /repo/scarletio/web_common/multipart.py: [PayloadBase.__init__] (101-139),
    [set_content_disposition_header] (142-157), [BytesPayload] (227-255), [StringPayload] (279-311), [IOBasePayload],
    [TextIOPayload], [BytesIOPayload], [BufferedReaderPayload] (370-583), [MultipartWriter] (1093-1400),
    [MultipartPayloadWriter] (1435-1602), and /repo/scarletio/web_common/form_data.py: [add_json], [add_field],
    [_generate_form_data], [generate_form] (226-424).

    Headers are the dictionaries of MultiModel, with names compared by their [casefold], a parameter. A payload has the
    chunks it writes, which are fixed when it is written and not when it is appended: [contents] gives them. Compressors
    ([compress], [flush]), quoted-printable ([qp]), [guess_type] of [mimetypes] and the numbers as text ([show]) are
    parameters. Errors are [None]. Texts have no surrogates, which [encode] refuses; brotli is installed; the name of a file is a
    text. Asynchronous readers and iterables are not modelled. *)

From Coq Require Import List Arith Bool NArith String.
From Verif Require Import Bytes Text QuoteModel MultiModel AuthModel DispoModel.
Import ListNotations.
Local Open Scope list_scope.
Local Notation length := List.length.
Local Notation concat := List.concat.

Definition CRLF : bytes := [13; 10]%N.
Definition DASH : bytes := [45; 45]%N.

Inductive coding := Deflate | Gzip | Brotli.
Inductive transfer := Base64 | QuotedPrintable.

Section Part.
Variable fold : str -> str.                 (* str.casefold *)
Variable show : nat -> str.                 (* str of a number *)
Variable guess : str -> option str.         (* mimetypes.guess_type(...)[0] *)

Definition dict := MultiModel.dict str str.
Definition set_item (d : dict) (k v : str) : dict := MultiModel.set_item str str str fold beqb beqb d k v.
Definition get (d : dict) (k : str) : option (list str) := MultiModel.get str str str fold beqb d k.
Definition extend (d : dict) (l : list (str * str)) : dict := MultiModel.extend str str str fold beqb beqb d l.
Definition pop_all (d : dict) (k : str) : dict := fst (MultiModel.pop_all str str str fold beqb d k true).
Definition items (d : dict) : list (str * str) := MultiModel.items str str d.
Definition first_of (d : dict) (k : str) : option str := match get d k with Some (v :: _) => Some v | _ => None end.

Definition CONTENT_TYPE := text "Content-Type".
Definition CONTENT_LENGTH := text "Content-Length".
Definition CONTENT_ENCODING := text "Content-Encoding".
Definition CONTENT_TRANSFER_ENCODING := text "Content-Transfer-Encoding".
Definition CONTENT_DISPOSITION := text "Content-Disposition".
Definition DEFAULT_CONTENT_TYPE := text "application/octet-stream".

(** A payload: its headers, its size if it is known, and which object it is. *)
Record payload := mk_payload { p_headers : dict; p_size : option nat; p_id : nat }.

(** 101-139 *)
Definition payload_base (id : nat) (content_type file_name : option str) (headers : list (str * str)) (size : option nat) : payload :=
  let content_type :=
    match content_type with
    | Some c => c
    | None =>
        match file_name with
        | None => DEFAULT_CONTENT_TYPE
        | Some f => match guess f with None => DEFAULT_CONTENT_TYPE | Some mime => mime end
        end
    end in
  mk_payload (extend (set_item [] CONTENT_TYPE content_type) headers) size id.

(** 227-241; [data] is a list of items: those of bytes have one byte, [len] counts items. *)
Definition bytes_payload (id : nat) (content_type : option str) (headers : list (str * str)) (data : list bytes) : payload :=
  payload_base id (Some (match content_type with Some c => c | None => DEFAULT_CONTENT_TYPE end)) None headers (Some (length data)).

Definition singles (b : bytes) : list bytes := map (fun c => [c]) b.

(** 279-311 with the encoding utf-8. *)
Definition string_payload (id : nat) (content_type : option str) (headers : list (str * str)) (data : str) : payload :=
  bytes_payload id (Some (match content_type with Some c => c | None => text "text/plain; charset=utf-8" end)) headers (singles (utf8 data)).

(** 142-157; a type which is not accepted raises *)
Definition set_content_disposition (p : payload) (disposition_type : str) (parameters : list (str * str)) (quote_fields : bool) : option payload :=
  match build disposition_type parameters quote_fields with
  | None => None
  | Some h => Some (mk_payload (set_item (pop_all (p_headers p) CONTENT_DISPOSITION) CONTENT_DISPOSITION h) (p_size p) (p_id p))
  end.

(** 370-394 with the default disposition; [size]: what [BytesIOPayload] and [BufferedReaderPayload] compute (525-583), the
    number of the bytes which are left. *)
Definition io_payload (id : nat) (content_type file_name : option str) (headers : list (str * str)) (size : option nat) : option payload :=
  let p := payload_base id content_type file_name headers size in
  match file_name with
  | None => Some p
  | Some f => set_content_disposition p (text "attachment") [(text "filename", f)] true
  end.

(** The characters of a file which is open as text: its line ends are translated. *)
Fixpoint universal (s : str) : str :=
  match s with
  | 13%N :: ((10%N :: _) as s') => universal s'
  | 13%N :: s' => 10%N :: universal s'
  | c :: s' => c :: universal s'
  | [] => []
  end.

(** 441-501 with the encoding utf-8 and 470-478: the size of a text file is the number of its bytes which are left; what is
    written are its characters, encoded. *)
Definition text_io_payload (id : nat) (content_type file_name : option str) (headers : list (str * str)) (file : bytes) : option payload :=
  io_payload id (Some (match content_type with Some c => c | None => text "text/plain; charset=utf-8" end)) file_name headers
             (Some (length file)).
Definition text_io_chunks (file : bytes) : list bytes := match utf8_decode file with Some s => [utf8 (universal s)] | None => [] end.

(** * MultipartWriter *)

Record part := mk_part { t_id : nat; t_headers : bytes; t_coding : option coding; t_transfer : option transfer }.
Record writer := mk_writer { w_boundary : bytes; w_parts : list part; w_size : option nat }.

(** 26-27: the characters of a token, and those which are never allowed *)
Definition word_byte (c : N) : bool :=
  ((48 <=? c) && (c <=? 57) || (65 <=? c) && (c <=? 90) || (97 <=? c) && (c <=? 122) || (c =? 95))%N.
Definition tchar_byte (c : N) : bool := word_byte c || existsb (N.eqb c) (text "!#$%&'*+-.^_`|~").
Definition invalid_qdtext (c : N) : bool := ((c <=? 8) || (10 <=? c) && (c <=? 31) || (c =? 127))%N.

(** 1093-1154 *)
Definition new_writer (boundary : str) : option writer :=
  if negb (forallb (fun c => (c <? 128)%N) boundary) then None
  else
    if match boundary with [] => false | _ => forallb tchar_byte boundary end then Some (mk_writer boundary [] None)
    else if existsb invalid_qdtext boundary then None
    else Some (mk_writer boundary [] None).

(** 1149-1154: a writer is a payload too, of the size which it has now *)
Definition writer_payload (id : nat) (subtype : str) (quoted_boundary : str) (w : writer) : payload :=
  payload_base id (Some (text "multipart/" ++ subtype ++ text "; boundary=" ++ quoted_boundary)) None [] (w_size w).

(** 1238-1250; the outer option: RuntimeError *)
Definition content_encoding_of (h : dict) : option (option coding) :=
  match first_of h CONTENT_ENCODING with
  | None => Some None
  | Some e =>
      let e := fold e in
      if beqb e (text "deflate") then Some (Some Deflate)
      else if beqb e (text "gzip") then Some (Some Gzip)
      else if beqb e (text "br") then Some (Some Brotli)
      else if beqb e [] || beqb e (text "identity") then Some None
      else None
  end.

(** 1253-1267 *)
Definition transfer_encoding_of (h : dict) : option (option transfer) :=
  match first_of h CONTENT_TRANSFER_ENCODING with
  | None => Some None
  | Some e =>
      let e := fold e in
      if beqb e [] then Some None
      else if beqb e (text "base64") then Some (Some Base64)
      else if beqb e (text "quoted-printable") then Some (Some QuotedPrintable)
      else if beqb e (text "binary") then Some None
      else None
  end.

(** 1275-1282 *)
Definition render_headers (h : dict) : bytes :=
  utf8 (flat_map (fun p => fst p ++ text ": " ++ snd p ++ CRLF) (items h) ++ CRLF).

Definition no_coding (ce : option coding) (te : option transfer) : bool :=
  match ce, te with None, None => true | _, _ => false end.

(** 1217-1302; a payload always has a content type (132), see 1234. *)
Definition append_payload (w : writer) (p : payload) : option writer :=
  match content_encoding_of (p_headers p), transfer_encoding_of (p_headers p) with
  | Some ce, Some te =>
      let h :=
        match p_size p with
        | Some n => if no_coding ce te then set_item (p_headers p) CONTENT_LENGTH (show n) else p_headers p
        | None => p_headers p
        end in
      let headers := render_headers h in
      let size := match w_parts w with [] => Some (6 + length (w_boundary w)) | _ => w_size w end in
      let size' :=
        match size with
        | None => w_size w
        | Some size =>
            match p_size p with
            | Some n => if no_coding ce te then Some (size + (6 + length (w_boundary w) + n + length headers)) else None
            | None => None
            end
        end in
      Some (mk_writer (w_boundary w) (w_parts w ++ [mk_part (p_id p) headers ce te]) size')
  | _, _ => None
  end.

Fixpoint append_all (w : writer) (l : list payload) : option writer :=
  match l with
  | [] => Some w
  | p :: l => match append_payload w p with Some w => append_all w l | None => None end
  end.

(** * MultipartPayloadWriter *)

Variable comp : Type.
Variable comp_new : coding -> comp.
Variable compress : comp -> bytes -> comp * bytes.
Variable flush : comp -> bytes.
Variable qp : bytes -> bytes.

Record pw := mk_pw { pw_comp : option comp; pw_transfer : option transfer; pw_buffer : bytes }.

(** 1437-1535 *)
Definition pw_new (ce : option coding) (te : option transfer) : pw := mk_pw (option_map comp_new ce) te [].

(** 1579-1602 *)
Definition pw_send (s : pw) (chunk : bytes) : pw * bytes :=
  match pw_transfer s with
  | Some Base64 =>
      let buffer := pw_buffer s ++ chunk in
      let barrier := length buffer / 3 * 3 in
      (mk_pw (pw_comp s) (pw_transfer s) (skipn barrier buffer), b64encode (firstn barrier buffer))
  | Some QuotedPrintable => (s, qp chunk)
  | None => (s, chunk)
  end.

(** 1561-1602 *)
Definition pw_write (s : pw) (chunk : bytes) : pw * bytes :=
  match pw_comp s with
  | None => pw_send s chunk
  | Some c =>
      match chunk with
      | [] => pw_send s chunk
      | _ =>
          let '(c, out) := compress c chunk in
          let s := mk_pw (Some c) (pw_transfer s) (pw_buffer s) in
          match out with [] => (s, []) | _ => pw_send s out end
      end
  end.

(** 1538-1558 *)
Definition pw_eof (s : pw) : bytes :=
  let '(s, out) :=
    match pw_comp s with
    | None => (s, [])
    | Some c =>
        let s := mk_pw None (pw_transfer s) (pw_buffer s) in
        match flush c with [] => (s, []) | chunk => pw_write s chunk end
    end in
  out ++ match pw_transfer s with
         | Some Base64 => match pw_buffer s with [] => [] | b => b64encode b end
         | _ => []
         end.

Fixpoint pw_run (s : pw) (chunks : list bytes) : bytes :=
  match chunks with
  | [] => pw_eof s
  | c :: chunks => let '(s, out) := pw_write s c in out ++ pw_run s chunks
  end.

(** 1386-1397 *)
Definition write_part (boundary : bytes) (contents : nat -> list bytes) (p : part) : bytes :=
  DASH ++ boundary ++ CRLF ++ t_headers p ++
  (if no_coding (t_coding p) (t_transfer p) then concat (contents (t_id p))
   else pw_run (pw_new (t_coding p) (t_transfer p)) (contents (t_id p))) ++
  CRLF.

(** 1373-1400 *)
Definition write (w : writer) (contents : nat -> list bytes) (close_boundary : bool) : bytes :=
  concat (map (write_part (w_boundary w) contents) (w_parts w)) ++
  (if close_boundary then DASH ++ w_boundary w ++ DASH ++ CRLF else []).

(** * FormData *)

(** A value: a text, bytes, an open file (its name and what is left of it) or anything else (a number, a list). *)
Inductive value := VText (s : str) | VBytes (b : bytes) | VFile (name : option str) (rest : bytes) | VOther.

Record field := mk_field { f_name : str; f_file_name : option str; f_headers : list (str * str); f_value : value }.

Record form := mk_form { m_fields : list field; m_multipart : bool; m_quote : bool }.

Definition new_form (quote_fields : bool) : form := mk_form [] false quote_fields.

(** 226-245; the text is that of [to_json] *)
Definition add_json (m : form) (name json : str) : form :=
  mk_form (m_fields m ++ [mk_field name None [(CONTENT_TYPE, text "application/json")] (VText json)]) true (m_quote m).

Definition is_some {A} (o : option A) : bool := match o with Some _ => true | None => false end.
Definition is_file (v : value) : bool := match v with VFile _ _ => true | _ => false end.

(** 248-313 *)
Definition add_field (m : form) (name : str) (v : value) (content_type file_name transfer_encoding : option str) : form :=
  let file_name :=
    match v, file_name, transfer_encoding with
    | VBytes _, None, None => Some name
    | VFile n _, None, _ => Some (match n with Some n => n | None => name end)
    | _, _, _ => file_name
    end in
  let headers :=
    match content_type with Some c => [(CONTENT_TYPE, c)] | None => [] end ++
    match transfer_encoding with Some t => [(CONTENT_TRANSFER_ENCODING, t)] | None => [] end in
  mk_form (m_fields m ++ [mk_field name file_name headers v])
          (m_multipart m || is_file v || is_some file_name || is_some content_type || is_some transfer_encoding) (m_quote m).

Fixpoint lookup (l : list (str * str)) (k : str) : option str :=
  match l with [] => None | (k', v) :: l => if beqb k' k then Some v else lookup l k end.

(** 340-365: the payload of a field, with the encoding utf-8; the object of a field is its position *)
Definition field_payload (id : nat) (f : field) : option payload :=
  let content_type := lookup (f_headers f) CONTENT_TYPE in
  match f_value f with
  | VText s => Some (string_payload id content_type (f_headers f) s)
  | VBytes b => Some (bytes_payload id content_type (f_headers f) (singles b))
  | VFile name rest =>
      let file_name :=
        match content_type, f_file_name f with Some _, Some n => Some n | _, _ => name end in
      io_payload id content_type file_name (f_headers f) (Some (length rest))
  | VOther => None
  end.

Definition type_options (f : field) : list (str * str) :=
  (text "name", f_name f) :: match f_file_name f with Some n => [(text "file_name", n)] | None => [] end.

Definition field_part (quote_fields : bool) (id : nat) (f : field) : option payload :=
  match field_payload id f with
  | None => None
  | Some p =>
      match set_content_disposition p (text "form-data") (type_options f) quote_fields with
      | None => None
      | Some p => Some (mk_payload (pop_all (p_headers p) CONTENT_LENGTH) (p_size p) (p_id p))
      end
  end.

(** 338-373 *)
Fixpoint append_fields (quote_fields : bool) (id : nat) (w : writer) (l : list field) : option writer :=
  match l with
  | [] => Some w
  | f :: l =>
      match field_part quote_fields id f with
      | Some p => match append_payload w p with Some w => append_fields quote_fields (S id) w l | None => None end
      | None => None
      end
  end.

(** What the parts of a form write. *)
Definition chunks_of (v : value) : list bytes :=
  match v with VText s => [utf8 s] | VBytes b => [b] | VFile _ rest => [rest] | VOther => [] end.
Definition form_contents (m : form) (id : nat) : list bytes :=
  match nth_error (m_fields m) id with Some f => chunks_of (f_value f) | None => [] end.

Inductive generated := UrlEncoded (l : list (str * value)) | Multipart (w : writer) | Error.

(** 402-424; the boundary is 32 hexadecimal digits *)
Definition generate_form (m : form) (boundary : bytes) : generated :=
  if m_multipart m then
    match append_fields (m_quote m) 0 (mk_writer boundary [] None) (m_fields m) with Some w => Multipart w | None => Error end
  else UrlEncoded (map (fun f => (f_name f, f_value f)) (m_fields m)).

End Part.
