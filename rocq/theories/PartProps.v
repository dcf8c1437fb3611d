(** C150-C154: multipart bodies and forms. *)

From Coq Require Import List Arith Bool NArith.
From Coq Require String.
Import String.StringSyntax.
From Verif Require Import Bytes Text QuoteModel AuthModel AuthSpec AuthProofs DispoModel PartModel PartSpec PartProofs.
Import ListNotations.

(** * C150 *)

Theorem C150_size_partial : forall fold show comp (comp_new : coding -> comp) compress flush qp s w0 l w contents n,
  new_writer s = Some w0 -> append_all fold show w0 l = Some w -> Forall (honest contents) l -> w_size w = Some n ->
  length (write comp comp_new compress flush qp w contents true) = n.
Proof. exact announced_size. Qed.
Print Assumptions C150_size_partial.

Theorem C150_known : forall fold show s w0 l, new_writer s = Some w0 -> l <> [] ->
  Forall (fun p => uncoded fold p /\ exists n, p_size p = Some n) l ->
  exists w n, append_all fold show w0 l = Some w /\ w_size w = Some n.
Proof. exact known_size. Qed.
Print Assumptions C150_known.

(** The announced size of a file open as text is the number of bytes of the file, but its line ends are translated when it is
    read: [a CR LF b] is announced with 4 bytes and written with 3. *)
Theorem C150_text_refuted : exists file p w n, text_io_payload low guess0 0 None None [] file = Some p /\ app0 BND [p] = Some w /\
  w_size w = Some n /\ length (write0 w (fun _ => text_io_chunks file)) <> n.
Proof. exact text_size_wrong. Qed.
Print Assumptions C150_text_refuted.

(** The size of a memoryview is the number of its items; when an item is not one byte the body is longer than announced. *)
Theorem C150_view_refuted : exists view p w n, bytes_payload low guess0 0 None [] view = p /\ app0 BND [p] = Some w /\
  w_size w = Some n /\ length (write0 w (fun _ => view)) <> n.
Proof. exact view_size_wrong. Qed.
Print Assumptions C150_view_refuted.

(** A writer which was appended to another writer can get more parts; the size of the outer writer stays that of before. *)
Theorem C150_nested_refuted : exists inner inner' outer n,
  app0 BND [abc 0] = Some inner /\ append_payload low num inner (abc 1) = Some inner' /\
  app0 (text "outer") [writer_payload low guess0 2 (text "mixed") BND inner] = Some outer /\ w_size outer = Some n /\
  length (write0 outer (fun _ => [write0 inner' (fun _ => [text "abc"])])) <> n /\
  length (write0 outer (fun _ => [write0 inner (fun _ => [text "abc"])])) = n.
Proof. exact nested_size_wrong. Qed.
Print Assumptions C150_nested_refuted.

Example C150_nonvacuous : exists w, app0 BND [abc 0; abc 1] = Some w /\ w_size w = Some 161 /\
  length (write0 w (fun _ => [text "a"; text "bc"])) = 161.
Proof. eexists. split; [vm_compute; reflexivity|]. split; vm_compute; reflexivity. Qed.

(** * C151 *)

Theorem C151_parts_partial : forall fold show comp (comp_new : coding -> comp) compress flush qp s w0 l w contents,
  new_writer s = Some w0 -> append_all fold show w0 l = Some w ->
  Forall (fun p => uncoded fold p /\ Forall plain_header (with_length fold show p) /\
                   ~ occurs (delimiter s) (block (with_length fold show p) ++ concat (contents (p_id p)))) l ->
  read_body s (write comp comp_new compress flush qp w contents true) =
    Some (map (fun p => (seen (with_length fold show p), concat (contents (p_id p)))) l).
Proof. exact parts_back. Qed.
Print Assumptions C151_parts_partial.

(** The value of a header is written as it is: line ends in it end the head of the part, the rest is read as content. *)
Theorem C151_header_refuted : exists p w hs data, app0 BND [p] = Some w /\ uncoded low p /\
  read_body BND (write0 w (fun _ => [text "abc"])) = Some [(hs, data)] /\ data <> text "abc".
Proof. exact header_splits. Qed.
Print Assumptions C151_header_refuted.

(** Nothing looks for the delimiter in a content: with a boundary which the user gave, one part is read as two. *)
Theorem C151_content_refuted : exists s w0 data p w read, new_writer s = Some w0 /\ p = bytes_payload low guess0 0 None [] (singles data) /\
  append_all low num w0 [p] = Some w /\ read_body s (write0 w (fun _ => [data])) = Some read /\ length read = 2.
Proof. exact content_splits. Qed.
Print Assumptions C151_content_refuted.

Theorem C151_boundary : forall s, rfc_boundary s -> new_writer s = Some (mk_writer s [] None).
Proof. exact boundary_rfc. Qed.
Print Assumptions C151_boundary.

(** Boundaries which RFC 2046 does not allow are accepted: an empty one, one which ends with a space, one which is longer than
    70 characters, one with other characters. *)
Theorem C151_boundary_refuted : (exists w, new_writer [] = Some w) /\ (exists w, new_writer (text "a ") = Some w) /\
  (exists w, new_writer (repeat 97%N 71) = Some w) /\ (exists w, new_writer (text "a@b") = Some w) /\
  ~ rfc_boundary [] /\ ~ rfc_boundary (text "a ") /\ ~ rfc_boundary (repeat 97%N 71) /\ ~ rfc_boundary (text "a@b").
Proof. exact boundary_accepted. Qed.
Print Assumptions C151_boundary_refuted.

Example C151_nonvacuous : exists w, app0 BND [abc 0; abc 1] = Some w /\
  read_body BND (write0 w (fun id => if id =? 0 then [text "a"; text "bc"] else [])) =
    Some [([(text "Content-Type", text "application/octet-stream"); (text "Content-Length", text "3")], text "abc");
          ([(text "Content-Type", text "application/octet-stream"); (text "Content-Length", text "3")], [])].
Proof. eexists. split; vm_compute; reflexivity. Qed.

(** * C152 *)

(** The Content-Type in the headers given to [append] does not replace the default one, it is sent besides it. *)
Theorem C152_type_refuted : exists c w, app0 BND [bytes_payload low guess0 0 None [(text "Content-Type", c)] (singles (text "abc"))] = Some w /\
  read_body BND (write0 w (fun _ => [text "abc"])) =
    Some [([(text "Content-Type", text "application/octet-stream"); (text "Content-Type", c); (text "Content-Length", text "3")], text "abc")].
Proof. exact two_types. Qed.
Print Assumptions C152_type_refuted.

(** A Content-Length which was given stays beside the one which is computed. *)
Theorem C152_length_refuted : exists n w, app0 BND [bytes_payload low guess0 0 None [(text "Content-Length", n)] (singles (text "abc"))] = Some w /\
  n <> text "3" /\ read_body BND (write0 w (fun _ => [text "abc"])) =
    Some [([(text "Content-Type", text "application/octet-stream"); (text "Content-Length", n); (text "Content-Length", text "3")], text "abc")].
Proof. exact two_lengths. Qed.
Print Assumptions C152_length_refuted.

Theorem C152_type_partial : forall fold show guess id ct fn hs size w w', folds fold ->
  Forall (fun p => fold (fst p) <> fold (text "Content-Type")) hs ->
  let p := payload_base fold guess id ct fn hs size in
  append_payload fold show w p = Some w' ->
  exists c h, get fold h (text "Content-Type") = Some [c] /\ (forall x, ct = Some x -> c = x) /\
    exists ce te, w_parts w' = w_parts w ++ [mk_part id (block (items h)) ce te].
Proof. exact one_type. Qed.
Print Assumptions C152_type_partial.

Example C152_nonvacuous : exists w, app0 BND [bytes_payload low guess0 0 (Some (text "image/png")) [(text "X", text "y")] (singles (text "abc"))] = Some w /\
  read_body BND (write0 w (fun _ => [text "abc"])) =
    Some [([(text "Content-Type", text "image/png"); (text "X", text "y"); (text "Content-Length", text "3")], text "abc")].
Proof. eexists. split; vm_compute; reflexivity. Qed.

(** * C153 *)

Theorem C153_chunks : forall comp (comp_new : coding -> comp) compress flush qp chunks1 chunks2, concat chunks1 = concat chunks2 ->
  pw_run comp compress flush qp (pw_new comp comp_new None (Some Base64)) chunks1 =
  pw_run comp compress flush qp (pw_new comp comp_new None (Some Base64)) chunks2.
Proof. intros. apply (base64_any (fun s => s) (fun _ => [])). assumption. Qed.
Print Assumptions C153_chunks.

Theorem C153_base64 : forall comp (comp_new : coding -> comp) compress flush qp ce chunks,
  all_bytes (pw_run comp compress flush qp (pw_new comp comp_new ce None) chunks) ->
  base64 (pw_run comp compress flush qp (pw_new comp comp_new ce None) chunks)
         (pw_run comp compress flush qp (pw_new comp comp_new ce (Some Base64)) chunks).
Proof. intros. rewrite (base64_coded (fun s => s) (fun _ => [])). apply encode_base64. assumption. Qed.
Print Assumptions C153_base64.

(** The encoded text is one line, however long it is; RFC 2045 allows 76 characters. *)
Theorem C153_lines_refuted : exists chunks, let d := pw_run unit (fun _ b => (tt, b)) (fun _ => []) same_bytes (pw_new unit (fun _ => tt) None (Some Base64)) chunks in ~ short_lines d.
Proof. exact long_line. Qed.
Print Assumptions C153_lines_refuted.

Example C153_nonvacuous :
  pw_run unit (fun _ b => (tt, b)) (fun _ => []) same_bytes (pw_new unit (fun _ => tt) None (Some Base64)) [text "a"; []; text "bcd"; text "e"] = text "YWJjZGU=".
Proof. vm_compute. reflexivity. Qed.

(** * C154 *)

Theorem C154_form_partial : forall fold, folds fold -> forall show guess comp (comp_new : coding -> comp) compress flush qp q ops b w,
  ~ In 13%N b -> generate_form fold show guess (filled q ops) b = Multipart w -> Forall plain_or_base64 (map field_of ops) ->
  exists sent, Forall2 (form_part guess show q) (map field_of ops) sent /\
    (Forall (fun hd => Forall plain_header (fst hd) /\ ~ occurs (delimiter b) (block (fst hd) ++ snd hd)) sent ->
     read_body b (write comp comp_new compress flush qp w (form_contents (filled q ops)) true) = Some (map (fun hd => (seen (fst hd), snd hd)) sent)).
Proof. exact form_arrives. Qed.
Print Assumptions C154_form_partial.

Theorem C154_kind : forall fold show guess q ops b,
  (forallb simple ops = true -> generate_form fold show guess (filled q ops) b = UrlEncoded (map (fun f => (f_name f, f_value f)) (map field_of ops))) /\
  (forallb simple ops = false -> exists x, generate_form fold show guess (filled q ops) b = x /\ (x = Error \/ exists w, x = Multipart w)).
Proof. exact form_kind. Qed.
Print Assumptions C154_kind.

(** A number can be a field of a form, and a file too, but not both in the same form. *)
Theorem C154_number_refuted : exists q ops file b l, generate_form low num guess0 (filled q ops) b = UrlEncoded l /\ l <> [] /\
  generate_form low num guess0 (filled q (ops ++ [AddField (text "f") file None None None])) b = Error /\
  exists w, generate_form low num guess0 (filled q [AddField (text "f") file None None None]) b = Multipart w.
Proof. exact number_and_file. Qed.
Print Assumptions C154_number_refuted.

(** The charset of the given content type is sent, but the text is encoded with the encoding of the form. *)
Theorem C154_charset_refuted : exists w h, generate_form low num guess0
    (filled true [AddField (text "t") (VText [233%N]) (Some (text "text/plain; charset=iso-8859-1")) None None]) BND = Multipart w /\
  read_body BND (write0 w (form_contents (filled true [AddField (text "t") (VText [233%N]) (Some (text "text/plain; charset=iso-8859-1")) None None]))) =
    Some [([(text "Content-Type", text "text/plain; charset=iso-8859-1"); (text "Content-Disposition", h); (text "Content-Length", text "2")], [195; 169]%N)].
Proof. exact charset_ignored. Qed.
Print Assumptions C154_charset_refuted.

Example C154_nonvacuous : exists w, generate_form low num guess0 (filled true [AddField (text "a") (VText (text "x")) None None None; AddField (text "f") (VFile (Some (text "n")) (text "y")) None None (Some (text "base64"))]) BND = Multipart w /\
  read_body BND (write0 w (form_contents (filled true [AddField (text "a") (VText (text "x")) None None None; AddField (text "f") (VFile (Some (text "n")) (text "y")) None None (Some (text "base64"))]))) =
    Some [([(text "Content-Type", text "text/plain; charset=utf-8"); (text "Content-Disposition", text "form-data; name=" ++ [34%N] ++ text "a" ++ [34%N]); (text "Content-Length", text "1")], text "x");
          ([(text "Content-Type", text "application/octet-stream"); (text "Content-Transfer-Encoding", text "base64");
            (text "Content-Disposition", text "form-data; name=" ++ [34%N] ++ text "f" ++ [34%N] ++ text "; filename=" ++ [34%N] ++ text "n" ++ [34%N])], text "eQ==")].
Proof. eexists. split; vm_compute; reflexivity. Qed.
