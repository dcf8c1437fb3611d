(** Model of whole urls: /repo/scarletio/web_common/url/url.py (writing, comparing, joining, the [with_...] methods, names and
    parents), [normalize_query] of /repo/scarletio/web_common/url/url_query.py:76-311 and the parts
    (/repo/scarletio/web_common/url/url_part_base.py, url_part_base_parsed.py, url_user_info.py, url_fragment.py, url_host_part.py).

    Not modelled: the regular expression which takes a text apart (constants.py:6-92; the operations start from the fields of an
    url), caching (the parts are immutable but for their caches; the dictionary of a query can be changed by its holder), and types
    other than those which are documented. ['idna'], [str(int)], [str(float)] and [DateTime.isoformat] are arbitrary functions. *)

From Coq Require Import List Arith Bool NArith ZArith String.
From Verif Require Import Bytes Text QuoteModel UrlModel MultiModel.
Import ListNotations.

Section Ops.
(** [value.encode('idna')], [.decode('idna')]; [None]: raises. *)
Variables (idna unidna : str -> option str).

(** url_part_base.py:101-140: made of the decoded or of the encoded value. *)
Inductive part := Dec (s : str) | Enc (s : str).

(** url_part_base.py:143-193, with [_encode] and [_decode]. [None]: raises. *)
Definition encoded_of (enc : str -> option str) (p : part) : option str := match p with Dec s => enc s | Enc s => Some s end.
Definition decoded_of (dec : str -> option str) (p : part) : option str := match p with Dec s => Some s | Enc s => dec s end.

(** url_part_base.py:67-98 (users), url_fragment.py:28-37, url_host_part.py:25-46 *)
Definition user_enc : str -> option str := quote [] [] false.
Definition plain_dec : str -> option str := unquote None false.
Definition fragment_enc : str -> option str := quote (text "?/:@#") [] false.
Definition is_ascii (s : str) : bool := forallb (fun c => N.ltb c 128) s.
Definition host_enc (s : str) : option str := if is_ascii s then Some s else idna s.
Definition host_dec (s : str) : option str := if is_ascii s then unidna s else Some s.

(** url_user_info.py:8-20 *)
Record user_info := mk_user { u_name : option part; u_password : option part }.

(** url_host_info.py:13-31; [h_v6]: HOST_MASK_IP_V6, [h_dot]: HOST_FLAG_UNAMBIGUOUS *)
Record host_info := mk_host { h_v6 : bool; h_dot : bool; h_main : option part; h_sub : option part; h_top : option part }.

(** The keys a dictionary of a query can get: [normalize_query] does not look at their type. *)
Inductive qkey := KStr (s : str) | KInt (z : Z).
Definition qkey_eqb (a b : qkey) : bool :=
  match a, b with KStr x, KStr y => beqb x y | KInt x, KInt y => Z.eqb x y | _, _ => false end.
Notation qdict := (dict qkey str).
Definition q_set (d : qdict) (k : qkey) (v : str) : qdict := set_item qkey qkey str (fun k => k) qkey_eqb beqb d k v.

(** url.py:96-126; the parsed path and the parsed query can be [None]. *)
Record url := mk_url {
  scheme : option str; user : option user_info; host : option host_info; port : option N;
  path : option (option (list segment)); query : option (option qdict); fragment : option part }.

(** * Writing *)

Definition bind {A B} (o : option A) (f : A -> option B) : option B := match o with Some a => f a | None => None end.

(** An optional part: [None] is an error, [Some None] is [None]. *)
Definition opt_part (e : part -> option str) (p : option part) : option (option str) :=
  match p with None => Some None | Some p => option_map Some (e p) end.
Definition or_empty (s : option str) : str := match s with Some s => s | None => [] end.

(** url.py:391-442 *)
Definition build_host (e : part -> option str) (h : host_info) : option str :=
  bind (opt_part e (h_main h)) (fun main => bind (opt_part e (h_sub h)) (fun sub => bind (opt_part e (h_top h)) (fun top =>
    Some ((match sub with Some s => s ++ [46%N] | None => [] end)
          ++ (match main with Some m => if h_v6 h then [91%N] ++ m ++ [93%N] else m | None => [] end)
          ++ (match top with Some t => 46%N :: t | None => [] end)
          ++ (if h_dot h then [46%N] else []))))).

(** url.py:318-334 *)
Definition build_user (e : part -> option str) (u : user_info) : option str :=
  bind (opt_part e (u_name u)) (fun name => bind (opt_part e (u_password u)) (fun password =>
    Some (or_empty name ++ [58%N] ++ or_empty password ++ [64%N]))).

(** [sorted(keys)]; strings are compared by their code points. *)
Fixpoint str_lt (a b : str) : bool :=
  match a, b with
  | _, [] => false
  | [], _ :: _ => true
  | x :: a', y :: b' => N.ltb x y || (N.eqb x y && str_lt a' b')
  end.
Fixpoint insert_key (k : str) (l : list str) : list str :=
  match l with [] => [k] | x :: l' => if str_lt k x then k :: l else x :: insert_key k l' end.
Definition sort_keys (l : list str) : list str := fold_right insert_key [] l.

Fixpoint key_strings (d : qdict) : option (list str) :=
  match d with
  | [] => Some []
  | (KStr s, _) :: d' => option_map (cons s) (key_strings d')
  | (KInt _, _) :: _ => None
  end.

(** The items in the order of url_query.py:294-300; [None]: TypeError of a key which is no string. *)
Definition q_items (d : qdict) : option (list (str * str)) :=
  option_map (fun ks => flat_map (fun k => map (fun v => (k, v)) (match get qkey qkey str (fun k => k) qkey_eqb d (KStr k) with Some vs => vs | None => [] end)) (sort_keys ks))
    (key_strings d).

(** url_query.py:291-311 with [encoded = False] *)
Fixpoint serialize_plain (first : bool) (items : list (str * str)) : str :=
  match items with
  | [] => []
  | (k, v) :: items' => (if first then [] else [38%N]) ++ k ++ [61%N] ++ v ++ serialize_plain false items'
  end.

(** url_query.py:272-311; [Some None] is [None]. *)
Definition serialize (encoded : bool) (q : option qdict) : option (option str) :=
  match q with
  | None | Some [] => Some None
  | Some d => bind (q_items d) (fun items => if encoded then option_map Some (QuoteModel.serialize_query true items) else Some (Some (serialize_plain true items)))
  end.

(** url_path.py:129-146 *)
Definition path_text (encoded : bool) (p : option (list segment)) : option (option str) :=
  match p with None => Some None | Some parts => option_map Some (serialize_path encoded parts) end.

Definition part_text (encoded : bool) (enc dec : str -> option str) : part -> option str :=
  if encoded then encoded_of enc else decoded_of dec.

(** Whether url.py:313-342 writes an authority. *)
Definition has_authority (u : url) : bool :=
  match user u, host u, port u with None, None, None => false | _, _, _ => true end.

(** The pieces of url.py:310-342, without the slashes. *)
Definition authority_text (encoded : bool) (u : url) : option str :=
  bind (match user u with None => Some [] | Some i => build_user (part_text encoded user_enc plain_dec) i end) (fun a =>
  bind (match host u with None => Some [] | Some h => build_host (part_text encoded host_enc host_dec) h end) (fun b =>
    Some (a ++ b ++ match port u with None => [] | Some n => 58%N :: Text.dec n end))).

(** url.py:293-388. [built] has one member, '/', only if there is nothing but a path and it is '/'; it also is a lone '/' if a path
    of one empty part was written. *)
Definition build_value (encoded : bool) (u : url) : option str :=
  let a := match scheme u with Some s => s ++ [58%N] | None => [] end in
  bind (if has_authority u then option_map (fun t => (match scheme u with Some _ => [47; 47]%N | None => [] end) ++ t) (authority_text encoded u) else Some []) (fun b =>
  bind (match path u with None => Some None | Some p => path_text encoded p end) (fun p =>
  let p := match p with None => [47%N] | Some p => p end in
  bind (match query u with None => Some None | Some q => serialize encoded q end) (fun q =>
  bind (opt_part (part_text encoded fragment_enc plain_dec) (fragment u)) (fun f =>
  let alone := match scheme u with Some _ => false | None => true end && negb (has_authority u)
               && match q, f with None, None => true | _, _ => false end in
  if alone && beqb p [47%N] then Some []
  else Some (a ++ b ++ p ++ (match q with Some q => 63%N :: q | None => [] end) ++ (match f with Some f => 35%N :: f | None => [] end)))))).

Definition value_encoded := build_value true.
Definition value_decoded := build_value false.

(** * Comparing *)

(** url.py:460-490 *)
Definition truth (u : url) : bool :=
  match fragment u, host u, path u, port u, query u, scheme u, user u with
  | None, None, None, None, None, None, None => false
  | _, _, _, _, _, _, _ => true
  end.

(** url.py:455-457, 493-538. [None]: raises. *)
Definition compare_by (f : str -> str -> bool) (a b : url) : option bool :=
  bind (value_encoded a) (fun x => bind (value_encoded b) (fun y => Some (f x y))).
Definition str_le (a b : str) : bool := str_lt a b || beqb a b.
Definition url_eq := compare_by beqb.
Definition url_ne := compare_by (fun a b => negb (beqb a b)).
Definition url_lt := compare_by str_lt.
Definition url_le := compare_by str_le.
Definition url_gt := compare_by (fun a b => str_lt b a).
Definition url_ge := compare_by (fun a b => str_le b a).
(** [hash] of a string is a function of the string. *)
Definition url_hash (h : str -> N) (a : url) : option N := option_map h (value_encoded a).

(** * Deriving *)

Definition parsed_path (u : url) : option (list segment) := match path u with None => None | Some p => p end.

Definition with_path (u : url) (p : option (list segment)) : url :=
  mk_url (scheme u) (user u) (host u) (port u) (option_map Some p) (query u) (fragment u).

(** __truediv__, url.py:541-571 *)
Definition div (u : url) (name : segment) : url :=
  with_path u (normalize_path_parts (match parsed_path u with None => [name] | Some parts => parts ++ [name] end)).

(** parent, url.py:1038-1069. A path object whose parsed value is [None] gives [None] as well. *)
Definition parent (u : url) : url :=
  mk_url (scheme u) (user u) (host u) (port u)
    (match parsed_path u with None => None | Some parts => if Nat.eqb (List.length parts) 1 then None else Some (Some (removelast parts)) end)
    None (fragment u).

(** name, url.py:1089-1104 *)
Definition name (u : url) : segment := match parsed_path u with None => [] | Some parts => last parts [] end.

(** with_name, url.py:1501-1564 *)
Definition with_name (u : url) (n : segment) : url :=
  with_path u (normalize_path_parts (match parsed_path u with
                                     | None => [n]
                                     | Some parts => if Nat.leb (List.length parts) 1 then [n] else removelast parts ++ [n]
                                     end)).

(** join, url.py:1567-1630 *)
Definition join (u other : url) : url :=
  let parts := match parsed_path u, parsed_path other with
               | None, o => o
               | Some s, None => Some s
               | Some s, Some o => normalize_path_parts (s ++ o)
               end in
  mk_url (scheme u) (user u) (host u) (port u) (option_map Some parts) (query other) (fragment other).

(** origin, relative: url.py:656-715; [None]: ValueError *)
Definition absolute (u : url) : bool := match host u with Some _ => true | None => false end.
Definition origin (u : url) : option url :=
  if absolute u then Some (mk_url (scheme u) None (host u) (port u) None None None) else None.
Definition relative (u : url) : option url :=
  if absolute u then Some (mk_url None None None None (path u) (query u) (fragment u)) else None.

Definition none_if_empty (s : option str) : option str := match s with Some [] => None | _ => s end.

(** with_scheme, url.py:1107-1158 *)
Definition with_scheme (u : url) (s : option str) : option url :=
  if absolute u then Some (mk_url (none_if_empty s) (user u) (host u) (port u) (path u) (query u) (fragment u)) else None.

(** user, password: url.py:744-783; [None]: decoding raises *)
Definition user_name (u : url) : option (option str) := match user u with None => Some None | Some i => opt_part (decoded_of plain_dec) (u_name i) end.
Definition user_password (u : url) : option (option str) := match user u with None => Some None | Some i => opt_part (decoded_of plain_dec) (u_password i) end.

Definition make_user (n p : option str) : option user_info :=
  match n, p with None, None => None | _, _ => Some (mk_user (option_map Dec n) (option_map Dec p)) end.

(** with_user, url.py:1161-1219 *)
Definition with_user (u : url) (n : option str) : option url :=
  bind (user_password u) (fun p =>
    if absolute u then Some (mk_url (scheme u) (make_user (none_if_empty n) p) (host u) (port u) (path u) (query u) (fragment u)) else None).

(** with_password, url.py:1222-1283 *)
Definition with_password (u : url) (p : option str) : option url :=
  bind (user_name u) (fun n =>
    if absolute u then Some (mk_url (scheme u) (make_user n (none_if_empty p)) (host u) (port u) (path u) (query u) (fragment u)) else None).

(** with_port, url.py:1349-1403, of a port which is not negative *)
Definition with_port (u : url) (n : option N) : option url :=
  if absolute u then Some (mk_url (scheme u) (user u) (host u) n (path u) (query u) (fragment u)) else None.

(** with_host, url.py:1286-1346, after the regular expression took the host apart *)
Definition with_host (u : url) (h : host_info) : option url :=
  if absolute u then Some (mk_url (scheme u) (user u) (Some h) (port u) (path u) (query u) (fragment u)) else None.

(** with_fragment, url.py:1451-1498 *)
Definition with_fragment (u : url) (f : option str) : url :=
  mk_url (scheme u) (user u) (host u) (port u) (path u) (query u) (option_map Dec (none_if_empty f)).

(** port, url.py:876-892; constants.py:97-102 *)
Definition default_port (s : str) : option N :=
  if beqb s (text "http") || beqb s (text "ws") then Some 80%N
  else if beqb s (text "https") || beqb s (text "wss") then Some 443%N else None.
Definition port_of (u : url) : option N :=
  match port u with Some n => Some n | None => match scheme u with Some s => default_port s | None => None end end.

(** is_default_port, url.py:585-608 *)
Definition is_default_port (u : url) : bool :=
  match scheme u with
  | None => false
  | Some s =>
      match default_port s with
      | None => false
      | Some d => match (match port u with Some n => Some n | None => default_port s end) with None => false | Some n => N.eqb d n end
      end
  end.

(** * Queries *)

Variables (float date : Type) (int_text : Z -> str) (float_text : float -> str) (isinf isnan : float -> bool) (isoformat : date -> str).

(** The types url_query.py:199-226 tells apart. *)
Inductive qval :=
| VStr (s : str) | VBool (b : bool) | VInt (z : Z) | VNone | VDate (d : date) | VFloat (f : float) | VList (l : list qval) | VOther.

Inductive qerror := ValueError | TypeError.

Definition q_store (q : option qdict) (k : qkey) (v : str) : option qdict :=
  if (match k with KStr [] => true | KInt z => Z.eqb z 0 | _ => false end) && (match v with [] => true | _ => false end) then q
  else Some (q_set (match q with None => [] | Some d => d end) k v).

(** url_query.py:175-239, 242-269 *)
Fixpoint normalize_item (q : option qdict) (k : qkey) (v : qval) {struct v} : option qdict + qerror :=
  match v with
  | VStr s => inl (q_store q k s)
  | VBool b => inl (q_store q k (if b then text "true" else text "false"))
  | VInt z => inl (q_store q k (int_text z))
  | VNone => inl (q_store q k (text "null"))
  | VDate d => inl (q_store q k (isoformat d))
  | VFloat f => if isinf f then inr ValueError else if isnan f then inr ValueError else inl (q_store q k (float_text f))
  | VList l =>
      (fix go q l := match l with
                     | [] => inl q
                     | x :: l' => match normalize_item q k x with inl q' => go q' l' | inr e => inr e end
                     end) q l
  | VOther => inr TypeError
  end.

(** url_query.py:121-172; a dictionary and a list of pairs alike. *)
Fixpoint normalize_items (q : option qdict) (l : list (qkey * qval)) : option qdict + qerror :=
  match l with
  | [] => inl q
  | (k, v) :: l' => match normalize_item q k v with inl q' => normalize_items q' l' | inr e => inr e end
  end.

(** with_query of pairs, url.py:1406-1448 *)
Definition with_query (u : url) (l : list (qkey * qval)) : url + qerror :=
  match normalize_items None l with
  | inl q => inl (mk_url (scheme u) (user u) (host u) (port u) (path u) (option_map Some q) (fragment u))
  | inr e => inr e
  end.

(** [query.extend(other)] of two multi value dictionaries: multi_value_dictionary.py:211-231 *)
Definition pairs (d : qdict) : list (qkey * str) := flat_map (fun kv => map (fun v => (fst kv, v)) (snd kv)) d.

(** extend_query, url.py:1633-1695 *)
Definition extend_query (u : url) (l : list (qkey * qval)) : url + qerror :=
  match normalize_items None l with
  | inl o =>
      let s := match query u with None => None | Some q => q end in
      let q := match o, s with
               | None, s => s
               | Some o, None => Some o
               | Some o, Some s => Some (fold_left (fun d kv => q_set d (fst kv) (snd kv)) (pairs o) s)
               end in
      inl (mk_url (scheme u) (user u) (host u) (port u) (path u) (option_map Some q) (fragment u))
  | inr e => inr e
  end.
End Ops.
