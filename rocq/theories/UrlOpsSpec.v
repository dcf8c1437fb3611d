(** C109 - C114: urls read with RFC 3986, queries as a list of pairs. *)

From Coq Require Import List Arith Bool NArith ZArith String Permutation.
From Verif Require Import Bytes Text QuoteModel QuoteSpec UrlModel UrlSpec MultiModel MultiSpec UrlOpsModel.
Import ListNotations.
Local Open Scope string_scope.
Local Open Scope list_scope.

(** * Reading an url: RFC 3986, appendix B and 3.2 *)

(** The text before the first [c], and the text after it. *)
Fixpoint cut (c : N) (l : str) : str * option str :=
  match l with
  | [] => ([], None)
  | x :: l' => if N.eqb x c then ([], Some l') else let '(a, b) := cut c l' in (x :: a, b)
  end.

Record shown := mk_shown {
  s_scheme : option str; s_user : option (str * option str); s_host : option str; s_port : option str;
  s_path : str; s_query : option str; s_fragment : option str }.

(** [ user information @ ] host [ : port ]; a host in brackets has colons. *)
Definition read_host (l : str) : str * option str :=
  match l with
  | 91%N :: _ => match cut 93 l with
                 | (a, Some (58%N :: p)) => (a ++ [93%N], Some p)
                 | (a, Some _) => (a ++ [93%N], None)
                 | (a, None) => (a, None)
                 end
  | _ => cut 58 l
  end.
Definition read_authority (l : str) : option (str * option str) * (str * option str) :=
  match cut 64 l with
  | (a, Some h) => (Some (cut 58 a), read_host h)
  | (_, None) => (None, read_host l)
  end.

Definition read_url (l : str) : shown :=
  let '(l, f) := cut 35 l in
  let '(l, q) := cut 63 l in
  let '(s, l) := match cut 58 l with
                 | (a, Some b) => if match a with [] => true | _ => existsb (N.eqb 47) a end then (None, l) else (Some a, b)
                 | _ => (None, l)
                 end in
  match l with
  | 47%N :: 47%N :: r =>
      let '(a, p) := match cut 47 r with (a, Some p) => (a, 47%N :: p) | (a, None) => (a, []) end in
      let '(u, (h, o)) := read_authority a in mk_shown s u (Some h) o p q f
  | _ => mk_shown s None None None l q f
  end.

(** What is written of a part: the given text, or a text which decodes (RFC 3986, 2.1) to the octets of the given one. *)
Definition spells (p : part) (t : str) : Prop := match p with Dec s => rfc_decode t = Some (utf8 s) | Enc s => t = s end.
Definition spells_opt (p : option part) (t : str) : Prop := match p with None => t = [] | Some p => spells p t end.

Definition without (bad : string) (t : str) : Prop := Forall (fun c => ~ In c (chars bad)) t.
Definition part_fits (bad : string) (p : option part) : Prop :=
  match p with None => True | Some (Dec s) => Forall scalar s | Some (Enc s) => without bad s end.

Definition scheme_fits (s : str) : Prop := s <> [] /\ without ":/?#" s.
Definition host_fits (t : str) : Prop :=
  (exists i, t = [91%N] ++ i ++ [93%N] /\ without "]/?#@" i) \/ (without ":/?#@[" t).

(** The text of a host: an address between brackets, or labels with dots between them and maybe one at the end. A label is written as
    it was given; one which was given decoded and is not ascii is written in idna. *)
Definition label (idna : str -> option str) (p : part) (t : str) : Prop :=
  match p with Enc s => t = s | Dec s => if is_ascii s then t = s else idna s = Some t end.
Definition label_opt (idna : str -> option str) (p : option part) (l : list str) : Prop :=
  match p with None => l = [] | Some p => exists t, l = [t] /\ label idna p t end.
Fixpoint dotted (l : list str) : str :=
  match l with [] => [] | [t] => t | t :: l' => t ++ [46%N] ++ dotted l' end.
Inductive host_shown (idna : str -> option str) : host_info -> str -> Prop :=
  | shown_v6 : forall m t, label idna m t -> host_shown idna (mk_host true false (Some m) None None) ([91%N] ++ t ++ [93%N])
  | shown_name : forall dot m sub top t before after, label idna m t -> label_opt idna sub before -> label_opt idna top after ->
      host_shown idna (mk_host false dot (Some m) sub top) (dotted (before ++ [t] ++ after) ++ (if dot then [46%N] else [])).

(** A form (application/x-www-form-urlencoded): '+' is a space; the items are separated by '&', key and value by '='. *)
Definition form_decode (t : str) : option bytes := rfc_decode (map (fun c => if N.eqb c 43 then 32%N else c) t).
Definition form_text (l : list (str * str)) : str :=
  match l with
  | [] => []
  | (k, v) :: l' => k ++ [61%N] ++ v ++ flat_map (fun p => [38%N] ++ fst p ++ [61%N] ++ snd p) l'
  end.
Definition form_spells (item raw : str * str) : Prop :=
  form_decode (fst raw) = Some (utf8 (fst item)) /\ form_decode (snd raw) = Some (utf8 (snd item)) /\
  without "&#" (fst raw) /\ without "&#" (snd raw) /\ (~ In 61%N (fst item) -> ~ In 61%N (fst raw)).

(** All pairs of key and value of a dictionary whose keys are strings. *)
Definition string_pairs (d : dict qkey str) (l : list (str * str)) : Prop :=
  flat_map (fun kv => map (fun v => (fst kv, v)) (snd kv)) d = map (fun p => (KStr (fst p), snd p)) l.
Definition query_fits (d : dict qkey str) : Prop :=
  NoDup (map fst d) /\ forall k vs, In (k, vs) d -> match k with KStr s => Forall scalar s | KInt _ => False end /\ vs <> [] /\ Forall (Forall scalar) vs.

(** The components which are read are those of the url. *)
Record says (u : url) (scheme_text host_text : str) (r : shown) : Prop := {
  says_scheme : s_scheme r = Some scheme_text;
  says_user : match user u, s_user r with
              | None, None => True
              | Some i, Some (a, Some b) => spells_opt (u_name i) a /\ spells_opt (u_password i) b
              | _, _ => False
              end;
  says_host : s_host r = Some host_text;
  says_port : match port u, s_port r with None, None => True | Some n, Some t => Forall (fun c => is_digit c = true) t /\ undec t = n | _, _ => False end;
  says_path : match parsed_path u with
              | None => s_path r = [47%N]
              | Some parts => exists segments, s_path r = flat_map (cons 47%N) segments /\
                  Forall2 (fun g p => rfc_decode g = Some (utf8 p)) segments parts /\
                  (Forall (fun p => ~ In 47%N p) parts -> Forall (fun g => ~ In 47%N g) segments)
              end;
  says_query : match query u with
               | Some (Some ((_ :: _) as d)) => exists items raws pairs, s_query r = Some (form_text raws) /\
                   Forall2 form_spells items raws /\ Permutation items pairs /\ string_pairs d pairs
               | _ => s_query r = None
               end;
  says_fragment : match fragment u, s_fragment r with None, None => True | Some f, Some t => spells f t | _, _ => False end }.

(** The strings can be carried by utf-8; the parts which were given encoded have no delimiters. *)
Record fits (u : url) : Prop := {
  fits_user : match user u with None => True | Some i => part_fits ":/?#@" (u_name i) /\ part_fits "/?#@" (u_password i) end;
  fits_path : match parsed_path u with None => True | Some parts => parts <> [] /\ Forall (Forall scalar) parts end;
  fits_query : match query u with Some (Some d) => query_fits d | _ => True end;
  fits_fragment : part_fits "" (fragment u) }.

(** * Resolving a reference: RFC 3986, 5.2.2, for references whose path is empty or begins with '/' *)

Definition resolve (base ref : url) : url :=
  match scheme ref with
  | Some _ => ref
  | None =>
      if has_authority ref then mk_url (scheme base) (user ref) (host ref) (port ref) (path ref) (query ref) (fragment ref)
      else match parsed_path ref with
           | None => mk_url (scheme base) (user base) (host base) (port base) (path base)
                       (match query ref with None => query base | q => q end) (fragment ref)
           | Some _ => mk_url (scheme base) (user base) (host base) (port base) (path ref) (query ref) (fragment ref)
           end
  end.

(** The path is one a parsed url can have (C32): not empty, no dot segments. *)
Definition normal (u : url) : Prop := match parsed_path u with None => True | Some parts => parts <> [] /\ Forall plain_segment parts end.

(** The components as the attributes show them. *)
Definition without_query (u : url) : url := mk_url (scheme u) (user u) (host u) (port u) (path u) None (fragment u).

(** * Queries: the texts of the values, in order *)

Section Query.
Variables (float date : Type) (int_text : Z -> str) (float_text : float -> str) (isinf isnan : float -> bool) (isoformat : date -> str).

(** The texts, up to the first value which can not be written. *)
Fixpoint texts (v : qval float date) : list str * option qerror :=
  match v with
  | VStr _ _ s => ([s], None)
  | VBool _ _ true => ([chars "true"], None)
  | VBool _ _ false => ([chars "false"], None)
  | VInt _ _ z => ([int_text z], None)
  | VNone _ _ => ([chars "null"], None)
  | VDate _ _ d => ([isoformat d], None)
  | VFloat _ _ f => if isinf f || isnan f then ([], Some ValueError) else ([float_text f], None)
  | VOther _ _ => ([], Some TypeError)
  | VList _ _ l => (fix go l := match l with
                            | [] => ([], None)
                            | x :: l' => match texts x with
                                         | (a, None) => let '(b, e) := go l' in (a ++ b, e)
                                         | r => r
                                         end
                            end) l
  end.

Fixpoint pair_texts (l : list (qkey * qval float date)) : list (qkey * str) * option qerror :=
  match l with
  | [] => ([], None)
  | (k, v) :: l' =>
      match texts v with
      | (a, None) => let '(b, e) := pair_texts l' in (map (pair k) a ++ b, e)
      | (a, e) => (map (pair k) a, e)
      end
  end.
End Query.

(** A pair of an empty key and an empty value is not written. *)
Definition written (p : qkey * str) : bool :=
  match p with (KStr [], []) => false | (KInt z, []) => negb (Z.eqb z 0) | _ => true end.

(** The values of each key. *)
Definition values (q : option (dict qkey str)) (k : qkey) : list str :=
  match q with
  | None => []
  | Some d => flat_map snd (filter (fun kv => qkey_eqb (fst kv) k) d)
  end.

(** In the order of their first appearance, each once. *)
Fixpoint once (seen l : list str) : list str :=
  match l with
  | [] => []
  | x :: l' => if existsb (beqb x) seen then once seen l' else x :: once (seen ++ [x]) l'
  end.
Definition given (k : qkey) (l : list (qkey * str)) : list str :=
  map snd (filter (fun p => qkey_eqb (fst p) k && written p) l).

(** * Replacing components *)

(** A call of a [with_...] method. *)
Inductive setter :=
| SetScheme (s : option str) | SetUser (s : option str) | SetPassword (s : option str) | SetHost (h : host_info) | SetPort (n : option N)
| SetFragment (s : option str).

Definition call (u : url) (s : setter) : option url :=
  match s with
  | SetScheme s => with_scheme u s
  | SetUser s => with_user u s
  | SetPassword s => with_password u s
  | SetHost h => with_host u h
  | SetPort n => with_port u n
  | SetFragment s => Some (with_fragment u s)
  end.
Fixpoint calls (u : url) (l : list setter) : option url :=
  match l with [] => Some u | s :: l' => match call u s with Some v => calls v l' | None => None end end.

(** The value of the last call which [f] picks, else [d]. *)
Fixpoint last_given {A} (f : setter -> option A) (d : A) (l : list setter) : A :=
  match l with [] => d | s :: l' => last_given f (match f s with Some x => x | None => d end) l' end.

(** An empty text is none. *)
Definition some_text (s : option str) : option str := match s with Some (_ :: _) => s | _ => None end.
