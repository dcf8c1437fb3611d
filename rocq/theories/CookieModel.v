(** Model of the cookie jar: /repo/scarletio/web_common/cookiejar.py:105-429.

    Texts are lists of code points. Times are milliseconds of [LOOP_TIME()], read once by an operation. Of a url the raw host, the path and whether its scheme is
    secure are kept. [int] of max-age, [parse_cookie_date] and [is_ip_address] are parameters; the names of the cookies are those of their morsels. Not here:
    pickling, morsels which are added twice. *)

From Coq Require Import List Arith Bool NArith ZArith.
From Verif Require Import Bytes Text.
Import ListNotations.

Definition str := list N.

Record url := { u_host : option str; u_path : str; u_secure : bool }.
(** A Morsel; [m_domain] is [None] after [del cookie['domain']]. *)
Record morsel := { m_value : str; m_domain : option str; m_path : str; m_secure : bool; m_max_age : str; m_expires : str }.

Definition ends_with (s t : str) : bool := starts_with (rev s) (rev t).

(** * Dictionaries *)
Section Assoc.
Context {K V : Type}.
Variable eqb : K -> K -> bool.
Fixpoint aget (k : K) (l : list (K * V)) : option V :=
  match l with [] => None | (k', v) :: l' => if eqb k' k then Some v else aget k l' end.
Fixpoint aset (k : K) (v : V) (l : list (K * V)) : list (K * V) :=
  match l with [] => [(k, v)] | (k', v') :: l' => if eqb k' k then (k', v) :: l' else (k', v') :: aset k v l' end.
Definition adel (k : K) (l : list (K * V)) : list (K * V) := filter (fun e => negb (eqb (fst e) k)) l.
End Assoc.

Definition pair_eqb (a b : str * str) : bool := beqb (fst a) (fst b) && beqb (snd a) (snd b).

Record jar := {
  cookies : list (str * list (str * morsel));   (* defaultdict(SimpleCookie) *)
  host_only : list (str * str);
  unsafe : bool;
  next_expiration : Z;
  expirations : list ((str * str) * Z)
}.

Definition ceil (t : Z) : Z := (1000 * ((t + 999) / 1000))%Z.
Definition max_time : Z := 2051215261000.

(** :190-203 *)
Definition new_jar (now : Z) (unsafe : bool) : jar := {| cookies := []; host_only := []; unsafe := unsafe; next_expiration := ceil now; expirations := [] |}.
(** :223-230 *)
Definition clear (now : Z) (j : jar) : jar := {| cookies := []; host_only := []; unsafe := unsafe j; next_expiration := ceil now; expirations := [] |}.

Definition of_domain (d : str) (cs : list (str * list (str * morsel))) : list (str * morsel) := match aget beqb d cs with Some l => l | None => [] end.
Definition put (d n : str) (m : morsel) (cs : list (str * list (str * morsel))) := aset beqb d (aset beqb n m (of_domain d cs)) cs.
Definition pop (d n : str) (cs : list (str * list (str * morsel))) := aset beqb d (adel beqb n (of_domain d cs)) cs.

(** _do_expiration, :254-281 *)
Definition expired (now : Z) (e : (str * str) * Z) : bool := (snd e <? now)%Z.
Definition do_expiration (now : Z) (j : jar) : jar :=
  if (now <? next_expiration j)%Z then j
  else match expirations j with
       | [] => j
       | es =>
           let gone := filter (expired now) es in
           let rest := filter (fun e => negb (expired now e)) es in
           {| cookies := fold_left (fun cs e => pop (fst (fst e)) (snd (fst e)) cs) gone (cookies j);
              host_only := filter (fun k => negb (existsb (fun e => pair_eqb (fst e) k) gone)) (host_only j);
              unsafe := unsafe j;
              next_expiration := ceil (fold_left (fun n e => Z.min n (snd e)) rest max_time);
              expirations := rest |}
       end.

(** _expire_cookie, :283-297 *)
Definition expire (when : Z) (d n : str) (j : jar) : jar :=
  {| cookies := cookies j; host_only := host_only j; unsafe := unsafe j; next_expiration := Z.min (next_expiration j) when;
     expirations := aset pair_eqb (d, n) when (expirations j) |}.

Section External.
Variable is_ip : str -> bool.
Variable parse_int : str -> option Z.
(** [None]: ValueError; [Some None]: no date *)
Variable parse_date : str -> option (option Z).

(** do_domains_match, :105-131; [domain] is not empty *)
Definition do_domains_match (domain host : str) : bool :=
  if beqb host domain then true
  else if negb (ends_with domain host) then false
  else if negb (ends_with [46%N] (firstn (length host - length domain) host)) then false
  else negb (is_ip host).

(** do_paths_match, :134-168 *)
Definition do_paths_match (request cookie : str) : bool :=
  let request := if starts_with [47%N] request then request else [47%N] in
  if beqb request cookie then true
  else if negb (starts_with cookie request) then false
  else if ends_with [47%N] cookie then true
  else if length request <=? length cookie then false
  else match nth_error request (length cookie) with Some c => N.eqb c 47 | None => false end.

Definition host_is_ip (h : option str) : bool := match h with None => false | Some h => is_ip h end.

(** The index of the last slash *)
Fixpoint rfind_slash (l : str) : nat :=
  match l with [] => 0 | c :: l' => if existsb (N.eqb 47) l' then S (rfind_slash l') else 0 end.
(** :346-351 *)
Definition default_path (p : str) : str :=
  if starts_with [47%N] p then 47%N :: firstn (rfind_slash p - 1) (skipn 1 p) else [47%N].

Definition with_domain (m : morsel) (d : option str) : morsel :=
  {| m_value := m_value m; m_domain := d; m_path := m_path m; m_secure := m_secure m; m_max_age := m_max_age m; m_expires := m_expires m |}.
Definition with_path (m : morsel) (p : str) : morsel :=
  {| m_value := m_value m; m_domain := m_domain m; m_path := p; m_secure := m_secure m; m_max_age := m_max_age m; m_expires := m_expires m |}.
Definition with_max_age (m : morsel) (a : str) : morsel :=
  {| m_value := m_value m; m_domain := m_domain m; m_path := m_path m; m_secure := m_secure m; m_max_age := a; m_expires := m_expires m |}.
Definition with_expires (m : morsel) (e : str) : morsel :=
  {| m_value := m_value m; m_domain := m_domain m; m_path := m_path m; m_secure := m_secure m; m_max_age := m_max_age m; m_expires := e |}.

Definition add_host_only (k : str * str) (j : jar) : jar :=
  {| cookies := cookies j; host_only := k :: host_only j; unsafe := unsafe j; next_expiration := next_expiration j; expirations := expirations j |}.
Definition store (d n : str) (m : morsel) (j : jar) : jar :=
  {| cookies := put d n m (cookies j); host_only := host_only j; unsafe := unsafe j; next_expiration := next_expiration j; expirations := expirations j |}.

Definition attribute (m : morsel) : str := match m_domain m with Some d => d | None => [] end.

(** :343-353 *)
Definition set_path (u : url) (m : morsel) : morsel := if starts_with [47%N] (m_path m) then m else with_path m (default_path (u_path u)).
(** :355-370; [false]: an exception *)
Definition set_lifetime (now : Z) (d n : str) (m : morsel) (j : jar) : morsel * jar * bool :=
  match m_max_age m with
  | _ :: _ => match parse_int (m_max_age m) with Some s => (m, expire (now + 1000 * s) d n j, true) | None => (with_max_age m [], j, true) end
  | [] => match parse_date (m_expires m) with
          | None => (m, j, false)
          | Some None => (with_expires m [], j, true)
          | Some (Some t) => (m, expire t d n j, true)
          end
  end.
(** The body of the loop, :316-372 *)
Definition update_one (now : Z) (u : url) (n : str) (m : morsel) (j : jar) : jar * bool :=
  let d := attribute m in
  let '(d, m) := if ends_with [46%N] d then ([], with_domain m None) else (d, m) in
  let '(d, m, j) := match d, u_host u with
                    | [], Some h => (h, with_domain m (Some h), add_host_only (h, n) j)
                    | _, _ => (d, m, j)
                    end in
  let '(d, m) := if starts_with [46%N] d then (skipn 1 d, with_domain m (Some (skipn 1 d))) else (d, m) in
  if match u_host u with None => false | Some h => negb (do_domains_match d h) end then (j, true)
  else
    let m := set_path u m in
    let '(m, j, ok) := set_lifetime now d n m j in
    if ok then (store d n m j, true) else (j, false).

Fixpoint update_loop (now : Z) (u : url) (cs : list (str * morsel)) (j : jar) : jar * bool :=
  match cs with
  | [] => (do_expiration now j, true)
  | (n, m) :: cs' => let '(j, ok) := update_one now u n m j in if ok then update_loop now u cs' j else (j, false)
  end.
(** update_cookies, :299-374; [false]: an exception *)
Definition update_cookies (now : Z) (u : url) (cs : list (str * morsel)) (j : jar) : jar * bool :=
  if negb (unsafe j) && host_is_ip (u_host u) then (j, true) else update_loop now u cs j.

(** The loop of filter_cookies, :399-427, for one cookie: [None] is a KeyError *)
Definition sends (j : jar) (u : url) (n : str) (m : morsel) : option bool :=
  let host := match u_host u with Some h => h | None => [] end in
  match m_domain m with
  | None => None
  | Some [] => Some true
  | Some d =>
      Some (if negb (unsafe j) && is_ip host then false
            else if existsb (pair_eqb (d, n)) (host_only j) then beqb d host && do_paths_match (u_path u) (m_path m) && (u_secure u || negb (m_secure m))
            else do_domains_match d host && do_paths_match (u_path u) (m_path m) && (u_secure u || negb (m_secure m)))
  end.
Fixpoint filter_loop (j : jar) (u : url) (l : list (str * morsel)) (acc : list (str * str)) : option (list (str * str)) :=
  match l with
  | [] => Some acc
  | (n, m) :: l' =>
      match sends j u n m with
      | None => None
      | Some true => filter_loop j u l' (aset beqb n (m_value m) acc)
      | Some false => filter_loop j u l' acc
      end
  end.
(** filter_cookies, :376-429: the names and the values *)
Definition filter_cookies (now : Z) (u : url) (j : jar) : jar * option (list (str * str)) :=
  let j := do_expiration now j in
  (j, filter_loop j u (flat_map snd (cookies j)) []).

Inductive op := Update (now : Z) (u : url) (cs : list (str * morsel)) | Filter (now : Z) (u : url) | Clear (now : Z).
Definition step (j : jar) (o : op) : jar :=
  match o with
  | Update now u cs => fst (update_cookies now u cs j)
  | Filter now u => fst (filter_cookies now u j)
  | Clear now => clear now j
  end.
Definition run (j : jar) (os : list op) : jar := fold_left step os j.

End External.
