(** C47, C48, C86-C89: the rules of RFC 6265, in terms of the updates which gave a cookie. *)

From Coq Require Import List Arith Bool NArith ZArith.
From Verif Require Import Bytes Text CookieModel.
Import ListNotations.

Section Rules.
Variable is_ip : str -> bool.
Variable parse_int : str -> option Z.

(** 5.1.3 *)
Definition domain_match (domain host : str) : Prop := host = domain \/ (exists p, host = p ++ 46%N :: domain) /\ is_ip host = false.
(** 5.1.4 *)
Definition path_match (cookie request : str) : Prop :=
  request = cookie \/ exists r, request = cookie ++ r /\ ((exists c, cookie = c ++ [47%N]) \/ exists r', r = 47%N :: r').
Definition request_path (u : url) : str := match u_path u with 47%N :: p => 47%N :: p | _ => [47%N] end.

(** 5.2.3: the domain which a cookie asks for *)
Definition wanted (m : morsel) : option str :=
  match m_domain m with
  | None | Some [] => None
  | Some d => if N.eqb (last d 0%N) 46 then None else match d with 46%N :: d' => Some d' | _ => Some d end
  end.
(** 5.1.4: the directory of a path *)
Definition directory (p : str) (d : str) : Prop :=
  (exists q r, p = 47%N :: q ++ 47%N :: r /\ ~ In 47%N r /\ d = 47%N :: q) \/ (~ (exists q r, p = 47%N :: q ++ 47%N :: r) /\ d = [47%N]).
Definition path_of (u : url) (m : morsel) (p : str) : Prop :=
  (exists r, m_path m = 47%N :: r /\ p = m_path m) \/ (~ (exists r, m_path m = 47%N :: r) /\ directory (u_path u) p).

(** May a cookie which was set by a response of [from] be sent to [to]? *)
Definition may_reach (from to : url) (m : morsel) : Prop :=
  match wanted m, u_host from with
  | None, None => True
  | None, Some h => u_host to = Some h
  | Some d, h => match h with None => True | Some h => domain_match d h end /\ exists h', u_host to = Some h' /\ domain_match d h'
  end.
(** Cookies which were set without a domain, and not by a response. *)
Definition shared (from : url) (m : morsel) : Prop := wanted m = None /\ u_host from = None.

Definition max_age (m : morsel) : option Z := match m_max_age m with [] => None | a => parse_int a end.
(** [next_second]: the jar looks for expired cookies at whole seconds. *)
Definition lives (set_at now : Z) (m : morsel) : Prop :=
  match max_age m with
  | None => True
  | Some s => let e := (set_at + 1000 * s)%Z in (now <= e \/ exists k, now < 1000 * k /\ 1000 * k < e + 1000)%Z
  end.
End Rules.

Definition updates (os : list op) (now : Z) (u : url) (n : str) (m : morsel) : Prop := exists cs, In (Update now u cs) os /\ In (n, m) cs.

(** The urls of responses have a host which is not empty and starts with no dot, or no host at all. *)
Definition proper (u : url) : Prop := match u_host u with None => True | Some h => exists c t, h = c :: t /\ c <> 46%N end.
Definition op_proper (o : op) : Prop := match o with Update _ u _ => proper u | _ => True end.
Definition is_clear (o : op) : bool := match o with Clear _ => true | _ => false end.

Section Lifetime.
Variable parse_int : str -> option Z.
Variable parse_date : str -> option (option Z).
(** 5.3: max-age goes before expires *)
Definition lifetime (now : Z) (m : morsel) : option Z :=
  match m_max_age m with [] => match parse_date (m_expires m) with Some (Some t) => Some t | _ => None end | a => option_map (fun s => now + 1000 * s)%Z (parse_int a) end.
(** The name is never given a lifetime. *)
Definition session (os : list op) (n : str) : Prop := forall t u m, updates os t u n m -> lifetime t m = None.
Definition total_dates (os : list op) : Prop := forall t u n m, updates os t u n m -> parse_date (m_expires m) <> None.
End Lifetime.
