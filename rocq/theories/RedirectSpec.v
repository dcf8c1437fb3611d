(** What is expected of a client which follows redirects. *)
From Coq Require Import List Bool Arith Lia.
From Verif Require Import RedirectModel.
Import ListNotations.

(** RFC 9110, 15.4: 303 changes any method but HEAD to GET; 301 and 302 may change POST to GET; the others keep the
    request as it is. A changed request has no body. *)
Definition redirected (status : nat) (m : meth) (data : option payload) : meth * option payload :=
  match status, m with
  | 303, MHead => (m, data)
  | 303, _ => (MGet, None)
  | 301, MPost => (MGet, None)
  | 302, MPost => (MGet, None)
  | _, _ => (m, data)
  end.

Definition redirects_to (r : response) (u' : url) : Prop :=
  match s_target r with Absolute v => u' = v | _ => False end.

(** A response with one of the statuses of redirects, which names a whole http or https url. *)
Definition follows_on (r : response) : Prop :=
  In (s_status r) [301; 302; 303; 307] /\ match s_target r with Absolute _ => True | _ => False end.

(** The cookies of the first Cookie header. *)
Definition cookies_of (load : nat -> list (nat * nat)) (h : hdrs) : list (nat * nat) :=
  match h HCookie with v :: _ => loaded load v | [] => [] end.

(** All the requests so far, and the one to [u], went to the origin [o]. *)
Definition stayed (o : bool * nat * nat) (past : list sent) (u : url) : Prop :=
  Forall (fun q => origin (q_url q) = o) past /\ origin u = o.

(** RFC 9110, 4.2 and 7.2: the Host header has the host, and the port unless it is the default one of the scheme. *)
Definition usual_port (u : url) : Prop := u_secure u = true /\ u_port u = 443 \/ u_secure u = false /\ u_port u = 80.
Definition names_host (u : url) (v : value) : Prop :=
  (usual_port u -> v = HostPort (u_host u) None) /\ (~ usual_port u -> v = HostPort (u_host u) (Some (u_port u))).
