From Coq Require Import List Arith Bool NArith String Lia.
From Verif Require Import Bytes Text HeadSpec ExtModel ExtSpec ExtProofs.
Import ListNotations.
Local Open Scope string_scope.
Local Open Scope list_scope.

(** C57: what is built is parsed back. *)
Theorem C57_extensions_round_trip : forall es, Forall token_extension es ->
  parse_extensions (S (List.length (build_extensions es))) (build_extensions es) = Some es.
Proof. exact extensions_round_trip. Qed.
Print Assumptions C57_extensions_round_trip.

Theorem C57_subprotocols_round_trip : forall es, Forall token es -> parse_subprotocols (build_subprotocols es) = Some es.
Proof. exact subprotocols_round_trip. Qed.
Print Assumptions C57_subprotocols_round_trip.

(** Every text the grammar allows for the list is parsed as it: spaces, empty elements, quoted values. *)
Theorem C57_extensions_grammar : forall es s, extensions_text es s -> parse_extensions (S (List.length s)) s = Some es.
Proof. exact extensions_any. Qed.
Print Assumptions C57_extensions_grammar.

Theorem C57_subprotocols_grammar : forall es s, names_text token es s -> parse_subprotocols s = Some es.
Proof. exact subprotocols_ok. Qed.
Print Assumptions C57_subprotocols_grammar.

Theorem C57_upgrades_grammar : forall es s, names_text protocol es s -> parse_upgrades s = Some es.
Proof. exact upgrades_ok. Qed.
Print Assumptions C57_upgrades_grammar.

(** Nothing else is read as a list of names. *)
Theorem C57_subprotocols_only : forall s es, parse_subprotocols s = Some es -> names_text token es s.
Proof. exact subprotocols_sound. Qed.
Print Assumptions C57_subprotocols_only.

Theorem C57_upgrades_only : forall s es, parse_upgrades s = Some es -> names_text protocol es s.
Proof. exact upgrades_sound. Qed.
Print Assumptions C57_upgrades_only.

Definition deflate : list extension :=
  [(text "permessage-deflate", [(text "client_no_context_takeover", None); (text "server_max_window_bits", Some (text "10"))]); (text "x", [])].

Example C57_nonvacuous :
  build_extensions deflate = text "permessage-deflate; client_no_context_takeover; server_max_window_bits=10, x" /\
  parse_extensions 99 (text " ,permessage-deflate ;client_no_context_takeover;	server_max_window_bits = ""10"" ,, x ") = Some deflate /\
  parse_subprotocols (text "chat, superchat") = Some [text "chat"; text "superchat"] /\
  parse_upgrades (text "HTTP/2.0, websocket") = Some [text "HTTP/2.0"; text "websocket"] /\
  Forall token_extension deflate.
Proof.
  split; [vm_compute; reflexivity|]. split; [vm_compute; reflexivity|]. split; [vm_compute; reflexivity|]. split; [vm_compute; reflexivity|].
  assert (T : forall s, s <> [] -> forallb tokenb s = true -> token s).
  { intros s Hn Hs. split; [exact Hn|]. apply Forall_forall. intros c Hc. apply tokenb_iff. rewrite forallb_forall in Hs. auto. }
  repeat (apply Forall_cons || apply Forall_nil); split; try (apply T; [discriminate|vm_compute; reflexivity]);
    repeat (apply Forall_cons || apply Forall_nil); split; try exact I; apply T; try discriminate; vm_compute; reflexivity.
Qed.
