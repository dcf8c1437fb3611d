From Coq Require Import List Arith Bool NArith String Lia.
From Verif Require Import Bytes QuoteModel QuoteSpec QuoteProofs.
Import ListNotations.
Local Open Scope string_scope.
Local Open Scope list_scope.

(** C30 does not hold: a character is changed by the round trip, in each mode. *)
Theorem C30_round_trip_refuted :
  (exists s q u, Forall scalar s /\ quote [] [] false s = Some q /\ unquote None false q = Some u /\ u <> s) /\
  (exists s q u, Forall scalar s /\ quote [] [] true s = Some q /\ unquote None true q = Some u /\ u <> s).
Proof.
  split.
  - exists [233%N], (chars "%C3%A9"), [225%N]. split; [repeat constructor; lia|]. vm_compute. repeat split. discriminate.
  - exists [43%N], (chars "%2B"), (chars "%2B"). split; [repeat constructor; lia|]. vm_compute. repeat split. discriminate.
Qed.
Print Assumptions C30_round_trip_refuted.

(** The strings which do come back. Missing for C30: '+' and '%' written as they are, and the octets with a digit 8 or 9. *)
Theorem C30_round_trip_partial : forall safe protected qs uqs s,
  Forall ascii safe -> Forall ascii protected -> Forall (survives (kept safe protected qs) qs uqs) s ->
  exists q, quote safe protected qs s = Some q /\ unquote None uqs q = Some s.
Proof. exact unquote_quote. Qed.
Print Assumptions C30_round_trip_partial.

Example C30_nonvacuous :
  quote [] [] false (chars "a b%" ++ [8372; 128566]%N) = Some (chars "a%20b%25%E2%82%B4%F0%9F%98%B6") /\
  unquote None false (chars "a%20b%25%C3%BF%7E") = Some (chars "a b%" ++ [255; 126]%N) /\
  Forall (survives (kept [] [] false) false false) (chars "a %" ++ [255]%N).
Proof.
  split; [reflexivity|]. split; [reflexivity|].
  assert (E : forall c, scalar c -> ~ kept [] [] false c -> (forall b, In b (encode1 c) -> no_89 b) ->
            survives (kept [] [] false) false false c).
  { intros c H1 H2 H3. split; [exact H1|]. right. right. split; [exact H2|]. split; [exact H3|discriminate]. }
  apply Forall_cons; [|apply Forall_cons; [|apply Forall_cons; [|apply Forall_cons; [|constructor]]]].
  - split; [vm_compute; split; [reflexivity|intros [? ?]; auto]|]. right. left. split; [intros [? _]; discriminate|].
    split; [right; left; left; vm_compute; intuition discriminate|split; discriminate].
  - apply E; [unfold scalar; cbn; lia|unfold kept, plain; cbn; intuition lia|].
    intros b [<-|[]]. unfold no_89. cbn. lia.
  - apply E; [unfold scalar; cbn; lia|unfold kept, plain; cbn; intuition lia|].
    intros b [<-|[]]. unfold no_89. cbn. lia.
  - apply E; [unfold scalar; cbn; lia|unfold kept, plain; cbn; intuition lia|].
    intros b Hb. vm_compute in Hb. destruct Hb as [<-|[<-|[]]]; unfold no_89; cbn; lia.
Qed.

(** Every character of the output is an allowed one or belongs to an escape with two upper case digits. *)
Theorem C31_output_safe : forall safe protected qs s q,
  Forall scalar s -> quote safe protected qs s = Some q ->
  escaped_text (fun c => kept safe protected qs c \/ qs = true /\ c = 43%N) q.
Proof. exact quote_safe. Qed.
Print Assumptions C31_output_safe.

(** Any decoder of RFC 3986 gets the octets of the string from the output. *)
Theorem C31_decodes : forall safe protected s,
  Forall ascii safe -> Forall ascii protected -> ~ kept safe protected false 37%N -> Forall scalar s ->
  exists q, quote safe protected false s = Some q /\ rfc_decode q = Some (utf8 s).
Proof. exact quote_decodes. Qed.
Print Assumptions C31_decodes.

Example C31_nonvacuous :
  quote (chars "/") [] true (chars "/x y+" ++ [233]%N) = Some (chars "/x+y%2B%C3%A9") /\
  rfc_decode (chars "x%20%C3%A9") = Some ([120; 32; 195; 169]%N) /\ ~ kept [] [] false 37%N.
Proof. split; [reflexivity|]. split; [reflexivity|]. unfold kept, plain. cbn. intuition lia. Qed.

(** A key with '=' is cut at it when the query is parsed back. *)
Theorem C68_query_refuted :
  exists items q, serialize_query true items = Some q /\ parse_query (S (List.length q)) q <> Some items /\
    Forall (fun kv => Forall ascii (fst kv) /\ Forall ascii (snd kv)) items.
Proof.
  exists [(chars "a=b", chars "c")], (chars "a=b=c"). split; [reflexivity|]. split; [vm_compute; discriminate|].
  repeat constructor.
Qed.
Print Assumptions C68_query_refuted.

(** Missing for C68: keys with '=', and the octets with a digit 8 or 9. *)
Theorem C68_query_partial : forall items,
  Forall (fun kv => Forall (survives (kept (chars "/?:@=") [] true) true false) (fst kv) /\
                    Forall (survives (kept (chars "/?:@=") [] true) true false) (snd kv) /\ ~ In 61%N (fst kv)) items ->
  exists q, serialize_query true items = Some q /\ parse_query (S (List.length q)) q = Some items.
Proof. exact query_round. Qed.
Print Assumptions C68_query_partial.

Example C68_nonvacuous :
  serialize_query true [(chars "a b", chars "1=&2"); ([], []); (chars "?", chars "+")] = Some (chars "a+b=1=%262&=&?=%2B") /\
  parse_query 99 (chars "a+b=1=%262&=&?=%2B") = Some [(chars "a b", chars "1=&2"); ([], []); (chars "?", chars "+")].
Proof. split; reflexivity. Qed.
