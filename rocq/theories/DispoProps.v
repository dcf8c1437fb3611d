(** C147-C149: the Content-Disposition header. *)

From Coq Require Import List Arith Bool NArith Ascii String Permutation Lia.
From Verif Require Import Bytes QuoteModel QuoteSpec DispoModel DispoSpec DispoProofs.
Import ListNotations.
Local Open Scope string_scope.
Local Open Scope list_scope.

(** C147. A header which is built says the type and the parameters which were given: false for a value which is not ascii and
    has a semicolon. The semicolon is not escaped, and what follows is read as a further parameter: a file named
    'é;name=admin' sends a second [name]. *)
Theorem C147_injection_refuted : exists t k v x,
  token t /\ token k /\ Forall scalar v /\
  build t [(chars "name", chars "f"); (k, v)] true = Some x /\
  says x = Some (t, [(chars "name", chars "f"); (k, utf8 [233%N]); (chars "name", chars "admin")]).
Proof.
  exists (chars "form-data"), (chars "filename"), (233%N :: chars ";name=admin"), (chars "form-data; name=""f""; filename*=utf-8''%C3%A9;name=admin").
  assert (T : forall s, forallb tcharb s = true -> s <> [] -> token s).
  { intros s H Hn. split; [exact Hn|]. rewrite forallb_forall in H. apply Forall_forall. intros c Hc. apply tcharb_iff, H, Hc. }
  split; [apply T; [vm_compute; reflexivity|discriminate]|]. split; [apply T; [vm_compute; reflexivity|discriminate]|].
  split; [apply encodable_scalar; vm_compute; reflexivity|]. split; vm_compute; reflexivity.
Qed.
Print Assumptions C147_injection_refuted.

(** False without [quote_fields]: nothing but quotes and backslashes is escaped, so any other text, with line ends too, gets
    into the header. *)
Theorem C147_lines_refuted : forall x, ~ In 34%N x -> ~ In 92%N x ->
  build (chars "form-data") [(chars "name", x)] false = Some (chars "form-data; name=" ++ [34%N] ++ x ++ [34%N]).
Proof. exact build_lines. Qed.
Print Assumptions C147_lines_refuted.

(** False for the names: a tab and a comma are let through. *)
Theorem C147_token_refuted : exists k v x, ~ token k /\ build (chars "form-data") [(k, v)] true = Some x.
Proof.
  exists [97; 9; 44]%N, (chars "v"), (chars "form-data; " ++ [97; 9; 44]%N ++ chars "=""v"""). split; [|vm_compute; reflexivity].
  intros [_ H]. inversion H as [|? ? _ H']. inversion H' as [|? ? [K _] _]. lia.
Qed.
Print Assumptions C147_token_refuted.

(** With [quote_fields], for tokens as names and values which are ascii or have none of the characters "'()*,;=", the header
    says what was given. *)
Theorem C147_says_partial : forall t ps, token t ->
  Forall (fun p => token (fst p) /\ (short_ascii (snd p) \/ ext_safe (snd p))) ps ->
  exists h ns, build t ps true = Some h /\ says h = Some (t, ns) /\
    Forall2 (fun p n => renamed (fst p) (fst n) /\ snd n = utf8 (snd p)) ps ns.
Proof. exact build_says. Qed.
Print Assumptions C147_says_partial.

(** With [quote_fields], whatever is given, the header is one line. *)
Theorem C147_one_line : forall t ps h, build t ps true = Some h -> one_line h.
Proof. exact build_line. Qed.
Print Assumptions C147_one_line.

(** Types and names which are not tokens are refused, but for tabs and commas. *)
Theorem C147_refuses : forall t ps quote_fields h, build t ps quote_fields = Some h ->
  nearly_token t /\ Forall (fun p => nearly_token (fst p)) ps.
Proof. exact build_only. Qed.
Print Assumptions C147_refuses.

Example C147_nonvacuous :
  build (chars "form-data") [(chars "name", chars "a ""b"""); (chars "file_name", [233; 46; 116]%N)] true =
    Some (chars "form-data; name=""a\ \""b\""""; filename*=utf-8''%C3%A9.t") /\
  says (chars "form-data; name=""a\ \""b\""""; filename*=utf-8''%C3%A9.t") =
    Some (chars "form-data", [(chars "name", chars "a ""b"""); (chars "filename", utf8 [233; 46; 116]%N)]).
Proof. split; vm_compute; reflexivity. Qed.

(** C148. The parser reads what the builder writes: false, whenever the first value is ascii (and has no semicolon) the parser
    gives nothing: values between quotes are never accepted. *)
Theorem C148_built_refuted : forall space lower casefold isdigit t k v ps h, python space lower casefold isdigit ->
  token t -> simple_key k -> k <> chars "file_name" -> short_ascii v -> ~ In 59%N v ->
  build t ((k, v) :: ps) true = Some h -> parse space lower casefold isdigit h = Parsed None [].
Proof. intros. eapply parse_built; eassumption. Qed.
Print Assumptions C148_built_refuted.

(** The same for any header, whoever built it. *)
Theorem C148_quoted_refuted : forall space lower casefold isdigit t k v, python space lower casefold isdigit ->
  token t -> simple_key k -> ~ In 59%N v ->
  parse space lower casefold isdigit (t ++ chars "; " ++ k ++ chars "=" ++ [34%N] ++ v ++ [34%N]) = Parsed None [].
Proof.
  intros space lower casefold isdigit t k v py Ht Hk Hv.
  pose proof (parse_quoted space lower casefold isdigit py t k v [] (proj1 Ht)) as P. rewrite app_nil_r in P. apply P; auto.
  - intros K. pose proof (token_tok t Ht) as T. rewrite forallb_forall in T. apply T in K. vm_compute in K. discriminate.
  - left. reflexivity.
Qed.
Print Assumptions C148_quoted_refuted.

(** False for extended values: the name of the encoding is taken for a set of characters to escape, so letters of the file
    name come out escaped. *)
Theorem C148_extended_refuted : forall space lower casefold isdigit, python space lower casefold isdigit ->
  build (chars "attachment") [(chars "filename", 233%N :: chars "fu")] true = Some (chars "attachment; filename*=utf-8''%C3%A9fu") /\
  says (chars "attachment; filename*=utf-8''%C3%A9fu") = Some (chars "attachment", [(chars "filename", utf8 (233%N :: chars "fu"))]) /\
  parse space lower casefold isdigit (chars "attachment; filename*=utf-8''fu") = Parsed (Some (chars "attachment")) [(chars "filename*", chars "%66%75")].
Proof.
  intros space lower casefold isdigit py. split; [vm_compute; reflexivity|]. split; [vm_compute; reflexivity|].
  pose proof (parse_extended space lower casefold isdigit py (chars "fu")) as P.
  assert (E : unquote (Some (chars "utf-8")) true (chars "fu") = Some (chars "%66%75")) by (vm_compute; reflexivity). rewrite E in P.
  apply P; [vm_compute; intuition discriminate|vm_compute; intuition discriminate|discriminate].
Qed.
Print Assumptions C148_extended_refuted.

(** Parameters which are not quoted are read. *)
Theorem C148_raw_partial : forall space lower casefold isdigit t ps, python space lower casefold isdigit ->
  token t -> ps <> [] -> Forall (fun p => simple_key (fst p) /\ raw_value (snd p)) ps -> NoDup (map fst ps) ->
  parse space lower casefold isdigit (t ++ List.concat (map raw_parameter ps)) = Parsed (Some (map lower1 t)) ps.
Proof. intros. apply parse_raw; assumption. Qed.
Print Assumptions C148_raw_partial.

Definition ex_space (c : N) : bool := (N.eqb c 32 || N.eqb c 9)%bool.
Example C148_nonvacuous : python ex_space (map lower1) (map lower1) (fun _ => false) /\
  parse ex_space (map lower1) (map lower1) (fun _ => false) (chars "Inline; a=1; b=x=y") = Parsed (Some (chars "inline")) [(chars "a", chars "1"); (chars "b", chars "x=y")] /\
  parse ex_space (map lower1) (map lower1) (fun _ => false) (chars "form-data; name=""f""") = Parsed None [].
Proof.
  split; [|split; vm_compute; reflexivity]. constructor; try reflexivity.
  intros c H. unfold ex_space. apply Bool.orb_false_iff. rewrite !N.eqb_neq. lia.
Qed.

(** C149. The name of a file which comes in pieces is put together: false for more than ten pieces, which are ordered as texts
    ('filename*10' before 'filename*2'): only the first two are kept. *)
Theorem C149_eleven_refuted : exists vs, List.length vs = 11 /\ ~ In 39%N (List.concat vs) /\
  get_file_name (segments 0 vs) (chars "filename") = Name (Some (List.concat (firstn 2 vs))) /\ List.concat (firstn 2 vs) <> List.concat vs.
Proof.
  exists (repeat (chars "x") 11). split; [reflexivity|]. split; [vm_compute; intuition discriminate|]. split; [vm_compute; reflexivity|vm_compute; discriminate].
Qed.
Print Assumptions C149_eleven_refuted.

(** False for a name with one apostrophe: it is taken for the mark after an encoding, and the function raises. *)
Theorem C149_apostrophe_refuted : forall a b, ~ In 39%N a -> ~ In 39%N b ->
  get_file_name [(chars "filename*0", a ++ 39%N :: b)] (chars "filename") = NameRaises.
Proof. exact file_name_apostrophe. Qed.
Print Assumptions C149_apostrophe_refuted.

(** False for other names than 'filename': the pieces of the file name are given. *)
Theorem C149_name_refuted : forall v, ~ In 39%N v -> get_file_name [(chars "filename*0", v)] (chars "title") = Name (Some v).
Proof.
  intros v H. unfold get_file_name. replace (dict_get _ (chars "title" ++ [42%N])) with (@None str) by reflexivity.
  replace (dict_get _ (chars "title")) with (@None str) by reflexivity. replace (continued 0 _) with [v] by reflexivity.
  cbn [List.concat]. rewrite app_nil_r. cbv zeta. replace (has 39 v) with false; [reflexivity|]. symmetry. unfold has.
  destruct (existsb _ _) eqn:E; [|reflexivity]. apply existsb_exists in E. destruct E as (c & Hc & E). apply N.eqb_eq in E. subst. contradiction.
Qed.
Print Assumptions C149_name_refuted.

(** Up to ten pieces, in any order and among other parameters, are put together. *)
Theorem C149_joined_partial : forall vs others ps, vs <> [] -> List.length vs <= 10 ->
  Permutation ps (segments 0 vs ++ others) -> Forall unrelated others -> ~ In 39%N (List.concat vs) ->
  get_file_name ps (chars "filename") = Name (Some (List.concat vs)).
Proof. exact file_name_joined. Qed.
Print Assumptions C149_joined_partial.

Example C149_nonvacuous :
  get_file_name [(chars "filename*1", chars "b.txt"); (chars "name", chars "n"); (chars "filename*0", chars "a")] (chars "filename") = Name (Some (chars "ab.txt")).
Proof. vm_compute. reflexivity. Qed.
