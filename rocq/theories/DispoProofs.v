From Coq Require Import List Arith Bool NArith Ascii String Lia Permutation.
From Verif Require Import Bytes QuoteModel QuoteSpec QuoteProofs DispoModel DispoSpec.
Import ListNotations.
Local Open Scope list_scope.
Local Notation length := List.length.
Local Notation concat := List.concat.

(** * Sets of characters *)

Lemma beqb_iff (a b : str) : beqb a b = true <-> a = b.
Proof. revert b. induction a as [|x a IH]; intros [|y b]; cbn; try (split; congruence). rewrite andb_true_iff, N.eqb_eq, IH. split; [intros [-> ->]; reflexivity|intros H; injection H; auto]. Qed.
Lemma beqb_same (a : str) : beqb a a = true.
Proof. apply beqb_iff. reflexivity. Qed.
Lemma inside_iff x l : inside x l = true <-> In x l.
Proof.
  unfold inside. rewrite existsb_exists. split.
  - intros (y & H & E). apply beqb_iff in E. subst. exact H.
  - intros H. exists x. split; [exact H|apply beqb_same].
Qed.

Definition tok (c : N) : bool :=
  ((c =? 9) || (32 <? c) && (c <? 127) &&
     negb (existsb (N.eqb c) [40; 41; 60; 62; 64; 59; 58; 92; 34; 47; 91; 93; 63; 61; 123; 125]))%N.
Definition usa (c : N) : bool := ((c =? 9) || (32 <=? c) && (c <? 127))%N.

Lemma small (f : N -> bool) : forallb (fun n => f (N.of_nat n)) (seq 0 128) = true -> forall c, (c < 128)%N -> f c = true.
Proof.
  intros H c Hc. rewrite forallb_forall in H. specialize (H (N.to_nat c)). rewrite N2Nat.id in H. apply H. apply in_seq. lia.
Qed.

Lemma single_low (l : list str) : forallb (fun t => match t with [x] => (x <? 128)%N | _ => true end) l = true ->
  forall c, (128 <= c)%N -> inside [c] l = false.
Proof.
  intros H c Hc. destruct (inside [c] l) eqn:E; [|reflexivity]. apply inside_iff in E. rewrite forallb_forall in H.
  specialize (H _ E). cbn in H. apply N.ltb_lt in H. lia.
Qed.

Lemma inside_tokens c : inside [c] tokens = tok c.
Proof.
  destruct (N.ltb_spec c 128) as [Hc|Hc].
  - apply Bool.eqb_prop. revert c Hc. apply (small (fun c => Bool.eqb (inside [c] tokens) (tok c))). vm_compute. reflexivity.
  - rewrite single_low by (try exact Hc; vm_compute; reflexivity). symmetry. unfold tok.
    replace (c =? 9)%N with false by (symmetry; apply N.eqb_neq; lia). replace (c <? 127)%N with false by (symmetry; apply N.ltb_ge; lia).
    rewrite andb_false_r. reflexivity.
Qed.
Lemma inside_usascii c : inside [c] usascii = usa c.
Proof.
  destruct (N.ltb_spec c 128) as [Hc|Hc].
  - apply Bool.eqb_prop. revert c Hc. apply (small (fun c => Bool.eqb (inside [c] usascii) (usa c))). vm_compute. reflexivity.
  - rewrite single_low by (try exact Hc; vm_compute; reflexivity). symmetry. unfold usa.
    replace (c =? 9)%N with false by (symmetry; apply N.eqb_neq; lia). replace (c <? 127)%N with false by (symmetry; apply N.ltb_ge; lia).
    rewrite andb_false_r. reflexivity.
Qed.

Lemma set_single s x : inside x (set_of s) = true <-> exists c, x = [c] /\ In c s.
Proof. rewrite inside_iff. unfold set_of. rewrite in_map_iff. split; intros (c & H1 & H2); exists c; auto. Qed.

Lemma pair_in_tokens : In [44; 32]%N tokens.
Proof. apply inside_iff. vm_compute. reflexivity. Qed.

Lemma tokens_not_all s : forallb (fun x => inside x (set_of s)) tokens = false.
Proof.
  destruct (forallb _ tokens) eqn:E; [|reflexivity]. rewrite forallb_forall in E. specialize (E _ pair_in_tokens).
  apply set_single in E. destruct E as (c & E & _). discriminate.
Qed.

Lemma forallb_set (f : str -> bool) s : forallb f (set_of s) = forallb (fun c => f [c]) s.
Proof. unfold set_of. induction s as [|c s IH]; cbn; [reflexivity|]. f_equal. exact IH. Qed.

Lemma below_tokens s : below (set_of s) tokens = forallb tok s.
Proof.
  unfold below. rewrite tokens_not_all, andb_true_r, forallb_set. 
  induction s as [|c s IH]; cbn [forallb]; [reflexivity|rewrite inside_tokens, IH; reflexivity].
Qed.
Lemma tokens_below s : below tokens (set_of s) = false.
Proof. unfold below. rewrite tokens_not_all. reflexivity. Qed.

Lemma below_usascii s : below (set_of s) usascii = true <-> forallb usa s = true /\ exists c, usa c = true /\ ~ In c s.
Proof.
  unfold below. rewrite andb_true_iff, negb_true_iff, forallb_set.
  assert (E : forallb (fun c => inside [c] usascii) s = forallb usa s).
  { induction s as [|c s IH]; cbn [forallb]; [reflexivity|rewrite inside_usascii, IH; reflexivity]. }
  rewrite E. clear E. split; intros [H1 H2]; (split; [exact H1|]).
  - assert (K : exists x, In x usascii /\ inside x (set_of s) = false).
    { clear H1. induction usascii as [|x l IH]; [discriminate|]. cbn [forallb] in H2. destruct (inside x (set_of s)) eqn:E.
      - destruct (IH H2) as (y & Hy & E'). exists y. split; [right; exact Hy|exact E'].
      - exists x. split; [left; reflexivity|exact E]. }
    destruct K as (x & Hx & E). assert (X : exists c, x = [c]).
    { unfold usascii in Hx. destruct Hx as [<-|Hx]; [eexists; reflexivity|]. apply in_map_iff in Hx. destruct Hx as (n & <- & _). eexists; reflexivity. }
    destruct X as (c & ->). exists c. split; [rewrite <- inside_usascii; apply inside_iff; exact Hx|].
    intros K. assert (K' : inside [c] (set_of s) = true) by (apply set_single; exists c; auto). congruence.
  - destruct H2 as (c & U & K). destruct (forallb _ usascii) eqn:E; [|reflexivity]. rewrite forallb_forall in E.
    rewrite <- inside_usascii in U. apply inside_iff in U. specialize (E _ U). apply set_single in E. destruct E as (d & E & D).
    injection E as ->. contradiction.
Qed.

Lemma usa_iff c : usa c = true <-> (c = 9 \/ 32 <= c <= 126)%N.
Proof. unfold usa. rewrite orb_true_iff, andb_true_iff, N.eqb_eq, N.leb_le, N.ltb_lt. lia. Qed.
Lemma tok_line c : tok c = true -> (c = 9 \/ 32 <= c <= 126)%N.
Proof. unfold tok. rewrite orb_true_iff, !andb_true_iff, N.eqb_eq, !N.ltb_lt. lia. Qed.

Definition tcharb (c : N) : bool := N.leb 33 c && N.leb c 126 && negb (N.eqb c 34) && negb (existsb (N.eqb c) (chars "()<>@,;:\/[]?={}")).
Lemma tcharb_iff c : tcharb c = true <-> tchar c.
Proof.
  unfold tcharb, tchar. rewrite !andb_true_iff, !negb_true_iff, !N.leb_le, N.eqb_neq.
  assert (K : existsb (N.eqb c) (chars "()<>@,;:\/[]?={}") = false <-> ~ In c (chars "()<>@,;:\/[]?={}")).
  { rewrite <- not_true_iff_false, existsb_exists. split; intros H K; apply H.
    - exists c. split; [exact K|apply N.eqb_refl].
    - destruct K as (d & Hd & E). apply N.eqb_eq in E. subst. exact Hd. }
  rewrite K. tauto.
Qed.
Lemma tchar_tok c : tchar c -> tok c = true.
Proof.
  intros H. assert (Hc : (c < 128)%N) by (unfold tchar in H; lia).
  assert (G : implb (tcharb c) (tok c) = true).
  { apply (small (fun c => implb (tcharb c) (tok c))); [vm_compute; reflexivity|exact Hc]. }
  apply tcharb_iff in H. rewrite H in G. exact G.
Qed.
Lemma token_tok s : token s -> forallb tok s = true.
Proof. intros [_ H]. apply forallb_forall. rewrite Forall_forall in H. intros c Hc. apply tchar_tok, H, Hc. Qed.

(** * Reading what was built *)

Lemma read_key k : forall acc l, Forall (fun c => c <> 61%N) k -> read (Key acc) (k ++ 61%N :: l) = read (Open (rev acc ++ k)) l.
Proof.
  induction k as [|c k IH]; intros acc l H; cbn [app read].
  - cbn. rewrite app_nil_r. reflexivity.
  - inversion H; subst. replace (c =? 61)%N with false by (symmetry; apply N.eqb_neq; assumption). rewrite IH by assumption.
    cbn [rev]. rewrite <- app_assoc. reflexivity.
Qed.

Definition esc (v : str) : str := flat_map (fun c => if escapable c then [92%N; c] else [c]) v.

Lemma not_escapable c : escapable c = false -> c <> 34%N /\ c <> 92%N.
Proof. unfold escapable. rewrite negb_false_iff, !orb_true_iff, !andb_true_iff, N.eqb_eq, !N.leb_le. lia. Qed.

Lemma read_quoted v : forall k acc l, read (InQuoted k acc) (esc v ++ 34%N :: l) = option_map (cons (k, Quoted (rev acc ++ v))) (read Start l).
Proof.
  induction v as [|c v IH]; intros k acc l.
  - cbn. rewrite app_nil_r. reflexivity.
  - change (esc (c :: v)) with ((if escapable c then [92%N; c] else [c]) ++ esc v). rewrite <- app_assoc.
    assert (G : read (InQuoted k (c :: acc)) (esc v ++ 34%N :: l) = option_map (cons (k, Quoted (rev acc ++ c :: v))) (read Start l)).
    { rewrite IH. cbn [rev]. rewrite <- app_assoc. reflexivity. }
    destruct (escapable c) eqn:E.
    + cbn [app read]. cbn [N.eqb Pos.eqb]. exact G.
    + destruct (not_escapable c E) as [K1 K2]. cbn [app read].
      replace (c =? 34)%N with false by (symmetry; apply N.eqb_neq; assumption).
      replace (c =? 92)%N with false by (symmetry; apply N.eqb_neq; assumption). exact G.
Qed.

(** The rest of a header. *)
Definition rest_ok (b : str) : Prop := b = [] \/ exists b', b = 59%N :: b'.

Lemma read_raw v : forall k acc b, Forall (fun c => c <> 59%N) v -> rest_ok b ->
  read (InRaw k acc) (v ++ b) = option_map (cons (k, Raw (rev acc ++ v))) (read Start b).
Proof.
  induction v as [|c v IH]; intros k acc b H R.
  - cbn [app]. rewrite app_nil_r. destruct R as [->|(b' & ->)]; [reflexivity|]. cbn [read]. cbn [N.eqb Pos.eqb]. reflexivity.
  - inversion H; subst. cbn [app read]. replace (c =? 59)%N with false by (symmetry; apply N.eqb_neq; assumption).
    rewrite IH by assumption. cbn [rev]. rewrite <- app_assoc. reflexivity.
Qed.

Lemma to_semicolon_app t b : Forall (fun c => c <> 59%N) t -> rest_ok b -> to_semicolon (t ++ b) = (t, b).
Proof.
  induction t as [|c t IH]; intros H R; cbn [app].
  - destruct R as [->|(b' & ->)]; reflexivity.
  - inversion H; subst. cbn [to_semicolon]. replace (c =? 59)%N with false by (symmetry; apply N.eqb_neq; assumption).
    rewrite IH by assumption. reflexivity.
Qed.

Lemma tok_plain c : tok c = true -> c <> 59%N /\ c <> 61%N /\ c <> 32%N /\ c <> 34%N.
Proof.
  intros H. repeat split; intros ->; vm_compute in H; discriminate.
Qed.

Definition name_of (k : str) : str := if beqb k s_file_name then s_filename else k.
Lemma name_renamed k : renamed k (name_of k).
Proof.
  unfold renamed, name_of. destruct (beqb k s_file_name) eqn:E.
  - apply beqb_iff in E. left. split; [exact E|reflexivity].
  - right. split; [|reflexivity]. intros ->. vm_compute in E. discriminate.
Qed.

(** The key is a name, and the rest begins with an equal sign. *)
Lemma read_name k l : k <> [] -> forallb tok k = true -> read Start ([59; 32]%N ++ k ++ 61%N :: l) = read (Open k) l.
Proof.
  intros Hn H. destruct k as [|c k]; [congruence|]. cbn [app read]. cbn [N.eqb Pos.eqb]. cbn [forallb] in H. apply andb_true_iff in H.
  destruct H as [Hc H]. destruct (tok_plain c Hc) as (K1 & K2 & K3 & _). replace (c =? 32)%N with false by (symmetry; apply N.eqb_neq; assumption).
  rewrite read_key; [reflexivity|]. rewrite forallb_forall in H. apply Forall_forall. intros x Hx. apply tok_plain. apply H. exact Hx.
Qed.

Lemma build_rest qf ps b : build_parameters qf ps = Some b -> rest_ok b.
Proof.
  destruct ps as [|(k, v) ps]; cbn [build_parameters]; [intros H; injection H as <-; left; reflexivity|].
  destruct (build_parameter qf k v) as [a|] eqn:E; [|discriminate]. destruct (build_parameters qf ps); [|discriminate].
  intros H. injection H as <-. right. unfold build_parameter in E. cbv zeta in E. destruct (_ || _); [discriminate|].
  destruct qf.
  - destruct (try_usascii_escape v) as [[] w]; [injection E as <-; eexists; reflexivity|].
    destruct (encodable w); [|discriminate]. destruct (quote _ _ _ w); [|discriminate]. injection E as <-. eexists; reflexivity.
  - injection E as <-. eexists; reflexivity.
Qed.

Lemma encodable_scalar v : encodable v = true <-> Forall scalar v.
Proof.
  unfold encodable. rewrite forallb_forall, Forall_forall. split; intros H c Hc; specialize (H c Hc); unfold scalar in *.
  - rewrite orb_true_iff, andb_true_iff, !N.ltb_lt, N.leb_le in H. lia.
  - rewrite orb_true_iff, andb_true_iff, !N.ltb_lt, N.leb_le. lia.
Qed.

Lemma quote_word v q : Forall scalar v -> quote [] [] false v = Some q ->
  forall c, In c q -> ext_char c = true \/ In c v /\ In c (chars "'()*,;=").
Proof.
  intros Hs Hq c Hc. unfold quote in Hq. destruct (forallb _ _) eqn:Ef; [|discriminate]. injection Hq as <-.
  rewrite forallb_forall in Ef. pose proof (Ef c Hc) as Lc. apply N.ltb_lt in Lc.
  apply in_flat_map in Hc. destruct Hc as (b & Hb & Hc). unfold quote_byte in Hc. cbn [andb] in Hc.
  destruct (mem b (safe_set [] [] false)) eqn:E.
  - destruct Hc as [<-|[]]. pose proof (utf8_low v b Hs Lc Hb) as Hv.
    assert (G : implb (mem b (safe_set [] [] false)) (ext_char b || existsb (N.eqb b) (chars "'()*,;=")) = true).
    { apply (small (fun b => implb (mem b (safe_set [] [] false)) (ext_char b || existsb (N.eqb b) (chars "'()*,;=")))); [vm_compute; reflexivity|exact Lc]. }
    rewrite E in G. cbn [implb] in G. apply orb_true_iff in G. destruct G as [G|G]; [left; exact G|].
    right. split; [exact Hv|]. apply existsb_exists in G. destruct G as (d & Hd & G). apply N.eqb_eq in G. subst. exact Hd.
  - left. pose proof (utf8_bytes v Hs) as U. rewrite Forall_forall in U. specialize (U b Hb).
    assert (D : forall x, (x < 16)%N -> ext_char (upper_digit x) = true).
    { intros x Hx. assert (G : implb (x <? 16)%N (ext_char (upper_digit x)) = true).
      { apply (small (fun x => implb (x <? 16)%N (ext_char (upper_digit x)))); [vm_compute; reflexivity|lia]. }
      replace (x <? 16)%N with true in G by (symmetry; apply N.ltb_lt; exact Hx). exact G. }
    cbn in Hc. destruct Hc as [<-|[<-|[<-|[]]]]; [reflexivity| |]; apply D.
    + apply N.div_lt_upper_bound; lia.
    + apply N.mod_lt. lia.
Qed.

Lemma quote_exists v : Forall scalar v -> exists q, quote [] [] false v = Some q /\ rfc_decode q = Some (utf8 v).
Proof.
  intros Hs. apply quote_decodes; auto using Forall_nil.
  intros K. apply kept_set in K. apply mem_In in K. vm_compute in K. discriminate.
Qed.

Lemma ext_round v : ext_safe v -> exists q, quote [] [] false v = Some q /\ ext_decode q = Some (utf8 v) /\ Forall (fun c => c <> 59%N) q.
Proof.
  intros [Hs Hb]. destruct (quote_exists v Hs) as (q & Hq & Hd). exists q. split; [exact Hq|].
  assert (W : forall c, In c q -> ext_char c = true).
  { intros c Hc. destruct (quote_word v q Hs Hq c Hc) as [K|[K1 K2]]; [exact K|]. rewrite Forall_forall in Hb. destruct (Hb c K1 K2). }
  split.
  - unfold ext_decode. replace (forallb ext_char q) with true by (symmetry; apply forallb_forall; exact W). exact Hd.
  - apply Forall_forall. intros c Hc ->. specialize (W _ Hc). vm_compute in W. discriminate.
Qed.

Lemma star_free_star k : star_free (k ++ [42%N]) = Some k.
Proof. unfold star_free. rewrite rev_app_distr. cbn. rewrite rev_involutive. reflexivity. Qed.

Lemma short_below v : short_ascii v <-> below (set_of v) usascii = true.
Proof.
  rewrite below_usascii. unfold short_ascii. rewrite Forall_forall, forallb_forall. split.
  - intros [H1 (c & H2 & H3)]. split; [intros x Hx; apply usa_iff; auto|]. exists c. split; [apply usa_iff; exact H2|exact H3].
  - intros [H1 (c & H2 & H3)]. split; [intros x Hx; apply usa_iff; auto|]. exists c. split; [apply usa_iff; exact H2|exact H3].
Qed.

Lemma build_one k v : name_of k <> [] -> forallb tok (name_of k) = true ->
  build_parameter true k v =
  if below (set_of v) usascii then Some ([59; 32]%N ++ name_of k ++ [61%N] ++ quoted (esc v))
  else if encodable v then
    match quote [] [] false v with Some q => Some ([59; 32]%N ++ name_of k ++ [42; 61]%N ++ s_utf8 ++ [39; 39]%N ++ q) | None => None end
  else None.
Proof.
  intros Hn Ht. unfold build_parameter. cbv zeta. fold (name_of k). rewrite below_tokens, Ht. cbn [negb orb]. rewrite orb_false_r.
  destruct (name_of k) as [|x l] eqn:E; [congruence|]. unfold try_usascii_escape. destruct (below (set_of v) usascii); reflexivity.
Qed.

Definition good_value (v : str) : Prop := short_ascii v \/ ~ short_ascii v /\ ext_safe v.
Definition good_parameter (p : str * str) : Prop := token (fst p) /\ good_value (snd p).

Lemma token_name k : token k -> name_of k <> [] /\ forallb tok (name_of k) = true.
Proof.
  intros H. unfold name_of. destruct (beqb k s_file_name); [split; [discriminate|vm_compute; reflexivity]|]. split; [apply H|apply token_tok, H].
Qed.

Lemma read_built ps : Forall good_parameter ps -> exists b fs, build_parameters true ps = Some b /\ read Start b = Some fs /\
  all_some (map meaning fs) = Some (map (fun p => (name_of (fst p), utf8 (snd p))) ps).
Proof.
  induction 1 as [|[k v] ps [Hk Hv] H (b & fs & E1 & E2 & E3)]; [exists [], []; auto|]. cbn [fst snd] in *.
  destruct (token_name k Hk) as [Kn Kt]. pose proof (build_rest _ _ _ E1) as R. cbn [build_parameters]. rewrite (build_one k v Kn Kt), E1.
  destruct Hv as [Hv|[Hs Hv]].
  - pose proof Hv as Hb. apply short_below in Hb. rewrite Hb. eexists _, _. split; [reflexivity|]. unfold quoted.
    rewrite <- !app_assoc. cbn [app]. change ([59%N; 32%N] ++ name_of k ++ [61%N] ++ ([34%N] ++ esc v ++ [34%N]) ++ b) with
      ([59%N; 32%N] ++ name_of k ++ 61%N :: (34%N :: (esc v ++ [34%N]) ++ b)).
    change (59%N :: 32%N :: name_of k ++ 61%N :: 34%N :: esc v ++ 34%N :: b) with ([59%N; 32%N] ++ name_of k ++ 61%N :: 34%N :: esc v ++ 34%N :: b).
    rewrite read_name by assumption. cbn [read]. cbn [N.eqb Pos.eqb]. rewrite read_quoted, E2. cbn [rev app option_map]. split; [reflexivity|].
    cbn [map all_some meaning snd fst]. rewrite E3. reflexivity.
  - destruct (below (set_of v) usascii) eqn:Hb; [apply short_below in Hb; contradiction|].
    replace (encodable v) with true by (symmetry; apply encodable_scalar; apply Hv).
    destruct (ext_round v Hv) as (q & Eq & Ed & Es). rewrite Eq. eexists _, _. split; [reflexivity|].
    assert (Kt' : forallb tok (name_of k ++ [42%N]) = true) by (rewrite forallb_app, Kt; reflexivity).
    assert (Kn' : name_of k ++ [42%N] <> []) by (destruct (name_of k); discriminate).
    rewrite <- !app_assoc.
    change ([59%N; 32%N] ++ name_of k ++ [42%N; 61%N] ++ s_utf8 ++ [39%N; 39%N] ++ q ++ b) with
      ([59%N; 32%N] ++ name_of k ++ [42%N] ++ 61%N :: (s_utf8 ++ [39%N; 39%N] ++ q ++ b)).
    rewrite (app_assoc (name_of k)). rewrite read_name by assumption.
    replace (s_utf8 ++ [39%N; 39%N] ++ q ++ b) with (117%N :: ((tl s_utf8 ++ [39%N; 39%N] ++ q) ++ b)) by (cbn; rewrite ?app_assoc; reflexivity).
    cbn [read]. cbn [N.eqb Pos.eqb]. rewrite read_raw; [|cbn; repeat (apply Forall_cons; [discriminate|]); exact Es|exact R].
    rewrite E2. cbn [option_map]. split; [reflexivity|]. cbn [map all_some meaning snd fst]. rewrite star_free_star.
    cbn [after chars rev app tl s_utf8 N.eqb Pos.eqb Ascii.N_of_ascii]. cbn. unfold s_utf8. cbn. rewrite Ed. cbn. rewrite E3. reflexivity.
Qed.

Lemma short_dec v : short_ascii v \/ ~ short_ascii v.
Proof. destruct (below (set_of v) usascii) eqn:E; [left; apply short_below, E|right; rewrite short_below; congruence]. Qed.

Lemma build_some t ps qf : token t -> build t ps qf = option_map (app t) (build_parameters qf ps).
Proof.
  intros H. unfold build. rewrite below_tokens, (token_tok t H). cbn [negb]. rewrite orb_false_r. destruct H as [Hn _]. destruct t; [congruence|reflexivity].
Qed.

Theorem build_says t ps : token t -> Forall (fun p => token (fst p) /\ (short_ascii (snd p) \/ ext_safe (snd p))) ps ->
  exists h ns, build t ps true = Some h /\ says h = Some (t, ns) /\
    Forall2 (fun p n => renamed (fst p) (fst n) /\ snd n = utf8 (snd p)) ps ns.
Proof.
  intros Ht Hp. assert (G : Forall good_parameter ps).
  { eapply Forall_impl; [|exact Hp]. intros [k v] [H1 H2]. cbn [fst snd] in *. split; [exact H1|]. cbn [snd]. unfold good_value.
    destruct (short_dec v) as [K|K]; [left; exact K|right; split; [exact K|tauto]]. }
  destruct (read_built ps G) as (b & fs & E1 & E2 & E3). exists (t ++ b), (map (fun p => (name_of (fst p), utf8 (snd p))) ps).
  rewrite build_some, E1 by assumption. split; [reflexivity|]. split.
  - unfold says. rewrite to_semicolon_app.
    + rewrite E2, E3. reflexivity.
    + pose proof (token_tok t Ht) as K. rewrite forallb_forall in K. apply Forall_forall. intros c Hc. apply tok_plain, K, Hc.
    + eapply build_rest, E1.
  - clear. induction ps as [|p ps IH]; [constructor|]. constructor; [|exact IH]. cbn [fst snd]. split; [apply name_renamed|reflexivity].
Qed.

Lemma tok_all_line s : forallb tok s = true -> one_line s.
Proof. intros H. rewrite forallb_forall in H. apply Forall_forall. intros c Hc. apply tok_line, H, Hc. Qed.

Lemma ext_line c : ext_char c = true -> (32 <= c <= 126)%N.
Proof.
  unfold ext_char, alnum. rewrite !orb_true_iff, !andb_true_iff, !N.leb_le. intros [H|H]; [lia|].
  apply existsb_exists in H. destruct H as (d & Hd & E). apply N.eqb_eq in E. subst d. cbn in Hd. lia.
Qed.
Lemma bad_line c : In c (chars "'()*,;=") -> (32 <= c <= 126)%N.
Proof. cbn. lia. Qed.

Lemma built_name k v qf a : build_parameter qf k v = Some a -> name_of k <> [] /\ forallb tok (name_of k) = true.
Proof.
  unfold build_parameter. cbv zeta. fold (name_of k). rewrite below_tokens. destruct (name_of k) eqn:E; [discriminate|].
  destruct (forallb tok (n :: s)) eqn:E2; [|discriminate]. intros _. split; [discriminate|reflexivity].
Qed.

Lemma parameter_line k v a : build_parameter true k v = Some a -> one_line a.
Proof.
  intros H. destruct (built_name _ _ _ _ H) as [Kn Kt]. rewrite (build_one k v Kn Kt) in H. unfold one_line.
  destruct (below (set_of v) usascii) eqn:Hb.
  - injection H as <-. unfold quoted. repeat (rewrite Forall_app || apply conj || apply Forall_cons || apply Forall_nil); try lia.
    + apply tok_all_line, Kt.
    + apply below_usascii in Hb. destruct Hb as [Hb _]. rewrite forallb_forall in Hb. apply Forall_forall. intros c Hc.
      unfold esc in Hc. apply in_flat_map in Hc. destruct Hc as (d & Hd & Hc). specialize (Hb d Hd). apply usa_iff in Hb.
      destruct (escapable d); cbn in Hc; [destruct Hc as [<-|[<-|[]]]; lia|destruct Hc as [<-|[]]; lia].
  - destruct (encodable v) eqn:Ev; [|discriminate]. apply encodable_scalar in Ev. destruct (quote [] [] false v) as [q|] eqn:Eq; [|discriminate].
    injection H as <-. repeat (rewrite Forall_app || apply conj || apply Forall_cons || apply Forall_nil); try lia.
    + apply tok_all_line, Kt.
    + apply Forall_forall. intros c Hc. right. destruct (quote_word v q Ev Eq c Hc) as [K|[_ K]]; [apply ext_line, K|apply bad_line, K].
Qed.

Theorem build_line t ps h : build t ps true = Some h -> one_line h.
Proof.
  unfold build. rewrite below_tokens. destruct t as [|x t]; [discriminate|]. destruct (forallb tok (x :: t)) eqn:E; [|discriminate].
  cbn [negb orb]. destruct (build_parameters true ps) as [b|] eqn:Eb; [|discriminate]. intros H. injection H as <-.
  change (one_line ((x :: t) ++ b)). apply Forall_app. split; [apply tok_all_line, E|]. clear E x t. revert b Eb.
  induction ps as [|[k v] ps IH]; cbn [build_parameters]; intros b H; [injection H as <-; constructor|].
  destruct (build_parameter true k v) as [a|] eqn:Ea; [|discriminate]. destruct (build_parameters true ps) as [b'|]; [|discriminate].
  injection H as <-. apply Forall_app. split; [eapply parameter_line, Ea|apply IH; reflexivity].
Qed.

Lemma tok_chars c : tok c = true -> tchar c \/ c = 9%N \/ c = 44%N.
Proof.
  intros H. assert (Hc : (c < 128)%N) by (apply tok_line in H; lia).
  assert (G : implb (tok c) (tcharb c || N.eqb c 9 || N.eqb c 44) = true).
  { apply (small (fun c => implb (tok c) (tcharb c || N.eqb c 9 || N.eqb c 44))); [vm_compute; reflexivity|exact Hc]. }
  rewrite H in G. cbn [implb] in G. rewrite !orb_true_iff, tcharb_iff, !N.eqb_eq in G. tauto.
Qed.
Lemma tok_nearly s : s <> [] -> forallb tok s = true -> nearly_token s.
Proof. intros Hn H. split; [exact Hn|]. rewrite forallb_forall in H. apply Forall_forall. intros c Hc. apply tok_chars, H, Hc. Qed.

Theorem build_only t ps qf h : build t ps qf = Some h -> nearly_token t /\ Forall (fun p => nearly_token (fst p)) ps.
Proof.
  unfold build. rewrite below_tokens. destruct t as [|x t]; [discriminate|]. destruct (forallb tok (x :: t)) eqn:E; [|discriminate].
  cbn [negb orb]. destruct (build_parameters qf ps) as [b|] eqn:Eb; [|discriminate]. intros _. split; [apply tok_nearly; [discriminate|exact E]|].
  clear E. revert b Eb. induction ps as [|[k v] ps IH]; cbn [build_parameters]; intros b H; [constructor|].
  destruct (build_parameter qf k v) as [a|] eqn:Ea; [|discriminate]. destruct (build_parameters qf ps) as [b'|]; [|discriminate].
  constructor; [|eapply IH; reflexivity]. cbn [fst]. apply built_name in Ea. unfold name_of in Ea. destruct (beqb k s_file_name) eqn:Ek.
  - apply beqb_iff in Ek. subst k. apply tok_nearly; [discriminate|vm_compute; reflexivity].
  - apply tok_nearly; apply Ea.
Qed.

Lemma replace_none c b s : ~ In c s -> replace1 c b s = s.
Proof.
  intros H. unfold replace1. induction s as [|x s IH]; [reflexivity|]. cbn. replace (x =? c)%N with false.
  - cbn. f_equal. apply IH. intros K. apply H. right. exact K.
  - symmetry. apply N.eqb_neq. intros ->. apply H. left. reflexivity.
Qed.

Theorem build_lines x : ~ In 34%N x -> ~ In 92%N x ->
  build (chars "form-data") [(chars "name", x)] false = Some (chars "form-data; name=" ++ [34%N] ++ x ++ [34%N]).
Proof.
  intros H1 H2. unfold build. replace (below _ tokens) with true by (vm_compute; reflexivity). cbn [negb orb chars]. cbn [build_parameters].
  unfold build_parameter. cbv zeta. replace (beqb (chars "name") s_file_name) with false by (vm_compute; reflexivity).
  replace (below (set_of (chars "name")) tokens) with true by (vm_compute; reflexivity). cbn [negb orb chars].
  rewrite (replace_none 92) by exact H2. rewrite (replace_none 34) by exact H1. cbn [option_map]. unfold quoted. cbn. rewrite ?app_nil_r. reflexivity.
Qed.

(** * The parser *)

Lemma is_token_iff s : is_token s = match s with [] => false | _ => true end.
Proof. unfold is_token. rewrite tokens_below. destruct s; reflexivity. Qed.

Lemma split_none c s : ~ In c s -> split c s = [s].
Proof.
  induction s as [|x s IH]; intros H; [reflexivity|]. cbn. replace (x =? c)%N with false by (symmetry; apply N.eqb_neq; intros ->; apply H; left; reflexivity).
  rewrite IH; [reflexivity|]. intros K. apply H. right. exact K.
Qed.
Lemma split_app c s r : ~ In c s -> split c (s ++ c :: r) = s :: split c r.
Proof.
  induction s as [|x s IH]; intros H; cbn.
  - rewrite N.eqb_refl. reflexivity.
  - replace (x =? c)%N with false by (symmetry; apply N.eqb_neq; intros ->; apply H; left; reflexivity).
    rewrite IH; [reflexivity|]. intros K. apply H. right. exact K.
Qed.
Lemma split1_app c s r : ~ In c s -> split1 c (s ++ c :: r) = Some (s, r).
Proof.
  induction s as [|x s IH]; intros H; cbn.
  - rewrite N.eqb_refl. reflexivity.
  - replace (x =? c)%N with false by (symmetry; apply N.eqb_neq; intros ->; apply H; left; reflexivity).
    rewrite IH; [reflexivity|]. intros K. apply H. right. exact K.
Qed.
Lemma split1_none c s : ~ In c s -> split1 c s = None.
Proof.
  induction s as [|x s IH]; intros H; [reflexivity|]. cbn.
  replace (x =? c)%N with false by (symmetry; apply N.eqb_neq; intros ->; apply H; left; reflexivity).
  rewrite IH; [reflexivity|]. intros K. apply H. right. exact K.
Qed.
Lemma ends_none c s : ~ In c s -> ends c s = false.
Proof.
  intros H. unfold ends. destruct (rev s) as [|x r] eqn:E; [reflexivity|]. apply N.eqb_neq. intros ->. apply H.
  apply in_rev. rewrite E. left. reflexivity.
Qed.

Section Python.
Variables (space : N -> bool) (lower casefold : str -> str) (isdigit : str -> bool).
Hypothesis py : python space lower casefold isdigit.

Lemma drop_visible k : Forall (fun c => (33 <= c <= 126)%N) k -> drop space k = k.
Proof. intros H. destruct k as [|c k]; [reflexivity|]. inversion H; subst. cbn. rewrite (space_visible _ _ _ _ py) by assumption. reflexivity. Qed.
Lemma strip_visible k : Forall (fun c => (33 <= c <= 126)%N) k -> strip space (32%N :: k) = k.
Proof.
  intros H. unfold strip. cbn [drop]. rewrite (space_32 _ _ _ _ py), (drop_visible k H), drop_visible, rev_involutive by (apply Forall_rev; exact H). reflexivity.
Qed.
Lemma lower_same k : Forall (fun c => (33 <= c <= 126)%N /\ ~ (65 <= c <= 90)%N) k -> lower (32%N :: k) = 32%N :: k.
Proof.
  intros H. rewrite (lower_ascii _ _ _ _ py).
  - cbn. f_equal. induction H as [|c k [H1 H2] _ IH]; [reflexivity|]. cbn. rewrite IH. f_equal. unfold lower1.
    destruct ((65 <=? c) && (c <=? 90))%N eqn:E; [|reflexivity]. rewrite andb_true_iff, !N.leb_le in E. lia.
  - constructor; [unfold ascii; lia|]. eapply Forall_impl; [|exact H]. unfold ascii. cbv beta. intros; lia.
Qed.

Lemma simple_visible k : simple_key k -> Forall (fun c => (33 <= c <= 126)%N /\ ~ (65 <= c <= 90)%N) k.
Proof. intros [_ H]. eapply Forall_impl; [|exact H]. intros c ((H1 & _) & _ & H2). auto. Qed.
Lemma simple_none k c : simple_key k -> (c = 59 \/ c = 61 \/ c = 42 \/ c = 32 \/ c = 34)%N -> ~ In c k.
Proof.
  intros [_ H] Hc K. rewrite Forall_forall in H. destruct (H _ K) as ((H1 & H2 & H3) & H4 & _).
  destruct Hc as [->|[->|[->|[->| ->]]]]; try lia; apply H2; cbn; tauto.
Qed.

Lemma key_plain k : simple_key k -> strip space (lower (32%N :: k)) = k /\ is_token k = true /\
  is_continuous_parameter isdigit k = false /\ is_extended_parameter k = false.
Proof.
  intros H. pose proof (simple_visible k H) as Hv. rewrite (lower_same k Hv), strip_visible by (eapply Forall_impl; [|exact Hv]; cbv beta; tauto).
  split; [reflexivity|]. split; [rewrite is_token_iff; destruct H as [Hn _]; destruct k; [congruence|reflexivity]|].
  pose proof (simple_none k 42 H ltac:(tauto)) as Hs. split.
  - unfold is_continuous_parameter. rewrite split1_none by exact Hs. reflexivity.
  - apply ends_none. exact Hs.
Qed.

(** One step for a name in lower case. *)
Lemma parse_simple fuel t k v parts ps : simple_key k -> dict_get ps k = None ->
  parse_parts space lower casefold isdigit (S fuel) t (((32%N :: k) ++ 61%N :: v) :: parts) ps =
  let value := lstrip space v in
  if is_quoted value then Parsed None []
  else if is_token value then parse_parts space lower casefold isdigit fuel t parts (ps ++ [(k, value)])
  else
    match parts with
    | [] => Parsed None []
    | next :: rest =>
        let joined := value ++ [59%N] ++ next in
        if is_quoted joined
        then parse_parts space lower casefold isdigit fuel t rest (ps ++ [(k, unescape (lstrip_slashes (inner joined)))])
        else Parsed None []
    end.
Proof.
  intros Hk Hd. destruct (key_plain k Hk) as (K1 & K2 & K3 & K4). cbn [parse_parts].
  rewrite split1_app by (intros [K|K]; [discriminate|revert K; apply simple_none; [exact Hk|tauto]]).
  cbv zeta. rewrite K1, Hd, K2, K3, K4. reflexivity.
Qed.

Lemma is_quoted_quoted v : is_quoted (quoted v) = true.
Proof.
  unfold is_quoted, quoted, ends. rewrite !app_length. cbn [app]. change (34%N :: v ++ [34%N]) with ((34%N :: v) ++ [34%N]). rewrite rev_app_distr. cbn [rev app].
  cbn [N.eqb Pos.eqb]. rewrite !andb_true_r. apply Nat.ltb_lt. cbn. lia.
Qed.

Lemma parse_head t r : t <> [] -> ~ In 59%N t -> parse space lower casefold isdigit (t ++ 59%N :: r) =
  parse_parts space lower casefold isdigit (length (split 59 r)) t (split 59 r) [].
Proof.
  intros Hn Ht. unfold parse. rewrite split_app by exact Ht. rewrite is_token_iff. destruct t; [congruence|]. reflexivity.
Qed.

Lemma visible_34 : space 34%N = false.
Proof. apply (space_visible _ _ _ _ py). lia. Qed.

Theorem parse_quoted t k v rest : t <> [] -> ~ In 59%N t -> simple_key k -> ~ In 59%N v -> rest_ok rest ->
  parse space lower casefold isdigit (t ++ [59; 32]%N ++ k ++ [61%N] ++ quoted v ++ rest) = Parsed None [].
Proof.
  intros Hn Ht Hk Hv Hr.
  replace (t ++ [59; 32]%N ++ k ++ [61%N] ++ quoted v ++ rest) with (t ++ 59%N :: (((32%N :: k) ++ 61%N :: quoted v) ++ rest)).
  2:{ cbn [app]. rewrite <- app_assoc. cbn [app]. reflexivity. }
  rewrite parse_head by assumption.
  assert (Hi : ~ In 59%N ((32%N :: k) ++ 61%N :: quoted v)).
  { intros K. apply in_app_or in K. destruct K as [[K|K]|[K|K]]; try discriminate.
    - revert K. apply simple_none; [exact Hk|tauto].
    - unfold quoted in K. apply in_app_or in K. destruct K as [[K|[]]|K]; [discriminate|]. apply in_app_or in K. destruct K as [K|[K|[]]]; [auto|discriminate]. }
  assert (E : exists parts, split 59 (((32%N :: k) ++ 61%N :: quoted v) ++ rest) = ((32%N :: k) ++ 61%N :: quoted v) :: parts).
  { destruct Hr as [->|(r & ->)]; [rewrite app_nil_r, split_none by exact Hi; eexists; reflexivity|].
    rewrite split_app by exact Hi. eexists; reflexivity. }
  destruct E as (parts & ->). cbn [length]. rewrite parse_simple by (assumption || reflexivity). cbv zeta.
  unfold lstrip, quoted. cbn [app drop]. rewrite visible_34. change (34%N :: v ++ [34%N]) with (quoted v). rewrite is_quoted_quoted. reflexivity.
Qed.

Theorem parse_built t k v ps h : token t -> simple_key k -> k <> chars "file_name" -> short_ascii v -> ~ In 59%N v ->
  build t ((k, v) :: ps) true = Some h -> parse space lower casefold isdigit h = Parsed None [].
Proof.
  intros Ht Hk Hf Hv Hs. rewrite build_some by exact Ht. cbn [build_parameters].
  assert (En : name_of k = k). { unfold name_of. destruct (beqb k s_file_name) eqn:E; [apply beqb_iff in E; contradiction|reflexivity]. }
  assert (Tk : token k). { destruct Hk as [Hn Hk]. split; [exact Hn|]. eapply Forall_impl; [|exact Hk]. cbv beta; tauto. }
  rewrite build_one, En by (rewrite ?En; [apply Tk|apply token_tok, Tk] || (rewrite En; apply Tk) || (rewrite En; apply token_tok, Tk)).
  pose proof Hv as Hb. apply short_below in Hb. rewrite Hb. destruct (build_parameters true ps) as [b|] eqn:Eb; [|discriminate].
  cbn [option_map]. intros H. injection H as <-. rewrite <- !app_assoc. apply parse_quoted.
  - apply Ht.
  - intros K. pose proof (token_tok t Ht) as T. rewrite forallb_forall in T. apply T in K. vm_compute in K. discriminate.
  - exact Hk.
  - intros K. unfold esc in K. apply in_flat_map in K. destruct K as (d & Hd & K). destruct (escapable d).
    + cbn in K. destruct K as [K|[K|[]]]; [discriminate|]. subst. contradiction.
    + destruct K as [K|[]]. subst. contradiction.
  - eapply build_rest, Eb.
Qed.

Lemma dict_get_none ps k : ~ In k (map fst ps) -> dict_get ps k = None.
Proof.
  induction ps as [|[k' v] ps IH]; intros H; [reflexivity|]. cbn. destruct (beqb k' k) eqn:E; [apply beqb_iff in E; subst; destruct H; left; reflexivity|].
  apply IH. intros K. apply H. right. exact K.
Qed.

Lemma raw_items ps : Forall (fun p => simple_key (fst p) /\ raw_value (snd p)) ps -> ps <> [] ->
  exists r, concat (map raw_parameter ps) = 59%N :: r /\ split 59 r = map (fun p => (32%N :: fst p) ++ 61%N :: snd p) ps.
Proof.
  intros H. induction H as [|[k v] ps [Hk Hv] H IH]; intros Hn; [congruence|]. cbn [map concat]. unfold raw_parameter at 1.
  assert (Hi : ~ In 59%N ((32%N :: k) ++ 61%N :: v)).
  { intros K. apply in_app_or in K. destruct K as [[K|K]|[K|K]]; try discriminate.
    - revert K. apply simple_none; [exact Hk|tauto].
    - destruct Hv as [_ Hv]. rewrite Forall_forall in Hv. apply Hv in K. tauto. }
  exists (((32%N :: k) ++ 61%N :: v) ++ concat (map raw_parameter ps)). split; [cbn; rewrite <- app_assoc; reflexivity|].
  destruct ps as [|p ps]; [cbn [map concat]; rewrite app_nil_r, split_none by exact Hi; reflexivity|].
  destruct (IH ltac:(discriminate)) as (r & E & Es). rewrite E, split_app, Es by exact Hi. reflexivity.
Qed.

Lemma parse_raws t ps : forall acc fuel, Forall (fun p => simple_key (fst p) /\ raw_value (snd p)) ps -> NoDup (map fst (acc ++ ps)) -> length ps <= fuel ->
  parse_parts space lower casefold isdigit fuel t (map (fun p => (32%N :: fst p) ++ 61%N :: snd p) ps) acc = Parsed (Some (casefold t)) (acc ++ ps).
Proof.
  induction ps as [|[k v] ps IH]; intros acc fuel H Hd Hf.
  - rewrite app_nil_r. destruct fuel; reflexivity.
  - inversion H as [|? ? [Hk Hv] H']; subst. cbn [fst snd] in *. destruct fuel as [|fuel]; [cbn in Hf; lia|]. cbn [map fst snd].
    rewrite parse_simple; [|exact Hk|].
    2:{ apply dict_get_none. rewrite map_app in Hd. cbn in Hd. apply NoDup_remove_2 in Hd. intros K. apply Hd. apply in_or_app. left. exact K. }
    cbv zeta. unfold lstrip. rewrite drop_visible by (eapply Forall_impl; [|apply Hv]; cbv beta; tauto).
    assert (Q : is_quoted v = false).
    { unfold is_quoted. destruct v as [|c v]; [reflexivity|]. destruct Hv as [_ Hv]. inversion Hv; subst.
      replace (c =? 34)%N with false by (symmetry; apply N.eqb_neq; tauto). rewrite andb_false_r. reflexivity. }
    rewrite Q, is_token_iff. destruct v as [|c v]; [destruct Hv; congruence|]. rewrite IH.
    + rewrite <- app_assoc. reflexivity.
    + exact H'.
    + rewrite <- app_assoc. exact Hd.
    + cbn in Hf. lia.
Qed.

Theorem parse_raw t ps : token t -> ps <> [] -> Forall (fun p => simple_key (fst p) /\ raw_value (snd p)) ps -> NoDup (map fst ps) ->
  parse space lower casefold isdigit (t ++ concat (map raw_parameter ps)) = Parsed (Some (map lower1 t)) ps.
Proof.
  intros Ht Hn Hp Hd. destruct (raw_items ps Hp Hn) as (r & E & Es). rewrite E, parse_head, Es.
  - rewrite parse_raws with (acc := []); [cbn [app]|exact Hp|exact Hd|rewrite map_length; apply le_n].
    rewrite (casefold_ascii _ _ _ _ py); [reflexivity|]. destruct Ht as [_ Ht]. eapply Forall_impl; [|exact Ht]. unfold tchar, ascii. cbv beta. intros; lia.
  - apply Ht.
  - intros K. destruct Ht as [_ Ht]. rewrite Forall_forall in Ht. apply Ht in K. destruct K as (_ & K & _). apply K. cbn. tauto.
Qed.

(** An extended parameter is decoded with the name of its encoding as the set of the unsafe characters. *)
Theorem parse_extended v : ~ In 59%N v -> ~ In 39%N v -> v <> [] ->
  parse space lower casefold isdigit (chars "attachment; filename*=utf-8''" ++ v) =
  match unquote (Some (chars "utf-8")) true v with
  | Some w => Parsed (Some (chars "attachment")) [(chars "filename*", w)]
  | None => Raises
  end.
Proof.
  intros H1 H2 H3.
  change (chars "attachment; filename*=utf-8''" ++ v) with (chars "attachment" ++ 59%N :: ((32%N :: chars "filename*") ++ 61%N :: (chars "utf-8''" ++ v))).
  rewrite parse_head; [|discriminate|vm_compute; intuition discriminate].
  rewrite split_none.
  2:{ intros K. apply in_app_or in K. destruct K as [K|[K|K]]; [vm_compute in K; intuition discriminate|discriminate|].
      apply in_app_or in K. destruct K as [K|K]; [vm_compute in K; intuition discriminate|contradiction]. }
  cbn [length parse_parts]. rewrite split1_app by (vm_compute; intuition discriminate). cbv zeta.
  assert (F : Forall (fun c => (33 <= c <= 126)%N /\ ~ (65 <= c <= 90)%N) (chars "filename*")) by (cbn; repeat (apply Forall_cons; [lia|]); apply Forall_nil).
  rewrite (lower_same _ F), strip_visible by (eapply Forall_impl; [|exact F]; cbv beta; tauto).
  cbn [dict_get]. rewrite is_token_iff. change (is_continuous_parameter isdigit (chars "filename*")) with (isdigit []). rewrite (digit_empty _ _ _ _ py).
  change (is_extended_parameter (chars "filename*")) with true. cbv beta iota.
  assert (L : lstrip space (chars "utf-8''" ++ v) = chars "utf-8''" ++ v).
  { change (chars "utf-8''" ++ v) with (117%N :: (chars "tf-8''" ++ v)). unfold lstrip. cbn [drop]. rewrite (space_visible _ _ _ _ py) by lia. reflexivity. }
  rewrite L.
  assert (Es : forall l, l = chars "utf-8''" ++ v -> is_rfc5987 l = true /\ split 39 l = [chars "utf-8"; []; v]).
  { intros l ->. split.
    - unfold is_rfc5987. rewrite is_token_iff. change (count 39 (chars "utf-8''" ++ v)) with (S (S (count 39 v))).
      assert (C : count 39 v = 0).
      { clear - H2. unfold count. induction v as [|c v IH]; [reflexivity|]. cbn [filter]. destruct (N.eqb_spec 39 c) as [<-|]; [destruct H2; left; reflexivity|].
        apply IH. intros K. apply H2. right. exact K. }
      rewrite C. reflexivity.
    - change (chars "utf-8''" ++ v) with (chars "utf-8" ++ 39%N :: ([] ++ 39%N :: v)). rewrite !split_app by (vm_compute; intuition discriminate). rewrite split_none by exact H2. reflexivity. }
  destruct (Es _ eq_refl) as [E1 E2]. rewrite E1, E2. change (match chars "utf-8" with [] => s_utf8 | _ => chars "utf-8" end) with (chars "utf-8").
  change (match chars "filename*" with [] => false | _ => true end) with true. cbn [negb].
  destruct (unquote _ true v); [|reflexivity]. rewrite (casefold_ascii _ _ _ _ py); [reflexivity|]. cbn. repeat (apply Forall_cons; [unfold ascii; lia|]). apply Forall_nil.
Qed.
End Python.

(** * File names *)

Lemma sleb_total a b : sleb a b = true \/ sleb b a = true.
Proof.
  revert b. induction a as [|x a IH]; intros [|y b]; cbn; auto. destruct (N.ltb_spec x y), (N.ltb_spec y x); auto.
Qed.
Lemma sleb_trans a b c : sleb a b = true -> sleb b c = true -> sleb a c = true.
Proof.
  revert b c. induction a as [|x a IH]; intros [|y b] [|z c]; cbn; auto; try discriminate.
  destruct (N.ltb_spec x y), (N.ltb_spec y x), (N.ltb_spec y z), (N.ltb_spec z y), (N.ltb_spec x z), (N.ltb_spec z x); auto; try lia; try discriminate.
  apply IH.
Qed.
Lemma sleb_antisym a b : sleb a b = true -> sleb b a = true -> a = b.
Proof.
  revert b. induction a as [|x a IH]; intros [|y b]; cbn; auto; try discriminate.
  destruct (N.ltb_spec x y), (N.ltb_spec y x); try discriminate; try lia. intros H1 H2. f_equal; [lia|apply IH; assumption].
Qed.

Lemma insert_perm p l : Permutation (insert p l) (p :: l).
Proof.
  induction l as [|q l IH]; cbn; [reflexivity|]. destruct (sleb (fst p) (fst q)); [reflexivity|]. rewrite IH. apply perm_swap.
Qed.
Lemma sorted_perm l : Permutation (sorted l) l.
Proof. induction l as [|p l IH]; cbn; [reflexivity|]. fold (sorted l). rewrite insert_perm, IH. reflexivity. Qed.

Inductive ordered : list (str * str) -> Prop :=
| O_nil : ordered []
| O_cons p l : Forall (fun q => sleb (fst p) (fst q) = true) l -> ordered l -> ordered (p :: l).

Lemma insert_ordered p l : ordered l -> ordered (insert p l).
Proof.
  induction 1 as [|q l Hq Ho IH]; cbn; [repeat constructor|]. destruct (sleb (fst p) (fst q)) eqn:E.
  - constructor; [|constructor; assumption]. constructor; [exact E|]. eapply Forall_impl; [|exact Hq]. cbv beta. intros r. apply sleb_trans, E.
  - constructor; [|exact IH]. apply (Permutation_Forall (Permutation_sym (insert_perm p l))). constructor; [|exact Hq].
    destruct (sleb_total (fst p) (fst q)); congruence.
Qed.
Lemma sorted_ordered l : ordered (sorted l).
Proof. induction l as [|p l IH]; cbn; [constructor|apply insert_ordered, IH]. Qed.

Lemma ordered_unique l : forall l', ordered l -> ordered l' -> NoDup (map fst l) -> Permutation l l' -> l = l'.
Proof.
  induction l as [|p l IH]; intros l' H1 H2 Hd Hp; [apply Permutation_nil in Hp; congruence|].
  destruct l' as [|q l']; [apply Permutation_sym, Permutation_nil in Hp; discriminate|].
  inversion H1 as [|? ? Hp1 Ho1]; inversion H2 as [|? ? Hq1 Ho2]; subst. inversion Hd as [|? ? Hn Hd']; subst.
  assert (E : p = q).
  { assert (Iq : In q (p :: l)) by (eapply Permutation_in; [apply Permutation_sym, Hp|left; reflexivity]).
    assert (Ip : In p (q :: l')) by (eapply Permutation_in; [apply Hp|left; reflexivity]).
    destruct Iq as [->|Iq]; [reflexivity|]. destruct Ip as [Ip|Ip]; [congruence|]. rewrite Forall_forall in Hp1, Hq1.
    specialize (Hp1 _ Iq). specialize (Hq1 _ Ip). destruct Hn. rewrite (sleb_antisym _ _ Hp1 Hq1). apply in_map. exact Iq. }
  subst q. f_equal. apply IH; try assumption. eapply Permutation_cons_inv, Hp.
Qed.

Lemma filter_perm (f : str * str -> bool) a b : Permutation a b -> Permutation (filter f a) (filter f b).
Proof.
  induction 1; cbn.
  - reflexivity.
  - destruct (f x); [constructor|]; assumption.
  - destruct (f x), (f y); try reflexivity. apply perm_swap.
  - etransitivity; eassumption.
Qed.

Lemma starts_iff (p s : str) : starts_with p s = true <-> exists r, s = p ++ r.
Proof.
  revert s. induction p as [|x p IH]; intros s; cbn; [split; [intros _; exists s; reflexivity|auto]|]. destruct s as [|y s]; [split; [discriminate|intros (r & H); discriminate]|].
  rewrite andb_true_iff, N.eqb_eq, IH. split.
  - intros [-> (r & ->)]. exists r. reflexivity.
  - intros (r & H). injection H as -> ->. split; [reflexivity|exists r; reflexivity].
Qed.

Lemma segment_key i v : i < 10 -> segment i v = (s_filename_star ++ [N.of_nat (48 + i)], v).
Proof. intros H. do 10 (destruct i as [|i]; [reflexivity|]). lia. Qed.
Lemma show_digit i : i < 10 -> show i = [N.of_nat (48 + i)].
Proof. intros H. do 10 (destruct i as [|i]; [reflexivity|]). lia. Qed.

Lemma segments_in vs : forall i p, In p (segments i vs) -> exists j, i <= j < i + length vs /\ fst p = fst (segment j []).
Proof.
  induction vs as [|v vs IH]; intros i p H; [destruct H|]. destruct H as [<-|H]; [exists i; cbn; split; [lia|reflexivity]|].
  destruct (IH (S i) p H) as (j & Hj & E). exists j. cbn. split; [lia|exact E].
Qed.

Lemma segments_ordered vs : forall i, i + length vs <= 10 -> ordered (segments i vs) /\ NoDup (map fst (segments i vs)).
Proof.
  induction vs as [|v vs IH]; intros i H; cbn [segments map]; [split; constructor|]. cbn [length] in H. destruct (IH (S i) ltac:(lia)) as [H1 H2].
  split; constructor; try assumption.
  - apply Forall_forall. intros p Hp. destruct (segments_in vs (S i) p Hp) as (j & Hj & ->). rewrite !segment_key by lia. cbn [fst].
    unfold s_filename_star, s_filename. cbn [app sleb]. rewrite !N.ltb_irrefl. replace (N.of_nat (48 + i) <? N.of_nat (48 + j))%N with true by (symmetry; apply N.ltb_lt; lia). reflexivity.
  - intros K. apply in_map_iff in K. destruct K as (p & E & Hp). destruct (segments_in vs (S i) p Hp) as (j & Hj & E'). rewrite E' in E.
    rewrite !segment_key in E by lia. cbn [fst] in E. apply app_inv_head in E. assert (E2 : N.of_nat (48 + j) = N.of_nat (48 + i)) by congruence. lia.
Qed.

Lemma segments_continued vs : forall i, i + length vs <= 10 -> continued i (segments i vs) = vs.
Proof.
  induction vs as [|v vs IH]; intros i H; [reflexivity|]. cbn [length] in H. cbn [segments continued]. rewrite segment_key by lia. cbv beta iota.
  change (s_filename_star ++ [N.of_nat (48 + i)]) with (s_filename ++ 42%N :: [N.of_nat (48 + i)]).
  rewrite split1_app by (vm_compute; intuition discriminate). cbv beta iota.
  assert (E : ends 42 [N.of_nat (48 + i)] = false) by (unfold ends; cbn [rev app]; apply N.eqb_neq; lia). rewrite E, show_digit, beqb_same, IH by lia. reflexivity.
Qed.

Lemma dict_get_absent ps k : (forall p, In p ps -> fst p <> k) -> dict_get ps k = None.
Proof. intros H. apply dict_get_none. intros K. apply in_map_iff in K. destruct K as (p & E & Hp). exact (H p Hp E). Qed.

Theorem file_name_joined vs others ps : vs <> [] -> length vs <= 10 -> Permutation ps (segments 0 vs ++ others) -> Forall unrelated others ->
  ~ In 39%N (concat vs) -> get_file_name ps (chars "filename") = Name (Some (concat vs)).
Proof.
  intros Hn Hl Hp Ho Hq. unfold get_file_name. destruct ps as [|p0 ps0] eqn:Eps.
  { apply Permutation_nil in Hp. destruct vs; [congruence|discriminate]. }
  rewrite <- Eps in *. clear Eps p0 ps0. rewrite Forall_forall in Ho.
  assert (K : forall p, In p ps -> In p (segments 0 vs) \/ In p others) by (intros p H; apply in_app_or; eapply Permutation_in; eassumption).
  rewrite dict_get_absent; [rewrite dict_get_absent|].
  - assert (E : sorted (filter (fun p => starts_with s_filename_star (fst p)) ps) = segments 0 vs).
    { set (f := fun p : str * str => starts_with s_filename_star (fst p)).
      change (sorted (filter f ps) = segments 0 vs). destruct (segments_ordered vs 0 ltac:(lia)) as [O1 O2]. symmetry. apply ordered_unique; try assumption; [apply sorted_ordered|].
      rewrite sorted_perm, (filter_perm _ _ _ Hp), filter_app.
      assert (E1 : filter f (segments 0 vs) = segments 0 vs).
      { clear - f. generalize 0. induction vs as [|v vs IH]; intros i; [reflexivity|]. cbn [segments filter].
        replace (f (segment i v)) with true; [rewrite IH; reflexivity|]. symmetry. apply starts_iff. eexists. reflexivity. }
      assert (E2 : filter f others = []).
      { clear - Ho f. induction others as [|p l IH]; [reflexivity|]. cbn [filter]. destruct (f p) eqn:E; [|apply IH; intros q Hq; apply Ho; right; exact Hq].
        apply starts_iff in E. destruct E as (r & E). destruct (Ho p (or_introl eq_refl)) as [_ K]. destruct (K r E). }
      rewrite E1, E2, app_nil_r. reflexivity. }
    rewrite E, segments_continued by lia. destruct vs as [|v vs]; [congruence|]. cbv zeta.
    replace (has 39 (concat (v :: vs))) with false; [reflexivity|]. symmetry. unfold has. destruct (existsb _ _) eqn:Ee; [|reflexivity].
    apply existsb_exists in Ee. destruct Ee as (c & Hc & Ec). apply N.eqb_eq in Ec. subst. contradiction.
  - intros p Hp'. destruct (K p Hp') as [H|H].
    + destruct (segments_in _ _ _ H) as (j & _ & ->). discriminate.
    + apply (Ho p H).
  - intros p Hp'. destruct (K p Hp') as [H|H].
    + destruct (segments_in _ _ _ H) as (j & Hj & ->). rewrite segment_key by lia. vm_compute. discriminate.
    + destruct (Ho p H) as [_ H']. specialize (H' []). exact H'.
Qed.

(** A single apostrophe. *)
Theorem file_name_apostrophe a b : ~ In 39%N a -> ~ In 39%N b -> get_file_name [(chars "filename*0", a ++ 39%N :: b)] (chars "filename") = NameRaises.
Proof.
  intros Ha Hb. unfold get_file_name.
  replace (dict_get _ (chars "filename" ++ [42%N])) with (@None str) by reflexivity. replace (dict_get _ (chars "filename")) with (@None str) by reflexivity.
  replace (continued 0 _) with [a ++ 39%N :: b] by reflexivity. cbn [concat]. rewrite app_nil_r. cbv zeta.
  replace (has 39 (a ++ 39%N :: b)) with true. 2:{ symmetry. apply existsb_exists. exists 39%N. split; [apply in_or_app; right; left; reflexivity|reflexivity]. }
  cbn [negb]. rewrite split1_app by exact Ha. rewrite split1_none by exact Hb. reflexivity.
Qed.
