From Coq Require Import String List Arith Bool NArith Lia.
From Verif Require Import Bytes Text QuoteModel QuoteSpec QuoteProofs HeadModel HeadSpec.
Import ListNotations.

(** * utf-8 of the parts *)

Lemma utf8_app a b : utf8 (a ++ b) = utf8 a ++ utf8 b.
Proof. apply flat_map_app. Qed.
Lemma utf8_ascii s : Forall (fun c => (c < 128)%N) s -> utf8 s = s.
Proof.
  induction 1 as [|c s Hc _ IH]; [reflexivity|]. unfold utf8 in *. cbn [flat_map]. rewrite IH, encode1_low by assumption. reflexivity.
Qed.
Lemma decode_utf8 s : Forall scalar s -> utf8_decode (utf8 s) = Some s.
Proof.
  induction 1 as [|c s Hc _ IH]; [reflexivity|]. unfold utf8 in *. cbn [flat_map]. rewrite decode_encode1, IH by assumption. reflexivity.
Qed.
Lemma utf8_nil s : utf8 s = [] -> s = [].
Proof.
  destruct s as [|c s]; [reflexivity|]. unfold utf8. cbn [flat_map]. intros H. apply app_eq_nil in H. destruct H as [H _].
  destruct (encode1_nonempty c H).
Qed.

Lemma utf8_first c s : exists b l, utf8 (c :: s) = b :: l /\ ((c < 128)%N /\ b = c \/ (128 <= c)%N /\ (128 <= b)%N).
Proof.
  unfold utf8. cbn [flat_map]. destruct (N.ltb_spec c 128) as [L|L].
  - rewrite encode1_low by assumption. exists c, (flat_map encode1 s). auto.
  - destruct (encode1 c) as [|b l] eqn:E; [destruct (encode1_nonempty c E)|]. exists b, (l ++ flat_map encode1 s).
    split; [reflexivity|]. right. split; [assumption|]. apply (encode1_high c); [assumption|rewrite E; left; reflexivity].
Qed.
Lemma utf8_last s c : exists b l, utf8 (s ++ [c]) = l ++ [b] /\ ((c < 128)%N /\ b = c \/ (128 <= c)%N /\ (128 <= b)%N).
Proof.
  rewrite utf8_app. replace (utf8 [c]) with (encode1 c) by (unfold utf8; cbn [flat_map]; rewrite app_nil_r; reflexivity).
  destruct (N.ltb_spec c 128) as [L|L].
  - rewrite encode1_low by assumption. exists c, (utf8 s). auto.
  - destruct (exists_last (encode1_nonempty c)) as (l & b & E). rewrite E. exists b, (utf8 s ++ l).
    split; [apply app_assoc|]. right. split; [assumption|]. apply (encode1_high c); [assumption|rewrite E; apply in_or_app; right; left; reflexivity].
Qed.

Lemma space_low c : is_space c = true -> (c < 128)%N.
Proof. unfold is_space. rewrite orb_true_iff, andb_true_iff, N.eqb_eq, !N.leb_le. lia. Qed.
Lemma space_high c : (128 <= c)%N -> is_space c = false.
Proof. intros H. destruct (is_space c) eqn:E; [apply space_low in E; lia|reflexivity]. Qed.

Lemma strip_trimmed l : trimmed l -> strip l = l.
Proof.
  intros [H1 H2]. unfold strip. rewrite (lstrip_fix l H1), (lstrip_fix (rev l) H2). apply rev_involutive.
Qed.

Lemma trimmed_utf8 s : trimmed s -> trimmed (utf8 s).
Proof.
  intros [H1 H2]. split.
  - destruct s as [|c s]; [exact I|]. destruct (utf8_first c s) as (b & l & -> & [[L ->]|[L Lb]]); [exact H1|apply space_high; exact Lb].
  - destruct s as [|x s'] using rev_ind; [exact I|]. clear IHs'. rewrite rev_app_distr in H2. cbn [rev app] in H2.
    destruct (utf8_last s' x) as (b & l & -> & [[L ->]|[L Lb]]); rewrite rev_app_distr; cbn [rev app]; [exact H2|apply space_high; exact Lb].
Qed.

(** * Lines *)

Definition clean (l : bytes) : Prop := ~ In 13%N l /\ ~ In 10%N l.
Lemma clean_cons c l : clean (c :: l) -> c <> 13%N /\ c <> 10%N /\ clean l.
Proof.
  intros [H1 H2]. split; [intros ->; apply H1; left; reflexivity|]. split; [intros ->; apply H2; left; reflexivity|].
  split; intros Q; [apply H1|apply H2]; right; exact Q.
Qed.
Lemma clean_app a b : clean a -> clean b -> clean (a ++ b).
Proof. intros [A1 A2] [B1 B2]. split; intros Q; apply in_app_or in Q; tauto. Qed.

Lemma clean_utf8 s : one_line s -> clean (utf8 s).
Proof. intros (Hs & H1 & H2). split; intros Q; apply utf8_low in Q; try assumption; try contradiction; reflexivity. Qed.

Ltac eqb_false H := apply N.eqb_neq in H; rewrite H.

Lemma find_line l r : clean l -> find crlf (l ++ crlf ++ r) = Some (List.length l).
Proof.
  induction l as [|c l IH]; intros H.
  - reflexivity.
  - apply clean_cons in H. destruct H as (H1 & H2 & H). cbn [app find starts_with crlf List.length].
    assert (E : N.eqb 13 c = false) by (apply N.eqb_neq; congruence). rewrite E. cbn [andb]. fold crlf.
    change (13%N :: 10%N :: r) with (crlf ++ r). rewrite IH by assumption. reflexivity.
Qed.
Lemma find_no_line l : clean l -> find crlf l = None.
Proof.
  induction l as [|c l IH]; intros H; [reflexivity|]. apply clean_cons in H. destruct H as (H1 & H2 & H). cbn [find starts_with crlf].
  assert (E : N.eqb 13 c = false) by (apply N.eqb_neq; congruence). rewrite E. cbn [andb]. fold crlf. rewrite IH by assumption. reflexivity.
Qed.

Definition body (lines : list bytes) : bytes := flat_map (fun l => crlf ++ l) lines.
Definition good_line (l : bytes) : Prop := clean l /\ l <> [].

Lemma find_skip p c l : starts_with p (c :: l) = false -> find p (c :: l) = option_map S (find p l).
Proof. intros H. cbn [find]. rewrite H. reflexivity. Qed.

Lemma find_end l r : clean l -> match r with [] => False | c :: _ => c <> 13%N end ->
  find (crlf ++ crlf) (l ++ crlf ++ r) = option_map (fun i => List.length l + 2 + i) (find (crlf ++ crlf) r).
Proof.
  intros Hl Hr. revert Hl. induction l as [|c l IH]; intros Hl.
  - destruct r as [|x r]; [contradiction|].
    assert (E : N.eqb 13 x = false) by (apply N.eqb_neq; congruence).
    change ([] ++ crlf ++ x :: r) with (13%N :: 10%N :: x :: r). rewrite (find_skip _ 13%N) by (cbn [starts_with crlf app]; rewrite E; reflexivity).
    rewrite (find_skip _ 10%N) by reflexivity. destruct (find _ _); reflexivity.
  - apply clean_cons in Hl. destruct Hl as (H1 & H2 & Hl). cbn [app find List.length].
    replace (starts_with (crlf ++ crlf) (c :: l ++ crlf ++ r)) with false
      by (cbn [crlf app starts_with]; rewrite (proj2 (N.eqb_neq 13 c)) by congruence; reflexivity).
    change (13%N :: 10%N :: r) with (crlf ++ r). fold crlf. rewrite IH by assumption.
    destruct (find (crlf ++ crlf) r); reflexivity.
Qed.

Lemma find_final l : clean l -> find (crlf ++ crlf) (l ++ crlf ++ crlf) = Some (List.length l).
Proof.
  induction l as [|c l IH]; intros Hl; [reflexivity|]. apply clean_cons in Hl. destruct Hl as (H1 & H2 & Hl).
  cbn [app find List.length].
  replace (starts_with (crlf ++ crlf) (c :: l ++ crlf ++ crlf)) with false
    by (cbn [crlf app starts_with]; rewrite (proj2 (N.eqb_neq 13 c)) by congruence; reflexivity).
  fold (crlf ++ crlf). rewrite IH by assumption. reflexivity.
Qed.

Lemma find_body : forall lines l, clean l -> Forall good_line lines ->
  find (crlf ++ crlf) (l ++ body lines ++ crlf ++ crlf) = Some (List.length (l ++ body lines)).
Proof.
  induction lines as [|x lines IH]; intros l Hl H.
  - cbn [body flat_map app]. rewrite app_nil_r. apply find_final. assumption.
  - inversion H as [|? ? [Hc Hn] Hr]. subst. unfold body in *. cbn [flat_map]. rewrite <- !app_assoc.
    rewrite find_end; [|assumption|destruct x as [|c x]; [congruence|apply clean_cons in Hc; cbn [app]; tauto]].
    rewrite IH by assumption. cbn [option_map]. rewrite !app_length. cbn [List.length crlf]. f_equal. lia.
Qed.

(** * Header lines *)

Definition hline (kv : bytes * bytes) : bytes := fst kv ++ [58; 32]%N ++ snd kv.
Definition name_ok (k : bytes) : Prop := k <> [] /\ Forall (fun c => c <> 58%N /\ (32 < c)%N) k.
Definition header_ok (kv : bytes * bytes) : Prop := name_ok (fst kv) /\ clean (snd kv) /\ trimmed (snd kv).

Lemma name_clean k : name_ok k -> clean k /\ ~ In 58%N k.
Proof.
  intros [_ H]. rewrite Forall_forall in H. split; [split|]; intros Q; apply H in Q; destruct Q as [Q1 Q2]; try lia; congruence.
Qed.
Lemma hline_good kv : header_ok kv -> good_line (hline kv).
Proof.
  intros (Hk & Hv & _). destruct (name_clean _ Hk) as [Hc _]. split.
  - unfold hline. apply clean_app; [assumption|]. apply clean_app; [|assumption]. split; cbn; intuition discriminate.
  - unfold hline. destruct (fst kv); [destruct Hk; congruence|discriminate].
Qed.
Lemma hline_not_folded kv r : header_ok kv -> folded (hline kv ++ r) = false.
Proof.
  intros ([Hn Hk] & _). unfold hline. destruct (fst kv) as [|c k]; [congruence|]. inversion Hk as [|? ? [H1 H2]]. subst.
  cbn [app folded]. rewrite (proj2 (N.eqb_neq c 9)) by lia. rewrite (proj2 (N.eqb_neq c 32)) by lia. reflexivity.
Qed.

Lemma line_end_body l lines : clean l -> line_end (l ++ body lines) = List.length l.
Proof.
  intros Hl. unfold line_end. destruct lines as [|x lines].
  - cbn [body flat_map]. rewrite app_nil_r, find_no_line by assumption. reflexivity.
  - unfold body. cbn [flat_map]. rewrite <- app_assoc, find_line by assumption. reflexivity.
Qed.

Lemma skipn_body l lines : skipn (List.length l + 2) (l ++ body lines) = skipn 2 (body lines).
Proof. rewrite skipn_app. rewrite skipn_all2 by lia. cbn [app]. f_equal. lia. Qed.

Lemma skipn_hline k v : skipn (S (List.length k)) (hline (k, v)) = 32%N :: v.
Proof. unfold hline. cbn [fst snd app]. apply skipn_here. Qed.

Lemma folds_hline fuel kv r : header_ok kv -> folds fuel (hline kv ++ r) = ([], hline kv ++ r).
Proof. intros H. destruct fuel; [reflexivity|]. cbn [folds]. rewrite hline_not_folded by assumption. reflexivity. Qed.

Lemma parse_headers_body : forall hs fuel, Forall header_ok hs -> List.length hs < fuel ->
  parse_headers fuel (skipn 2 (body (map hline hs))) = Some hs.
Proof.
  induction hs as [|[k v] hs IH]; intros fuel H Hf; (destruct fuel as [|fuel]; [inversion Hf|]).
  - reflexivity.
  - inversion H as [|? ? Hh Hr]. subst. pose proof Hh as (Hk & Hv & Ht). cbn [fst snd] in *.
    unfold body. cbn [map flat_map]. change (skipn 2 ((crlf ++ hline (k, v)) ++ flat_map (fun l => crlf ++ l) (map hline hs)))
      with (hline (k, v) ++ body (map hline hs)).
    cbn [parse_headers]. cbv zeta. destruct (hline_good _ Hh) as [Hc Hn]. rewrite line_end_body by assumption.
    destruct (Nat.eqb_spec (List.length (hline (k, v))) 0) as [E|_].
    { destruct (hline (k, v)); [congruence|discriminate]. }
    rewrite firstn_here. destruct (name_clean k Hk) as [Hkc Hk58].
    assert (Hfind : find [58%N] (hline (k, v)) = Some (List.length k)) by (unfold hline; cbn [fst snd app]; apply find_here'; assumption).
    rewrite Hfind. clear Hfind. destruct (List.length k) as [|n] eqn:En.
    { destruct Hk as [Hk _]. destruct k; [congruence|discriminate]. }
    rewrite <- En. clear n En.
    replace (firstn (List.length k) (hline (k, v) ++ body (map hline hs))) with k
      by (unfold hline; cbn [fst snd]; rewrite <- !app_assoc, firstn_here; reflexivity).
    rewrite skipn_hline, strip_sp, strip_trimmed by (assumption || reflexivity). rewrite skipn_body.
    rewrite lstrip_fix.
    2:{ destruct Hk as [_ Hk]. destruct k as [|c k]; [exact I|]. inversion Hk as [|? ? [Q1 Q2]]. subst.
        destruct (is_space c) eqn:E; [|reflexivity]. unfold is_space in E.
        rewrite orb_true_iff, andb_true_iff, N.eqb_eq, !N.leb_le in E. lia. }
    destruct hs as [|h hs].
    + cbn [map body flat_map skipn List.length folds]. cbn [join]. rewrite IH; [reflexivity|assumption|cbn [List.length] in *; lia].
    + replace (skipn 2 (body (map hline (h :: hs)))) with (hline h ++ body (map hline hs)) by reflexivity.
      inversion Hr. subst. rewrite folds_hline by assumption. cbn [join].
      change (hline h ++ body (map hline hs)) with (skipn 2 (body (map hline (h :: hs)))).
      rewrite IH; [reflexivity|assumption|cbn [List.length] in *; lia].
Qed.

(** * Characters of names *)

Lemma token_range c : token_char c -> (32 < c < 127)%N /\ c <> 58%N.
Proof. unfold token_char. cbn. intuition (subst; (lia || discriminate)). Qed.

Lemma token_ascii s : token s -> Forall (fun c => (c < 128)%N) s.
Proof. intros [_ H]. eapply Forall_impl; [|exact H]. intros c Hc. apply token_range in Hc. lia. Qed.

Lemma ascii_scalar s : Forall (fun c => (c < 128)%N) s -> Forall scalar s.
Proof. apply Forall_impl. intros c Hc. unfold scalar. lia. Qed.

Definition ub (kv : str * str) : bytes * bytes := (utf8 (fst kv), utf8 (snd kv)).

Lemma valid_ok kv : valid_header kv -> header_ok (ub kv).
Proof.
  intros (Hk & Hv & Ht). unfold header_ok, ub. cbn [fst snd]. split; [|split].
  - rewrite utf8_ascii by (apply token_ascii; assumption). destruct Hk as [Hn Hk]. split; [assumption|].
    eapply Forall_impl; [|exact Hk]. intros c Hc. apply token_range in Hc. lia.
  - apply clean_utf8. assumption.
  - apply trimmed_utf8. assumption.
Qed.

Lemma decode_ub hs : Forall valid_header hs -> decode_headers (map ub hs) = Some hs.
Proof.
  induction 1 as [|[k v] hs (Hk & (Hv & _) & _) _ IH]; [reflexivity|]. cbn [map decode_headers]. unfold ub at 1. cbn [fst snd] in *.
  rewrite !decode_utf8, IH by (assumption || apply ascii_scalar, token_ascii; assumption). reflexivity.
Qed.

Lemma valid_oks hs : Forall valid_header hs -> Forall header_ok (map ub hs).
Proof. induction 1; constructor; auto using valid_ok. Qed.

Lemma wire_body line hs :
  line ++ crlf ++ utf8 (flat_map header_text hs) ++ crlf = line ++ body (map hline (map ub hs)) ++ crlf ++ crlf.
Proof.
  f_equal. induction hs as [|[k v] hs IH]; [reflexivity|]. cbn [flat_map map]. rewrite utf8_app, <- app_assoc.
  unfold header_text at 1. rewrite !utf8_app. rewrite (utf8_ascii crlf) by repeat constructor.
  rewrite (utf8_ascii [58; 32]%N) by repeat constructor. cbn [fst snd]. rewrite <- !app_assoc, IH.
  unfold body. cbn [flat_map]. unfold hline at 2, ub at 2. cbn [fst snd]. rewrite <- !app_assoc. reflexivity.
Qed.

Lemma body_length hs : List.length hs <= List.length (skipn 2 (body (map hline hs))).
Proof.
  assert (E : 2 * List.length hs <= List.length (body (map hline hs)) /\ (hs <> [] -> 2 * List.length hs + 2 <= List.length (body (map hline hs)))).
  { induction hs as [|h hs IH]; [cbn; split; [lia|congruence]|]. unfold body in *. cbn [map flat_map List.length]. rewrite !app_length.
    assert (2 <= List.length (hline h)) by (unfold hline; rewrite !app_length; cbn; lia). cbn [List.length crlf]. split; intros; lia. }
  rewrite skipn_length. destruct hs; [cbn; lia|]. destruct E as [_ E]. specialize (E ltac:(discriminate)). lia.
Qed.

(** The rest of a head after its first line. *)
Lemma rest_headers hs : Forall valid_header hs ->
  line_over (body (map hline (map ub hs))) = Some (skipn 2 (body (map hline (map ub hs)))) /\
  parse_http_headers (skipn 2 (body (map hline (map ub hs)))) = Some hs.
Proof.
  intros H. split; [destruct hs; reflexivity|]. unfold parse_http_headers. rewrite parse_headers_body.
  - apply decode_ub. assumption.
  - apply valid_oks. assumption.
  - pose proof (body_length (map ub hs)). lia.
Qed.

(** [blank] does not hold at the start of the rest. *)
Definition starts_not (p : N -> bool) (l : bytes) : Prop := match l with [] => True | c :: _ => p c = false end.
Lemma body_starts p hs : p 13%N = false -> starts_not p (body hs).
Proof. intros H. destruct hs; [exact I|]. exact H. Qed.

Lemma some_of_app p a b : a <> [] -> Forall (fun c => p c = true) a -> starts_not p b -> some_of p (a ++ b) = Some (a, b).
Proof.
  intros Hn Ha Hb. unfold some_of. rewrite take_while_app, drop_while_app by assumption. destruct a; [congruence|reflexivity].
Qed.

Lemma parse_version_ok a b rest : starts_not is_digit rest ->
  parse_version (text "HTTP/" ++ dec a ++ [46%N] ++ dec b ++ rest) = Some ({| major := a; minor := b |}, rest).
Proof.
  intros Hr. unfold parse_version. unfold after at 1.
  assert (E : starts_with (text "HTTP/") (text "HTTP/" ++ dec a ++ [46%N] ++ dec b ++ rest) = true) by (apply starts_with_app; eauto).
  rewrite E. rewrite skipn_app, skipn_all, Nat.sub_diag. cbn [app skipn bind].
  destruct (dec_spec a) as (A1 & A2 & A3). destruct (dec_spec b) as (B1 & B2 & B3).
  rewrite some_of_app by (assumption || reflexivity). cbn [bind].
  change (after [46%N] (46%N :: dec b ++ rest)) with (Some (dec b ++ rest)). cbn [bind].
  rewrite some_of_app by assumption. cbn [bind]. rewrite A3, B3. reflexivity.
Qed.

Lemma dec_ascii n : Forall (fun c => (c < 128)%N) (dec n).
Proof.
  destruct (dec_spec n) as (_ & H & _). eapply Forall_impl; [|exact H]. intros c Hc. unfold is_digit in Hc.
  rewrite andb_true_iff, !N.leb_le in Hc. lia.
Qed.
Lemma dec_clean n : clean (dec n).
Proof.
  destruct (dec_spec n) as (_ & H & _). rewrite Forall_forall in H. split; intros Q; apply H in Q; discriminate.
Qed.

Lemma not_blank_range s : Forall (fun c => (32 < c)%N) s -> Forall (fun c => not_blank c = true) s.
Proof.
  apply Forall_impl. intros c Hc. unfold not_blank, blank.
  rewrite (proj2 (N.eqb_neq c 32)) by lia. rewrite (proj2 (N.eqb_neq c 9)) by lia. reflexivity.
Qed.
Lemma clean_range s : Forall (fun c => (32 < c)%N) s -> clean s.
Proof. intros H. rewrite Forall_forall in H. split; intros Q; apply H in Q; lia. Qed.

Lemma path_bytes p : valid_path p -> utf8 p <> [] /\ Forall (fun c => (32 < c)%N) (utf8 p) /\ Forall scalar p.
Proof.
  intros [Hn Hp]. split; [intros Q; apply utf8_nil in Q; contradiction|]. split.
  - apply Forall_forall. intros b Hb. apply in_flat_map in Hb. destruct Hb as (c & Hc & Hb). rewrite Forall_forall in Hp.
    apply Hp in Hc. destruct Hc as [_ Hc]. destruct (N.ltb_spec c 128) as [L|L].
    + rewrite encode1_low in Hb by assumption. destruct Hb as [<-|[]]. assumption.
    + apply encode1_high in Hb; [lia|assumption].
  - eapply Forall_impl; [|exact Hp]. intros c [H _]. exact H.
Qed.

Lemma upper_fix s : Forall (fun c => ~ (97 <= c <= 122)%N) s -> map upper s = s.
Proof.
  induction 1 as [|c s Hc _ IH]; [reflexivity|]. cbn [map]. rewrite IH. f_equal. unfold upper.
  destruct (N.leb_spec 97 c), (N.leb_spec c 122); try reflexivity. lia.
Qed.

Theorem request_head m p hs v : valid_method m -> valid_path p -> Forall valid_header hs ->
  exists d, read_head (write_request m p hs v) = Some d /\
            parse_request d = Some ({| major := major v; minor := major v |}, m, p, hs).
Proof.
  intros [Hm Hup] Hp Hh. destruct (path_bytes p Hp) as (Pn & Pb & Ps). pose proof (token_ascii m Hm) as Ma.
  set (line := m ++ [32%N] ++ utf8 p ++ text " HTTP/" ++ dec (major v) ++ [46%N] ++ dec (major v)).
  assert (Hlc : clean line).
  { unfold line. repeat apply clean_app; try (split; cbn; intuition discriminate); try apply dec_clean.
    - apply clean_range. destruct Hm as [_ Hm]. eapply Forall_impl; [|exact Hm]. intros c Hc. apply token_range in Hc. lia.
    - apply clean_range. assumption. }
  exists (line ++ body (map hline (map ub hs))). split.
  - assert (E : write_request m p hs v = line ++ body (map hline (map ub hs)) ++ crlf ++ crlf).
    { rewrite <- wire_body. unfold write_request, line. rewrite !utf8_app. rewrite (utf8_ascii m) by assumption.
      rewrite (utf8_ascii (dec (major v))) by apply dec_ascii. rewrite (utf8_ascii crlf) by repeat constructor.
      rewrite (utf8_ascii [32%N]) by repeat constructor. rewrite (utf8_ascii [46%N]) by repeat constructor.
      rewrite (utf8_ascii (text " HTTP/")) by repeat constructor. rewrite <- !app_assoc. reflexivity. }
    unfold read_head. rewrite E, find_body; [|assumption|].
    + cbn [option_map]. rewrite app_assoc. rewrite firstn_here. reflexivity.
    + apply valid_oks in Hh. clear - Hh. induction Hh; [constructor|]. cbn [map]. constructor; [apply hline_good; assumption|assumption].
  - destruct (rest_headers hs Hh) as [R1 R2]. set (B := body (map hline (map ub hs))) in *.
    assert (SB : starts_not blank B /\ starts_not is_digit B) by (split; apply body_starts; reflexivity).
    unfold line. rewrite <- !app_assoc. unfold parse_request.
    assert (Mr : Forall (fun c => not_blank c = true) m).
    { apply not_blank_range. destruct Hm as [_ Hm]. eapply Forall_impl; [|exact Hm]. intros c Hc. apply token_range in Hc. lia. }
    assert (Em : forall r, drop_while blank (m ++ r) = m ++ r).
    { intros r. destruct m as [|c m]; [destruct Hm; congruence|]. inversion Mr as [|? ? Q _]. cbn [app drop_while].
      unfold not_blank in Q. apply negb_true_iff in Q. rewrite Q. reflexivity. }
    rewrite Em, some_of_app; [|apply Hm|assumption|reflexivity]. cbn [bind].
    rewrite some_of_app; [|discriminate|repeat constructor|].
    2:{ destruct (utf8 p) as [|c l]; [congruence|]. inversion Pb as [|? ? Q _]. subst. cbn [app starts_not].
        unfold blank. rewrite (proj2 (N.eqb_neq c 32)) by lia. rewrite (proj2 (N.eqb_neq c 9)) by lia. reflexivity. }
    cbn [bind]. rewrite some_of_app; [|assumption|apply not_blank_range; assumption|reflexivity]. cbn [bind].
    change (text " HTTP/") with ([32%N] ++ text "HTTP/"). rewrite <- app_assoc.
    rewrite some_of_app; [|discriminate|repeat constructor|reflexivity]. cbn [bind].
    rewrite parse_version_ok by apply SB. cbn [bind].
    replace (drop_while blank B) with B.
    2:{ destruct SB as [SB _]. destruct B as [|c l]; [reflexivity|]. cbn [drop_while]. cbn [starts_not] in SB. rewrite SB. reflexivity. }
    rewrite R1. cbn [bind]. rewrite <- (utf8_ascii m) at 1 by assumption.
    rewrite !decode_utf8 by (assumption || apply ascii_scalar; assumption). cbn [bind]. rewrite R2. cbn [bind].
    rewrite upper_fix by assumption. reflexivity.
Qed.

(** * Responses *)

Lemma status_digits n : (100 <= n < 1000)%N -> exists a b c, dec n = [a; b; c].
Proof.
  intros H.
  assert (E : forallb (fun n => match dec (N.of_nat n) with [_; _; _] => true | _ => false end) (seq 100 900) = true) by (vm_compute; reflexivity).
  rewrite forallb_forall in E. specialize (E (N.to_nat n)). rewrite N2Nat.id in E.
  destruct (dec n) as [|a [|b [|c [|]]]]; try (discriminate E; apply in_seq; lia).
  all: try (exfalso; assert (false = true) by (apply E; apply in_seq; lia); discriminate).
  exists a, b, c. reflexivity.
Qed.

Lemma line_over_not l : clean l -> l <> [] -> forall r, line_over (l ++ r) = None.
Proof.
  intros H Hn r. destruct l as [|c l]; [congruence|]. apply clean_cons in H. destruct H as (H1 & H2 & _).
  cbn [app line_over starts_with crlf beqb]. rewrite (proj2 (N.eqb_neq 13 c)) by congruence. rewrite (proj2 (N.eqb_neq c 10)) by assumption. reflexivity.
Qed.

Lemma drop_while_clean l : clean l -> clean (drop_while blank l).
Proof.
  intros [H1 H2]. assert (E : forall x, In x (drop_while blank l) -> In x l).
  { intros x Hx. rewrite <- (take_drop blank l). apply in_or_app. right. exact Hx. }
  split; intros Q; apply E in Q; contradiction.
Qed.

Lemma drop_while_last l c : blank c = false -> drop_while blank (l ++ [c]) <> [].
Proof. intros H. induction l as [|x l IH]; cbn [app drop_while]; [rewrite H; discriminate|]. destruct (blank x); [exact IH|discriminate]. Qed.

Lemma drop_while_app_ne l r : drop_while blank l <> [] -> drop_while blank (l ++ r) = drop_while blank l ++ r.
Proof. induction l as [|x l IH]; cbn [app drop_while]; [congruence|]. intros H. destruct (blank x); [apply IH; exact H|reflexivity]. Qed.

Lemma blank_space c : is_space c = false -> blank c = false.
Proof.
  unfold is_space, blank. intros H. apply orb_false_iff in H. destruct H as [H1 H2]. rewrite H1. cbn [orb].
  destruct (N.eqb_spec c 9) as [->|]; [discriminate|reflexivity].
Qed.

Lemma lazy_reason_ok l B rest : clean l -> match rev l with [] => True | c :: _ => is_space c = false end ->
  starts_not blank B -> line_over B = Some rest -> lazy_reason (l ++ B) = Some (l, rest).
Proof.
  intros Hc Hl HB HR. induction l as [|c l IH].
  - cbn [app]. replace (lazy_reason B) with (match line_over (drop_while blank B) with Some rest => Some ([], rest) | None => lazy_reason B end).
    + replace (drop_while blank B) with B by (destruct B as [|x B]; [reflexivity|]; cbn [drop_while]; cbn [starts_not] in HB; rewrite HB; reflexivity).
      rewrite HR. reflexivity.
    + destruct B as [|x B]; cbn [lazy_reason]; destruct (line_over (drop_while blank _)); reflexivity.
  - assert (Hd : drop_while blank (c :: l) <> []).
    { destruct (exists_last (l := c :: l) ltac:(discriminate)) as (l' & x & E). rewrite E in *. rewrite rev_app_distr in Hl. cbn [rev app] in Hl.
      apply drop_while_last. apply blank_space. exact Hl. }
    cbn [app]. cbn [lazy_reason]. change (c :: l ++ B) with ((c :: l) ++ B). rewrite drop_while_app_ne by assumption.
    rewrite line_over_not; [|apply drop_while_clean; assumption|assumption].
    pose proof (clean_cons _ _ Hc) as (H1 & H2 & H3). cbn [app]. rewrite (proj2 (N.eqb_neq c 10)) by assumption.
    rewrite IH; [reflexivity|assumption|].
    cbn [rev] in Hl. destruct (rev l); [exact I|exact Hl].
Qed.

Theorem response_head status phrase hs v :
  (100 <= status < 1000)%N -> one_line phrase -> trimmed phrase -> Forall valid_header hs ->
  exists d, read_head (write_response status phrase hs v) = Some d /\ parse_response d = Some (v, status, phrase, hs).
Proof.
  intros Hs Hp Ht Hh. pose proof (clean_utf8 _ Hp) as Pc. pose proof (trimmed_utf8 _ Ht) as Pt.
  set (line := text "HTTP/" ++ dec (major v) ++ [46%N] ++ dec (minor v) ++ [32%N] ++ dec status ++ [32%N] ++ utf8 phrase).
  assert (Hlc : clean line).
  { unfold line. repeat apply clean_app; try (split; cbn; intuition discriminate); try apply dec_clean. assumption. }
  exists (line ++ body (map hline (map ub hs))). split.
  - assert (E : write_response status phrase hs v = line ++ body (map hline (map ub hs)) ++ crlf ++ crlf).
    { rewrite <- wire_body. unfold write_response, line. rewrite !utf8_app.
      rewrite !(utf8_ascii (dec _)) by apply dec_ascii. rewrite (utf8_ascii crlf) by repeat constructor.
      rewrite (utf8_ascii [32%N]) by repeat constructor. rewrite (utf8_ascii [46%N]) by repeat constructor.
      rewrite (utf8_ascii (text "HTTP/")) by repeat constructor. rewrite <- !app_assoc. reflexivity. }
    unfold read_head. rewrite E, find_body; [|assumption|].
    + cbn [option_map]. rewrite app_assoc. rewrite firstn_here. reflexivity.
    + apply valid_oks in Hh. clear - Hh. induction Hh; [constructor|]. cbn [map]. constructor; [apply hline_good; assumption|assumption].
  - destruct (rest_headers hs Hh) as [R1 R2]. set (B := body (map hline (map ub hs))) in *.
    assert (SB : starts_not blank B) by (apply body_starts; reflexivity).
    unfold line. rewrite <- !app_assoc. unfold parse_response.
    assert (Ed : forall r, drop_while blank (text "HTTP/" ++ r) = text "HTTP/" ++ r) by reflexivity. rewrite Ed. clear Ed.
    rewrite parse_version_ok by reflexivity. cbn [bind].
    destruct (dec_spec status) as (_ & D2 & D3). destruct (status_digits status Hs) as (a & b & c & E). rewrite E in *.
    inversion D2 as [|? ? Da D2']. inversion D2' as [|? ? Db D2'']. inversion D2'' as [|? ? Dc _]. subst.
    rewrite some_of_app; [|discriminate|repeat constructor|].
    2:{ cbn [app starts_not]. unfold blank. unfold is_digit in Da. rewrite andb_true_iff, !N.leb_le in Da.
        rewrite (proj2 (N.eqb_neq a 32)) by lia. rewrite (proj2 (N.eqb_neq a 9)) by lia. reflexivity. }
    cbn [bind app]. rewrite Da, Db, Dc. cbn [andb].
    assert (Eb : bind (match some_of blank (32%N :: utf8 phrase ++ B) with
                       | Some (_, l') => lazy_reason l'
                       | None => bind (line_over (32%N :: utf8 phrase ++ B)) (fun rest => Some ([], rest)) end)
                   (fun '(reason, rest) => bind (utf8_decode reason) (fun reason0 => bind (parse_http_headers rest)
                      (fun hs0 => Some ({| major := major v; minor := minor v |}, undec [a; b; c], reason0, hs0)))) =
                 Some (v, undec [a; b; c], phrase, hs)).
    { change (32%N :: utf8 phrase ++ B) with ([32%N] ++ utf8 phrase ++ B). rewrite some_of_app; [|discriminate|repeat constructor|].
      - rewrite (lazy_reason_ok (utf8 phrase) B _ Pc (proj2 Pt) SB R1). cbn [bind].
        rewrite decode_utf8 by apply Hp. cbn [bind]. rewrite R2. cbn [bind]. destruct v. reflexivity.
      - destruct (utf8 phrase) as [|x l]; [exact SB|]. cbn [app starts_not]. apply blank_space. apply Pt. }
    exact Eb.
Qed.

Theorem request_headers m p hs v : valid_method m -> valid_path p -> Forall valid_header hs ->
  exists d v', read_head (write_request m p hs v) = Some d /\ parse_request d = Some (v', m, p, hs).
Proof. intros H1 H2 H3. destruct (request_head m p hs v H1 H2 H3) as (d & E1 & E2). eauto. Qed.

Theorem request_version m p hs v : valid_method m -> valid_path p -> Forall valid_header hs -> minor v = major v ->
  exists d, read_head (write_request m p hs v) = Some d /\ parse_request d = Some (v, m, p, hs).
Proof.
  intros H1 H2 H3 E. destruct (request_head m p hs v H1 H2 H3) as (d & E1 & E2). exists d. split; [exact E1|].
  rewrite E2. destruct v as [a b]. cbn in *. subst. reflexivity.
Qed.

Theorem framing_partial m status upgraded chunked length :
  (100 <= status)%N -> (m = Connect -> 200 <= status < 300)%N ->
  (upgraded = true -> length = None \/ rfc_framing m status chunked length = NoBody) ->
  body_framing m status upgraded chunked length = rfc_framing m status chunked length.
Proof.
  intros Hs Hm Hu. destruct m; unfold body_framing, rfc_framing in *.
  - specialize (Hm eq_refl). cbn [andb]. rewrite (proj2 (N.ltb_lt status 300)) by lia. destruct (_ || _ || _); reflexivity.
  - reflexivity.
  - cbn [andb] in *. clear Hm. unfold payload_reader, empty_status. rewrite (proj2 (N.leb_le 100 status)) by assumption. cbn [andb].
    destruct (_ || _ || _)%bool; [destruct upgraded, length; reflexivity|].
    destruct upgraded.
    + specialize (Hu eq_refl). destruct Hu as [->|Hu]; [reflexivity|]. rewrite Hu.
      destruct length as [n|]; [reflexivity|]. destruct chunked; [discriminate|discriminate].
    + destruct chunked; [reflexivity|]. destruct length as [[|n]|]; reflexivity.
Qed.
