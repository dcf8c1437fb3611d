From Coq Require Import List Arith Bool NArith String Lia Permutation.
From Verif Require Import Bytes Text HeadSpec ExtModel ExtSpec ExtProofs HandshakeModel HandshakeSpec.
Import ListNotations.

(** * Header dictionaries *)

Lemma hname_eqb_iff a b : hname_eqb a b = true <-> a = b.
Proof.
  destruct a, b; cbn; split; intro H; try discriminate; try reflexivity.
  - apply beqb_eq in H. congruence.
  - injection H as ->. apply beqb_refl.
Qed.
Lemma hname_dec (a b : hname) : {a = b} + {a <> b}.
Proof. destruct (hname_eqb a b) eqn:E; [left; apply hname_eqb_iff; exact E|right; intros H; apply hname_eqb_iff in H; congruence]. Qed.

Definition values (h : headers) (n : hname) : list str := map snd (filter (fun p => hname_eqb (fst p) n) h).

Lemma vals_values n h : vals n h (values h n).
Proof.
  induction h as [|[m v] h IH]; [constructor|]. unfold values in *. cbn [filter fst].
  destruct (hname_eqb m n) eqn:E.
  - apply hname_eqb_iff in E. subst m. cbn [map snd]. constructor. exact IH.
  - constructor; [|exact IH]. intros ->. assert (hname_eqb n n = true) by (apply hname_eqb_iff; reflexivity). congruence.
Qed.
Lemma vals_fun n h l : vals n h l -> l = values h n.
Proof.
  induction 1 as [|v h l _ IH|m v h l Hm _ IH]; [reflexivity| |]; unfold values in *; cbn [filter fst].
  - replace (hname_eqb n n) with true by (symmetry; apply hname_eqb_iff; reflexivity). cbn [map snd]. congruence.
  - destruct (hname_eqb m n) eqn:E; [apply hname_eqb_iff in E; congruence|exact IH].
Qed.
Lemma get_all_values h n : get_all h n = match values h n with [] => None | l => Some l end.
Proof. reflexivity. Qed.
Lemma values_app h h' n : values (h ++ h') n = values h n ++ values h' n.
Proof. unfold values. rewrite filter_app, map_app. reflexivity. Qed.

(** * Lists over several headers *)

Lemma collect_listed parse ok : (forall s es, parse s = Some es <-> names_text ok es s) ->
  forall vs names, collect parse vs = Some names <-> listed ok vs names.
Proof.
  intros Hp. induction vs as [|v vs IH]; intros names; cbn [collect].
  - split; intros H; [injection H as <-; constructor|inversion H; reflexivity].
  - split; intros H.
    + destruct (parse v) as [l|] eqn:E; [|discriminate]. destruct (collect parse vs) as [r|] eqn:F; [|discriminate].
      injection H as <-. constructor; [apply Hp; exact E|apply IH; reflexivity].
    + inversion H as [|? ? a b Ha Hb]. subst. apply Hp in Ha. rewrite Ha. apply IH in Hb. rewrite Hb. reflexivity.
Qed.
Lemma collect_opt_values {A} (parse : str -> option (list A)) h n : collect_opt parse (get_all h n) = collect parse (values h n).
Proof. rewrite get_all_values. destruct (values h n); reflexivity. Qed.

Lemma subs_iff s es : parse_subprotocols s = Some es <-> names_text token es s.
Proof. split; [apply subprotocols_sound|apply subprotocols_ok]. Qed.
Lemma ups_iff s es : parse_upgrades s = Some es <-> names_text protocol es s.
Proof. split; [apply upgrades_sound|apply upgrades_ok]. Qed.

(** * Case *)

Lemma lower_iff a b : lower a = lower b <-> ignoring_case a b.
Proof.
  revert b. induction a as [|x a IH]; intros [|y b]; unfold lower, ignoring_case in *; cbn [map].
  - split; [constructor|reflexivity].
  - split; [discriminate|intros H; inversion H].
  - split; [discriminate|intros H; inversion H].
  - assert (E : (if (65 <=? x)%N && (x <=? 90)%N then (x + 32)%N else x) = (if (65 <=? y)%N && (y <=? 90)%N then (y + 32)%N else y) <->
                x = y \/ (65 <= x <= 90 /\ y = x + 32)%N \/ (65 <= y <= 90 /\ x = y + 32)%N).
    { destruct (N.leb_spec 65 x), (N.leb_spec x 90), (N.leb_spec 65 y), (N.leb_spec y 90); cbn [andb]; lia. }
    split.
    + intros H. injection H as H1 H2. constructor; [apply E; exact H1|apply IH; exact H2].
    + intros H. inversion H. subst. f_equal; [apply E; assumption|apply IH; assumption].
Qed.

Lemma upgrade_iff names : existsb (fun v => beqb (lower v) (text "upgrade")) names = true <-> wants_upgrade names.
Proof.
  unfold wants_upgrade. rewrite existsb_exists, Exists_exists. split; intros (x & Hx & E); exists x; (split; [exact Hx|]).
  - apply beqb_eq in E. apply lower_iff. rewrite E. reflexivity.
  - apply beqb_eq. apply lower_iff in E. rewrite E. reflexivity.
Qed.
Lemma websocket_iff v : beqb (lower v) (text "websocket") = true <-> ignoring_case v (text "websocket").
Proof. rewrite beqb_eq. rewrite <- lower_iff. reflexivity. Qed.

Lemma surrogate_iff s : existsb surrogate s = false <-> no_surrogate s.
Proof.
  unfold no_surrogate. rewrite Forall_forall. split.
  - intros H c Hc Hr. assert (existsb surrogate s = true); [|congruence]. apply existsb_exists. exists c. split; [exact Hc|].
    unfold surrogate. apply andb_true_iff. rewrite !N.leb_le. exact Hr.
  - intros H. destruct (existsb surrogate s) eqn:E; [|reflexivity]. apply existsb_exists in E. destruct E as (c & Hc & E).
    exfalso. apply (H c Hc). unfold surrogate in E. apply andb_true_iff in E. rewrite !N.leb_le in E. exact E.
Qed.

Lemma mem_iff x l : mem x l = true <-> In x l.
Proof.
  unfold mem. rewrite existsb_exists. split.
  - intros (y & Hy & E). apply beqb_eq in E. subst. exact Hy.
  - intros H. exists x. split; [exact H|apply beqb_refl].
Qed.
Lemma distinct_in x l : In x (distinct l) <-> In x l.
Proof.
  induction l as [|y l IH]; [reflexivity|]. cbn [distinct]. destruct (mem y l) eqn:E.
  - apply mem_iff in E. rewrite IH. cbn. split; [auto|]. intros [<-|H]; auto.
  - cbn. rewrite IH. reflexivity.
Qed.

Lemma index_first x l : In x l -> first_at x l (index x l).
Proof.
  induction l as [|y l IH]; [intros []|]. intros H. cbn [index]. destruct (beqb y x) eqn:E.
  - apply beqb_eq in E. subst. split; [reflexivity|intros j Hj; lia].
  - assert (y <> x) by (intros ->; rewrite beqb_refl in E; discriminate).
    destruct H as [H|H]; [congruence|]. destruct (IH H) as [H1 H2]. split; [exact H1|].
    intros [|j] Hj; cbn; [congruence|apply H2; lia].
Qed.
Lemma first_at_fun x l i j : first_at x l i -> first_at x l j -> i = j.
Proof.
  intros [H1 H2] [G1 G2]. destruct (lt_eq_lt_dec i j) as [[H|H]|H]; [|exact H|].
  - exfalso. apply (G2 i H H1).
  - exfalso. apply (H2 j H G1).
Qed.
Lemma first_at_in x l i : first_at x l i -> In x l.
Proof. intros [H _]. eapply nth_error_In. exact H. Qed.
Lemma index_lt x l : In x l -> index x l < List.length l.
Proof. intros H. apply index_first in H. destruct H as [H _]. apply nth_error_Some. congruence. Qed.

Section P.
Variable b64encode : bytes -> str.
Variable b64decode : str -> option bytes.
Variable sha1 : str -> bytes.
Variable ext_name : nat -> str.
Variable ext_params : nat -> list parameter.
Variable ext_valid : nat -> list parameter -> list nat -> bool.
Variable iter : list str -> list str.

Notation SERVE := (serve b64encode b64decode sha1 ext_name ext_valid iter).
Notation CHECK := (check_response b64encode sha1 ext_name ext_valid).
Notation ASK := (client_request b64encode ext_name ext_params).

(** * The checks *)

Lemma check_connection_none h : check_connection h = None <->
  exists vs names, vals Connection h vs /\ listed token vs names /\ wants_upgrade names.
Proof.
  unfold check_connection. rewrite collect_opt_values. split.
  - destruct (collect _ _) as [names|] eqn:E; [|discriminate]. intros H.
    exists (values h Connection), names. split; [apply vals_values|]. split; [apply (collect_listed _ _ subs_iff); exact E|].
    apply upgrade_iff. destruct (existsb (fun v => beqb (lower v) (text "upgrade")) names); [reflexivity|discriminate].
  - intros (vs & names & H1 & H2 & H3). apply vals_fun in H1. subst vs. apply (collect_listed _ _ subs_iff) in H2. rewrite H2.
    apply upgrade_iff in H3. rewrite H3. reflexivity.
Qed.

Lemma upgrade_test_false names : upgrade_test names = Some false <->
  names <> [] /\ (List.length names <> 1 -> exists v r, names = v :: r /\ ignoring_case v (text "websocket")).
Proof.
  unfold upgrade_test. destruct names as [|v [|w r]]; cbn [List.length Nat.eqb negb].
  - split; [discriminate|intros [H _]; congruence].
  - split; [intros _; split; [discriminate|lia]|reflexivity].
  - split.
    + intros H. split; [discriminate|]. intros _. exists v, (w :: r). split; [reflexivity|]. apply websocket_iff.
      destruct (beqb _ _); [reflexivity|discriminate].
    + intros [_ H]. destruct H as (v' & r' & E & H); [lia|]. injection E as <- <-. apply websocket_iff in H. rewrite H. reflexivity.
Qed.

Lemma check_upgrade_none h : check_upgrade h = None <->
  exists vs names, vals Upgrade h vs /\ listed protocol vs names /\ names <> [] /\
    (List.length names <> 1 -> exists v r, names = v :: r /\ ignoring_case v (text "websocket")).
Proof.
  unfold check_upgrade. rewrite collect_opt_values. split.
  - destruct (collect _ _) as [names|] eqn:E; [|discriminate]. intros H.
    exists (values h Upgrade), names. split; [apply vals_values|]. split; [apply (collect_listed _ _ ups_iff); exact E|].
    apply upgrade_test_false. destruct (upgrade_test names) as [[|]|]; try discriminate. reflexivity.
  - intros (vs & names & H1 & H2 & H3). apply vals_fun in H1. subst vs. apply (collect_listed _ _ ups_iff) in H2. rewrite H2.
    apply upgrade_test_false in H3. rewrite H3. reflexivity.
Qed.

Lemma check_key_ok h k : check_key b64decode h = inl k <-> vals Key h [k] /\ good_key b64decode k.
Proof.
  unfold check_key. rewrite get_all_values. split.
  - intros H. pose proof (vals_values Key h) as V. destruct (values h Key) as [|a [|b r]] eqn:E; try discriminate.
    destruct (existsb surrogate a) eqn:S; [discriminate|]. destruct (b64decode a) as [raw|] eqn:D; [|discriminate].
    destruct (Nat.eqb_spec (List.length raw) 16); [|discriminate]. injection H as <-. split; [exact V|].
    split; [apply surrogate_iff; exact S|]. exists raw. auto.
  - intros [V (S & raw & D & L)]. apply vals_fun in V. rewrite <- V. apply surrogate_iff in S. rewrite S, D, L. reflexivity.
Qed.

Lemma check_version_ok h : check_version h = None <-> vals Version h [text "13"].
Proof.
  unfold check_version. rewrite get_all_values. split.
  - intros H. pose proof (vals_values Version h) as V. destruct (values h Version) as [|a [|b r]] eqn:E; try discriminate.
    destruct (beqb a (text "13")) eqn:B; [|discriminate]. apply beqb_eq in B. subst a. exact V.
  - intros V. apply vals_fun in V. rewrite <- V. reflexivity.
Qed.

Lemma match_extensions_in available : forall parsed accepted l,
  match_extensions ext_name ext_valid available parsed accepted = Some l ->
  exists more, l = accepted ++ more /\ Forall2 (fun (p : extension) e => In e available /\ ext_name e = fst p) parsed more.
Proof.
  induction parsed as [|[n ps] parsed IH]; intros accepted l H; cbn [match_extensions] in H.
  - injection H as <-. exists []. rewrite app_nil_r. split; [reflexivity|constructor].
  - destruct (List.find _ available) as [e|] eqn:F; [|discriminate]. apply IH in H. destruct H as (more & -> & H).
    exists (e :: more). rewrite <- app_assoc. split; [reflexivity|]. constructor; [|exact H].
    apply List.find_some in F. destruct F as [F1 F2]. apply andb_true_iff in F2. destruct F2 as [F2 _]. apply beqb_eq in F2. auto.
Qed.

(** * The server *)

Lemma refuse_not_opened e x s r : refuse e <> Opened x s r.
Proof.
  destruct e as [|[m c]| | | | |]; cbn; try discriminate. destruct m as [t|b|n|n]; try discriminate.
  destruct (rev t) as [|ch w]; [discriminate|].
  destruct ch as [|p]; [discriminate|]. do 4 (destruct p as [p|p|]; try discriminate). destruct c; discriminate.
Qed.

Lemma serve_opened c q exts sub resp : SERVE c (inl q) = Opened exts sub resp ->
  plain_config c q /\ exists key, check_connection (q_headers q) = None /\ check_upgrade (q_headers q) = None /\
    check_key b64decode (q_headers q) = inl key /\ check_version (q_headers q) = None /\
    check_extensions ext_name ext_valid (c_exts c) (q_headers q) = inl exts /\
    choose_subprotocol iter c (q_headers q) = Some sub /\ resp = build_response b64encode sha1 c key sub.
Proof.
  unfold serve, handshake, new_protocol_origin. cbv zeta. unfold plain_config.
  destruct (c_serving c); [|intros H; apply refuse_not_opened in H; contradiction]. cbn [negb].
  intros H.
  assert (Ee : match c_early c with None => None | Some f => f q end = None).
  { destruct (match c_early c with None => None | Some f => f q end); [|reflexivity]. apply refuse_not_opened in H. contradiction. }
  rewrite Ee in H.
  destruct (check_connection (q_headers q)); [apply refuse_not_opened in H; contradiction|].
  destruct (check_upgrade (q_headers q)); [apply refuse_not_opened in H; contradiction|].
  destruct (check_key b64decode (q_headers q)) as [key|]; [|apply refuse_not_opened in H; contradiction].
  destruct (check_version (q_headers q)); [apply refuse_not_opened in H; contradiction|].
  cbn [check_origin] in H.
  destruct (check_extensions _ _ _ _); [|apply refuse_not_opened in H; contradiction].
  destruct (choose_subprotocol _ _ _); [|apply refuse_not_opened in H; contradiction].
  injection H as <- <- <-. split; [split; [reflexivity|destruct (c_early c); [exact Ee|exact I]]|].
  exists key. auto 10.
Qed.

Theorem accepts c q exts sub resp : SERVE c (inl q) = Opened exts sub resp ->
  plain_config c q /\
  (exists vs names, vals Connection (q_headers q) vs /\ listed token vs names /\ wants_upgrade names) /\
  (exists vs names, vals Upgrade (q_headers q) vs /\ listed protocol vs names /\ names <> [] /\
    (List.length names <> 1 -> exists v r, names = v :: r /\ ignoring_case v (text "websocket"))) /\
  (exists k, vals Key (q_headers q) [k] /\ good_key b64decode k /\ In (Accept, b64encode (sha1 (k ++ guid))) resp) /\
  vals Version (q_headers q) [text "13"].
Proof.
  intros H. apply serve_opened in H. destruct H as (P & key & H1 & H2 & H3 & H4 & H5 & H6 & ->).
  split; [exact P|]. split; [apply check_connection_none; exact H1|]. split; [apply check_upgrade_none; exact H2|].
  apply check_key_ok in H3. split.
  - exists key. split; [tauto|]. split; [tauto|].
    assert (G : forall ps h p, In p h -> In p (hput_all h ps)).
    { induction ps as [|x ps IH]; intros h p Hp; [exact Hp|]. cbn. apply IH. unfold hput.
      destruct (existsb _ h); [exact Hp|apply in_or_app; auto]. }
    apply G. apply in_or_app. left. right. right. left. reflexivity.
  - apply check_version_ok. exact H4.
Qed.

Lemma no_extensions_check c h : no_extensions c h -> check_extensions ext_name ext_valid (c_exts c) h = inl [].
Proof.
  intros [H|H]; unfold check_extensions.
  - rewrite H. reflexivity.
  - apply vals_fun in H. rewrite get_all_values, <- H. destruct (c_exts c); reflexivity.
Qed.
Lemma subs_listed_choose c h : subs_listed c h -> exists sub, choose_subprotocol iter c h = Some sub.
Proof.
  intros [H|(vs & names & H1 & H2)]; unfold choose_subprotocol.
  - rewrite H. eauto.
  - apply vals_fun in H1. subst vs. apply (collect_listed _ _ subs_iff) in H2. destruct (c_subs c); [|eauto].
    rewrite get_all_values. destruct (values h Protocol); [eauto|]. rewrite H2. destruct (c_select c); eauto.
Qed.

Lemma serve_checks c q : plain_config c q -> SERVE c (inl q) =
  (let h := q_headers q in
   match check_connection h with Some e => refuse e | None =>
   match check_upgrade h with Some e => refuse e | None =>
   match check_key b64decode h with inr e => refuse e | inl key =>
   match check_version h with Some e => refuse e | None =>
   match check_extensions ext_name ext_valid (c_exts c) h with inr e => refuse e | inl exts =>
   match choose_subprotocol iter c h with None => refuse EOther | Some sub =>
     Opened exts sub (build_response b64encode sha1 c key sub)
   end end end end end end).
Proof.
  intros [P1 P2]. unfold serve, handshake, new_protocol_origin. cbv zeta. rewrite P1. cbn [negb].
  replace (match c_early c with None => None | Some f => f q end) with (@None abort) by (destruct (c_early c); congruence).
  cbn [check_origin]. reflexivity.
Qed.

Theorem complete c q k : plain_config c q -> no_extensions c (q_headers q) -> subs_listed c (q_headers q) ->
  opening b64decode (q_headers q) k -> exists sub resp, SERVE c (inl q) = Opened [] sub resp.
Proof.
  intros P He Hs [O1 O2 O3 O4]. rewrite (serve_checks c q P). cbv zeta.
  rewrite (proj2 (check_connection_none _) O1).
  rewrite (proj2 (check_upgrade_none (q_headers q))).
  2:{ destruct O2 as (vs & name & V & L & W). exists vs, [name]. split; [exact V|]. split; [exact L|]. split; [discriminate|]. cbn. lia. }
  rewrite (proj2 (check_key_ok _ k) O3), (proj2 (check_version_ok _) O4).
  rewrite (no_extensions_check c _ He). destruct (subs_listed_choose c _ Hs) as (sub & ->). eauto.
Qed.

(** Which refusal. *)
Definition first_ok (un : list str) : Prop :=
  List.length un <> 1 -> exists v r, un = v :: r /\ ignoring_case v (text "websocket").

Theorem statuses c q cvs cn uvs un ks vns :
  plain_config c q -> no_extensions c (q_headers q) -> subs_listed c (q_headers q) ->
  vals Connection (q_headers q) cvs -> listed token cvs cn ->
  vals Upgrade (q_headers q) uvs -> listed protocol uvs un -> un <> [] ->
  vals Key (q_headers q) ks -> Forall no_surrogate ks -> vals Version (q_headers q) vns ->
  (~ (wants_upgrade cn /\ first_ok un) -> SERVE c (inl q) = Refused 426) /\
  (wants_upgrade cn -> first_ok un -> ~ ((exists k, ks = [k] /\ good_key b64decode k) /\ vns = [text "13"]) -> SERVE c (inl q) = Refused 400) /\
  (wants_upgrade cn -> first_ok un -> (exists k, ks = [k] /\ good_key b64decode k) -> vns = [text "13"] ->
   exists sub resp, SERVE c (inl q) = Opened [] sub resp).
Proof.
  intros P He Hs Vc Lc Vu Lu Nu Vk Sk Vv. rewrite (serve_checks c q P). cbv zeta.
  rewrite (no_extensions_check c _ He). destruct (subs_listed_choose c _ Hs) as (sub & Es). rewrite Es.
  assert (C : check_connection (q_headers q) = if existsb (fun v => beqb (lower v) (text "upgrade")) cn then None else Some EUpgrade).
  { unfold check_connection. rewrite collect_opt_values. apply vals_fun in Vc. subst cvs.
    apply (collect_listed _ _ subs_iff) in Lc. rewrite Lc. reflexivity. }
  assert (U : check_upgrade (q_headers q) = None /\ first_ok un \/ check_upgrade (q_headers q) = Some EUpgrade /\ ~ first_ok un).
  { unfold check_upgrade. rewrite collect_opt_values. apply vals_fun in Vu. subst uvs.
    apply (collect_listed _ _ ups_iff) in Lu. rewrite Lu. destruct (upgrade_test un) as [[|]|] eqn:E.
    - right. split; [reflexivity|]. intros F. assert (upgrade_test un = Some false) by (apply upgrade_test_false; auto). congruence.
    - left. split; [reflexivity|]. apply upgrade_test_false in E. exact (proj2 E).
    - exfalso. unfold upgrade_test in E. destruct un as [|v [|w r]]; [congruence|discriminate|discriminate]. }
  assert (K : forall o, (forall k, ks = [k] -> good_key b64decode k -> check_key b64decode (q_headers q) = inl k) /\
              (~ (exists k, ks = [k] /\ good_key b64decode k) -> match check_key b64decode (q_headers q) with inr e => refuse e | inl key => o key end = Refused 400)).
  { intros o. split.
    - intros k -> G. apply check_key_ok. auto.
    - intros G. apply vals_fun in Vk. unfold check_key. rewrite get_all_values, <- Vk. destruct ks as [|k [|k2 r]]; [reflexivity| |reflexivity].
      inversion Sk as [|? ? S1 _]. subst. rewrite (proj2 (surrogate_iff k) S1). destruct (b64decode k) as [raw|] eqn:D; [|reflexivity].
      destruct (Nat.eqb_spec (List.length raw) 16) as [L|]; [|reflexivity]. exfalso. apply G. exists k. split; [reflexivity|]. split; [exact S1|]. eauto. }
  assert (V : check_version (q_headers q) = if match vns with [v] => beqb v (text "13") | _ => false end then None else Some EHandshake).
  { unfold check_version. apply vals_fun in Vv. rewrite get_all_values, <- Vv. destruct vns as [|a [|b r]]; reflexivity. }
  rewrite C. split; [|split].
  - intros H. destruct (existsb (fun v => beqb (lower v) (text "upgrade")) cn) eqn:E; [|reflexivity]. apply upgrade_iff in E.
    destruct U as [[U1 U2]|[U1 U2]]; [exfalso; apply H; auto|]. rewrite U1. reflexivity.
  - intros W F H. apply upgrade_iff in W. rewrite W. destruct U as [[U1 U2]|[U1 U2]]; [|contradiction]. rewrite U1.
    destruct (check_key b64decode (q_headers q)) as [key|e] eqn:Ek.
    + apply check_key_ok in Ek. destruct Ek as [Vk' G]. apply vals_fun in Vk, Vk'. rewrite V.
      destruct vns as [|a [|b r]]; try reflexivity. destruct (beqb a (text "13")) eqn:B; [|reflexivity].
      apply beqb_eq in B. subst a. exfalso. apply H. split; [exists key; split; [congruence|exact G]|reflexivity].
    + destruct (K (fun _ => Silent)) as [K1 K2]. rewrite <- K2; [reflexivity|].
      intros (k & Ek' & G). specialize (K1 k Ek' G). discriminate.
  - intros W F (k & Ek & G) ->. apply upgrade_iff in W. rewrite W. destruct U as [[U1 U2]|[U1 U2]]; [|contradiction]. rewrite U1.
    destruct (K (fun _ => Silent)) as [K1 _]. rewrite (K1 k Ek G), V. cbn. eauto.
Qed.

(** The origin has no influence. *)
Theorem any_origin c c' q q' : c_early c = None -> c' = Config (c_serving c) None (c_origin c') (c_exts c) (c_subs c) (c_select c) (c_extra c) ->
  (forall n l, n <> Origin -> vals n (q_headers q) l <-> vals n (q_headers q') l) ->
  SERVE c (inl q) = SERVE c' (inl q').
Proof.
  intros E -> H. unfold serve, handshake, new_protocol_origin. cbv zeta. cbn [c_serving c_early c_exts c_subs c_select c_extra]. rewrite E.
  assert (G : forall n, n <> Origin -> get_all (q_headers q) n = get_all (q_headers q') n).
  { intros n Hn. rewrite !get_all_values. replace (values (q_headers q') n) with (values (q_headers q) n); [reflexivity|].
    apply vals_fun. apply H; [exact Hn|]. apply vals_values. }
  unfold check_connection, check_upgrade, check_key, check_version, check_extensions, choose_subprotocol.
  cbn [c_serving c_early c_exts c_subs c_select c_extra].
  rewrite !(G Connection), !(G Upgrade), !(G Key), !(G Version), !(G Extensions), !(G Protocol) by discriminate. reflexivity.
Qed.

(** Extensions. *)
Lemma hput_all_in p ps h : In p (hput_all h ps) -> In p h \/ In p ps.
Proof.
  revert h. induction ps as [|x ps IH]; intros h H; [auto|]. cbn in H. apply IH in H. destruct H as [H|H]; [|cbn; auto].
  unfold hput in H. destruct (existsb _ h); [auto|]. apply in_app_or in H. cbn in *. tauto.
Qed.

Theorem never_negotiated c q exts sub resp : SERVE c (inl q) = Opened exts sub resp ->
  exts = [] /\ forall v, In (Extensions, v) resp -> In (Extensions, v) (c_extra c).
Proof.
  intros H. apply serve_opened in H. destruct H as (P & key & H1 & H2 & H3 & H4 & H5 & H6 & ->). split.
  - unfold check_extensions in H5. destruct (c_exts c) as [av|]; [|injection H5 as <-; reflexivity].
    destruct (get_all _ _) as [vs|]; [|injection H5 as <-; reflexivity]. destruct (collect _ _); [|discriminate].
    destruct (match_extensions _ _ _ _ _) as [[|x l']|]; try discriminate. injection H5 as <-. reflexivity.
  - intros v Hv. unfold build_response in Hv. apply hput_all_in in Hv. destruct Hv as [Hv|Hv]; [|exact Hv].
    exfalso. destruct sub; cbn in Hv; intuition congruence.
Qed.

(** Sub-protocols. *)
Lemma lowest_spec parsed available : forall names priority selected s,
  lowest parsed available names priority selected = s ->
  (s = selected /\ forall x, In x names -> priority <= index x parsed + index x available) \/
  (exists y, s = Some y /\ In y names /\ index y parsed + index y available < priority /\
     forall x, In x names -> index y parsed + index y available <= index x parsed + index x available).
Proof.
  induction names as [|n names IH]; intros priority selected s H; cbn [lowest] in H.
  - left. split; [congruence|]. intros x [].
  - destruct (Nat.ltb_spec (index n parsed + index n available) priority) as [L|L].
    + right. apply IH in H. destruct H as [[-> H]|(y & -> & H1 & H2 & H3)].
      * exists n. split; [reflexivity|]. split; [left; reflexivity|]. split; [exact L|]. intros x [<-|Hx]; [lia|auto].
      * exists y. split; [reflexivity|]. split; [right; exact H1|]. split; [lia|]. intros x [<-|Hx]; [lia|auto].
    + apply IH in H. destruct H as [[-> H]|(y & -> & H1 & H2 & H3)].
      * left. split; [reflexivity|]. intros x [<-|Hx]; [exact L|auto].
      * right. exists y. split; [reflexivity|]. split; [right; exact H1|]. split; [exact H2|]. intros x [<-|Hx]; [lia|auto].
Qed.

Hypothesis iter_perm : forall l, Permutation (iter l) l.

Lemma iter_in parsed available x :
  In x (iter (filter (fun s => mem s available) (distinct parsed))) <-> In x parsed /\ In x available.
Proof.
  assert (E : In x (iter (filter (fun s => mem s available) (distinct parsed))) <-> In x (filter (fun s => mem s available) (distinct parsed))).
  { split; apply Permutation_in; [apply iter_perm|symmetry; apply iter_perm]. }
  rewrite E, filter_In, distinct_in, mem_iff. reflexivity.
Qed.

Lemma choose_spec c h available vs offered sub : c_select c = None -> c_subs c = Some available ->
  vals Protocol h vs -> listed token vs offered -> choose_subprotocol iter c h = Some sub ->
  match sub with
  | Some s => In s offered /\ In s available /\
      forall s', In s' offered -> In s' available -> index s offered + index s available <= index s' offered + index s' available
  | None => forall s, In s offered -> ~ In s available
  end.
Proof.
  intros Hsel Hsub V L H. unfold choose_subprotocol in H. rewrite Hsel, Hsub in H. apply vals_fun in V. subst vs.
  apply (collect_listed _ _ subs_iff) in L. rewrite get_all_values in H.
  destruct (values h Protocol) as [|v r] eqn:E.
  - injection H as <-. cbn in L. injection L as <-. intros s [].
  - rewrite L in H. injection H as H. apply lowest_spec in H. destruct H as [[-> H]|(y & -> & H1 & H2 & H3)].
    + intros s H1 H2. specialize (H s (proj2 (iter_in offered available s) (conj H1 H2))).
      pose proof (index_lt s offered H1). pose proof (index_lt s available H2). unfold str in *. lia.
    + apply iter_in in H1. destruct H1 as [G1 G2]. split; [exact G1|]. split; [exact G2|].
      intros s' K1 K2. apply H3. apply iter_in. auto.
Qed.

Theorem selected c q exts s resp : c_select c = None -> SERVE c (inl q) = Opened exts (Some s) resp ->
  exists available vs offered, c_subs c = Some available /\ vals Protocol (q_headers q) vs /\ listed token vs offered /\
    In s offered /\ In s available /\ In (Protocol, s) resp /\
    forall s' i j i' j', first_at s offered i -> first_at s available j -> first_at s' offered i' -> first_at s' available j' ->
      i + j <= i' + j'.
Proof.
  intros Hsel H. apply serve_opened in H. destruct H as (P & key & H1 & H2 & H3 & H4 & H5 & H6 & ->).
  pose proof H6 as H6'. unfold choose_subprotocol in H6. destruct (c_subs c) as [available|] eqn:Es; [|discriminate].
  rewrite get_all_values in H6. destruct (values (q_headers q) Protocol) as [|v r] eqn:Ev; [discriminate|].
  destruct (collect parse_subprotocols (v :: r)) as [offered|] eqn:Ec; [|discriminate].
  pose proof (vals_values Protocol (q_headers q)) as V. rewrite Ev in V.
  assert (L : listed token (v :: r) offered) by (apply (collect_listed _ _ subs_iff); exact Ec).
  destruct (choose_spec c _ available _ offered _ Hsel Es V L H6') as (G1 & G2 & G3).
  exists available, (v :: r), offered. repeat (split; [assumption || reflexivity|]). split.
  - assert (G : forall ps h p, In p h -> In p (hput_all h ps)).
    { induction ps as [|x ps IH]; intros h p Hp; [exact Hp|]. cbn. apply IH. unfold hput.
      destruct (existsb _ h); [exact Hp|apply in_or_app; auto]. }
    apply G. apply in_or_app. right. left. reflexivity.
  - intros s' i j i' j' F1 F2 F3 F4.
    rewrite (first_at_fun _ _ _ _ F1 (index_first s offered G1)), (first_at_fun _ _ _ _ F2 (index_first s available G2)).
    rewrite (first_at_fun _ _ _ _ F3 (index_first s' offered (first_at_in _ _ _ F3))), (first_at_fun _ _ _ _ F4 (index_first s' available (first_at_in _ _ _ F4))).
    apply G3; eapply first_at_in; eassumption.
Qed.

Theorem selected_none c q exts resp available vs offered : c_select c = None -> SERVE c (inl q) = Opened exts None resp ->
  c_subs c = Some available -> vals Protocol (q_headers q) vs -> listed token vs offered ->
  forall s, In s offered -> ~ In s available.
Proof.
  intros Hsel H Es V L. apply serve_opened in H. destruct H as (P & key & H1 & H2 & H3 & H4 & H5 & H6 & ->).
  exact (choose_spec c _ available vs offered None Hsel Es V L H6).
Qed.

Theorem selector c q exts sub resp available vs offered select : c_select c = Some select -> SERVE c (inl q) = Opened exts sub resp ->
  c_subs c = Some available -> vals Protocol (q_headers q) vs -> vs <> [] -> listed token vs offered -> sub = select offered available.
Proof.
  intros Hsel H Es V Vn L. apply serve_opened in H. destruct H as (P & key & H1 & H2 & H3 & H4 & H5 & H6 & ->).
  unfold choose_subprotocol in H6. rewrite Es, get_all_values, Hsel in H6. apply vals_fun in V. subst vs.
  apply (collect_listed _ _ subs_iff) in L. destruct (values (q_headers q) Protocol) as [|v vs]; [congruence|].
  rewrite L in H6. congruence.
Qed.

(** Early responses. *)
Theorem never_complete c q a : c_serving c = false \/ (exists f, c_early c = Some f /\ f q = Some a) ->
  (forall st, SERVE c (inl q) <> Refused st) /\ (forall x s r, SERVE c (inl q) <> Opened x s r).
Proof.
  assert (R : forall b st, refuse (EAbort b) <> Refused st).
  { intros [m cd] st. cbn. destruct m as [t|b|n|n]; try discriminate. destruct (rev t) as [|ch w]; [discriminate|].
    destruct ch as [|p]; [discriminate|]. do 4 (destruct p as [p|p|]; try discriminate). destruct cd; discriminate. }
  intros H. unfold serve, handshake. cbv zeta. destruct (c_serving c) eqn:E; cbn [negb].
  - destruct H as [H|(f & F1 & F2)]; [discriminate|]. rewrite F1, F2. split; intros; [apply R|apply refuse_not_opened].
  - split; intros; [apply R|apply refuse_not_opened].
Qed.

(** * The client *)

Theorem client_accepts raw exts subs minor status h accepted sub : CHECK raw exts subs minor status h = Connected accepted sub ->
  minor = 1%N /\ status = 101%N /\
  (exists vs names, vals Connection h vs /\ listed token vs names /\ wants_upgrade names) /\
  (exists vs names, vals Upgrade h vs /\ listed protocol vs names /\ names <> [] /\ first_ok names) /\
  vals Accept h [b64encode (sha1 (b64encode raw ++ guid))] /\
  (accepted = [] \/ exists available, exts = Some available /\ forall e, In e accepted -> In e available) /\
  (exts = None -> vals Extensions h []) /\
  match sub with
  | None => vals Protocol h []
  | Some s => exists available vs, subs = Some available /\ In s available /\ vals Protocol h vs /\ listed token vs [s]
  end.
Proof.
  unfold check_response. intros H.
  destruct (N.eqb_spec minor 1) as [->|]; [|discriminate]. cbn [negb] in H.
  destruct (N.eqb_spec status 101) as [->|]; [|discriminate]. cbn [negb] in H.
  rewrite !collect_opt_values in H. destruct (collect parse_subprotocols (values h Connection)) as [cn|] eqn:Ec; [|discriminate].
  destruct (existsb (fun v => beqb (lower v) (text "upgrade")) cn) eqn:Eu; [|discriminate]. cbn [negb] in H.
  destruct (collect parse_upgrades (values h Upgrade)) as [un|] eqn:Eg; [|discriminate].
  destruct (upgrade_test un) as [[|]|] eqn:Et; try discriminate. rewrite !get_all_values in H.
  pose proof (vals_values Accept h) as Va. destruct (values h Accept) as [|k [|k2 r]]; try discriminate.
  destruct (beqb k _) eqn:Ek; [|discriminate]. cbn [negb] in H. apply beqb_eq in Ek. subst k.
  split; [reflexivity|]. split; [reflexivity|]. split.
  { exists (values h Connection), cn. split; [apply vals_values|]. split; [apply (collect_listed _ _ subs_iff); exact Ec|apply upgrade_iff; exact Eu]. }
  split.
  { exists (values h Upgrade), un. split; [apply vals_values|]. split; [apply (collect_listed _ _ ups_iff); exact Eg|].
    apply upgrade_test_false. exact Et. }
  split; [exact Va|]. clear Va Ec Eu Eg Et.
  match type of H with match ?x with _ => _ end = _ => destruct x as [l|v] eqn:Ex end.
  2:{ exfalso. destruct (values h Extensions); [discriminate|]. destruct exts; [|injection Ex as <-; discriminate].
      destruct (collect parse_exts _); [|injection Ex as <-; discriminate]. destruct (match_extensions _ _ _ _ _); [discriminate|injection Ex as <-; discriminate]. }
  assert (Hl : accepted = l /\ match sub with
     | None => vals Protocol h []
     | Some s => exists available vs, subs = Some available /\ In s available /\ vals Protocol h vs /\ listed token vs [s] end).
  { pose proof (vals_values Protocol h) as Vp. destruct (values h Protocol) as [|p ps].
    - injection H as <- <-. auto.
    - destruct subs as [available|]; [|discriminate]. destruct (collect parse_subprotocols (p :: ps)) as [[|s [|s2 r]]|] eqn:Ep; try discriminate.
      destruct (mem s available) eqn:Em; [|discriminate]. injection H as <- <-. split; [reflexivity|].
      exists available, (p :: ps). split; [reflexivity|]. split; [apply mem_iff; exact Em|]. split; [exact Vp|].
      apply (collect_listed _ _ subs_iff). exact Ep. }
  destruct Hl as [-> Hs]. pose proof (vals_values Extensions h) as Ve. split; [|split; [|exact Hs]].
  - destruct (values h Extensions) as [|v vs]; [injection Ex as <-; auto|]. destruct exts as [available|]; [|discriminate].
    destruct (collect parse_exts _) as [parsed|]; [|discriminate]. destruct (match_extensions _ _ _ _ _) as [l'|] eqn:Em; [|discriminate].
    injection Ex as ->. right. exists available. split; [reflexivity|]. apply match_extensions_in in Em. destruct Em as (more & -> & Em).
    cbn [app]. intros e He. clear -Em He. induction Em as [|x y xs ys Hxy _ IH]; [destruct He|]. destruct He as [<-|He]; [tauto|auto].
  - intros ->. destruct (values h Extensions); [exact Ve|discriminate].
Qed.

(** * Both together *)

Lemma values_others h n : others h -> (forall x, n <> Other x) -> values h n = [].
Proof.
  intros H Hn. induction H as [|[m v] h [x E] _ IH]; [reflexivity|]. cbn [fst] in E. subst m. unfold values in *. cbn [filter fst].
  destruct (hname_eqb (Other x) n) eqn:E; [|exact IH]. apply hname_eqb_iff in E. exfalso. apply (Hn x). congruence.
Qed.
Lemma values_hput_all n ps : (forall x, n <> Other x) -> others ps -> forall h, values (hput_all h ps) n = values h n.
Proof.
  intros Hn. induction 1 as [|p ps Hp _ IH]; intros h; [reflexivity|]. change (hput_all h (p :: ps)) with (hput_all (hput h p) ps).
  rewrite IH. unfold hput. destruct (existsb _ h); [reflexivity|]. rewrite values_app.
  rewrite (values_others [p] n); [apply app_nil_r| |exact Hn]. constructor; [exact Hp|constructor].
Qed.

Lemma token_listed s : token s -> @collect (list N) parse_subprotocols [s] = Some [s].
Proof.
  intros H. apply (collect_listed _ _ subs_iff). change [s] with ([s] ++ []) at 2. constructor; [|constructor].
  replace s with ([] ++ s ++ []) at 2 by apply app_nil_r. apply N_last; [constructor|exact H|constructor].
Qed.

Theorem interop c raw origin exts subs more extra_ok : extra_ok = c_extra c -> others extra_ok -> others more ->
  c_serving c = true -> c_early c = None -> c_select c = None -> (c_exts c = None \/ exts = None) ->
  List.length raw = 16 -> b64decode (b64encode raw) = Some raw -> no_surrogate (b64encode raw) ->
  match subs with Some l => Forall token l | None => True end ->
  exists sub resp,
    SERVE c (inl (Request (text "GET") 1 (ASK raw origin exts subs more))) = Opened [] sub resp /\
    CHECK raw exts subs 1 101 resp = Connected [] sub.
Proof.
  intros -> He Hm Hs Hea Hsel Hx Lr Db Ns Ht.
  set (h := ASK raw origin exts subs more). set (q := Request (text "GET") 1 h).
  assert (Vh : forall n, (forall x, n <> Other x) -> values h n = values
     ([(Upgrade, text "websocket"); (Connection, text "Upgrade"); (Key, b64encode raw); (Version, text "13")]
     ++ match origin with Some o => [(Origin, o)] | None => [] end
     ++ match exts with Some l => [(Extensions, build_extensions (map (fun e => (ext_name e, ext_params e)) l))] | None => [] end
     ++ match subs with Some l => [(Protocol, build_subprotocols l)] | None => [] end) n).
  { intros n Hn. apply values_hput_all; assumption. }
  assert (V1 : values h Connection = [text "Upgrade"]) by (rewrite Vh by discriminate; destruct origin, exts, subs; reflexivity).
  assert (V2 : values h Upgrade = [text "websocket"]) by (rewrite Vh by discriminate; destruct origin, exts, subs; reflexivity).
  assert (V3 : values h Key = [b64encode raw]) by (rewrite Vh by discriminate; destruct origin, exts, subs; reflexivity).
  assert (V4 : values h Version = [text "13"]) by (rewrite Vh by discriminate; destruct origin, exts, subs; reflexivity).
  assert (V5 : exts = None -> values h Extensions = []) by (intros ->; rewrite Vh by discriminate; destruct origin, subs; reflexivity).
  assert (V6 : values h Protocol = match subs with Some l => [build_subprotocols l] | None => [] end) by (rewrite Vh by discriminate; destruct origin, exts, subs; reflexivity).
  clear Vh. rewrite (serve_checks c q) by (split; [exact Hs|rewrite Hea; exact I]). cbv zeta. cbn [q q_headers].
  assert (C1 : check_connection h = None) by (unfold check_connection; rewrite collect_opt_values, V1; reflexivity).
  assert (C2 : check_upgrade h = None) by (unfold check_upgrade; rewrite collect_opt_values, V2; reflexivity).
  assert (C3 : check_key b64decode h = inl (b64encode raw)).
  { apply check_key_ok. split; [rewrite <- V3; apply vals_values|]. split; [exact Ns|]. eauto. }
  assert (C4 : check_version h = None) by (apply check_version_ok; rewrite <- V4; apply vals_values).
  assert (C5 : check_extensions ext_name ext_valid (c_exts c) h = inl []).
  { apply no_extensions_check. destruct Hx as [Hx|Hx]; [left; exact Hx|right]. rewrite <- (V5 Hx). apply vals_values. }
  rewrite C1, C2, C3, C4, C5.
  assert (C6 : exists sub, choose_subprotocol iter c h = Some sub /\
             match sub with None => True | Some s => exists l, subs = Some l /\ In s l /\ token s end).
  { unfold choose_subprotocol. destruct (c_subs c) as [available|] eqn:Es; [|exists None; auto].
    rewrite get_all_values, V6. destruct subs as [l|]; [|exists None; auto].
    assert (E : @collect (list N) parse_subprotocols [build_subprotocols l] = Some l).
    { cbn [collect]. rewrite (subprotocols_round_trip l Ht). cbn. rewrite app_nil_r. reflexivity. }
    match goal with |- context [collect ?f ?x] => replace (collect f x) with (Some l) by (symmetry; exact E) end.
    rewrite Hsel. eexists. split; [reflexivity|]. match goal with |- match ?x with _ => _ end => destruct x as [s|] eqn:Ex end; [|exact I].
    apply lowest_spec in Ex. destruct Ex as [[Ex _]|(y & Ey & Hy & _)]; [discriminate|]. injection Ey as ->. apply iter_in in Hy.
    exists l. split; [reflexivity|]. split; [tauto|]. rewrite Forall_forall in Ht. apply Ht. tauto. }
  destruct C6 as (sub & C6 & Hsub). rewrite C6. exists sub. eexists. split; [reflexivity|].
  set (resp := build_response _ _ _ _ _).
  assert (Vr : forall n, (forall x, n <> Other x) -> values resp n = values
     ([(Upgrade, text "websocket"); (Connection, text "Upgrade"); (Accept, accept_key b64encode sha1 (b64encode raw))]
     ++ match sub with Some s => [(Protocol, s)] | None => [] end) n).
  { intros n Hn. apply values_hput_all; assumption. }
  assert (R1 : values resp Connection = [text "Upgrade"]) by (rewrite Vr by discriminate; destruct sub; reflexivity).
  assert (R2 : values resp Upgrade = [text "websocket"]) by (rewrite Vr by discriminate; destruct sub; reflexivity).
  assert (R3 : values resp Accept = [accept_key b64encode sha1 (b64encode raw)]) by (rewrite Vr by discriminate; destruct sub; reflexivity).
  assert (R4 : values resp Extensions = []) by (rewrite Vr by discriminate; destruct sub; reflexivity).
  assert (R5 : values resp Protocol = match sub with Some s => [s] | None => [] end) by (rewrite Vr by discriminate; destruct sub; reflexivity).
  unfold check_response. rewrite !collect_opt_values, !get_all_values, R1, R2, R3, R4, R5. cbn [N.eqb Pos.eqb negb].
  change (collect parse_subprotocols [text "Upgrade"]) with (Some [text "Upgrade"]). cbv iota.
  change (existsb (fun v => beqb (lower v) (text "upgrade")) [text "Upgrade"]) with true. cbn [negb].
  change (collect parse_upgrades [text "websocket"]) with (Some [text "websocket"]). cbv iota.
  change (upgrade_test [text "websocket"]) with (Some false). cbv iota. rewrite beqb_refl. cbn [negb].
  destruct sub as [s|]; [|reflexivity]. destruct Hsub as (l & -> & Hin & Htok). 
  match goal with |- context [collect ?f ?x] => replace (collect f x) with (Some [s]) by (symmetry; exact (token_listed s Htok)) end.
  rewrite (proj2 (mem_iff s l) Hin). reflexivity.
Qed.

End P.

(** * What goes wrong *)

Section W.
Variable b64encode : bytes -> str.
Variable b64decode : str -> option bytes.
Variable sha1 : str -> bytes.
Variable ext_name : nat -> str.
Variable ext_params : nat -> list parameter.
Variable ext_valid : nat -> list parameter -> list nat -> bool.

Definition plain : config := Config true None None None None None [].
Definition ask (upgrade : list str) (k : str) (more : headers) : headers :=
  [(Connection, text "Upgrade")] ++ map (pair Upgrade) upgrade ++ [(Key, k); (Version, text "13")] ++ more.

Lemma ask_key upgrade k more : others more -> good_key b64decode k -> check_key b64decode (ask upgrade k more) = inl k.
Proof.
  intros Ho G. apply check_key_ok. split; [|exact G].
  assert (E : values (ask upgrade k more) Key = [k]).
  { unfold ask. rewrite !values_app. rewrite (values_others more Key Ho) by discriminate.
    assert (E : values (map (pair Upgrade) upgrade) Key = []) by (induction upgrade as [|u r IH]; [reflexivity|exact IH]).
    rewrite E. reflexivity. }
  rewrite <- E. apply vals_values.
Qed.

Theorem h2c_opened iter k : good_key b64decode k -> exists c q exts sub resp,
  serve b64encode b64decode sha1 ext_name ext_valid iter c (inl q) = Opened exts sub resp /\
  forall vs names, vals Upgrade (q_headers q) vs -> listed protocol vs names -> ~ names_websocket names.
Proof.
  intros G. exists plain, (Request (text "GET") 1 (ask [text "h2c"] k [])), [], None. eexists. split.
  - rewrite serve_checks by (split; [reflexivity|exact I]). cbv zeta. cbn [q_headers].
    rewrite (ask_key [text "h2c"] k []) by (apply Forall_nil || exact G). reflexivity.
  - intros vs names V L. apply vals_fun in V. cbn in V. subst vs. apply (collect_listed _ _ ups_iff) in L.
    vm_compute in L. injection L as <-. intros H. inversion H as [x l H1|x l H1]; subst; [|inversion H1].
    vm_compute in H1. repeat match goal with H : Forall2 _ (_ :: _) (_ :: _) |- _ => inversion H; clear H; subst end.
    intuition lia.
Qed.

Theorem post_opened iter k : good_key b64decode k -> exists c q exts sub resp,
  q_method q = text "POST" /\ q_minor q = 0%N /\ serve b64encode b64decode sha1 ext_name ext_valid iter c (inl q) = Opened exts sub resp.
Proof.
  intros G. exists plain, (Request (text "POST") 0 (ask [text "websocket"] k [])), [], None. eexists.
  split; [reflexivity|]. split; [reflexivity|].
  rewrite serve_checks by (split; [reflexivity|exact I]). cbv zeta. cbn [q_headers].
  rewrite (ask_key [text "websocket"] k []) by (apply Forall_nil || exact G). reflexivity.
Qed.

Theorem no_upgrade_500 iter (k : str) : exists c q, plain_config c q /\ vals Upgrade (q_headers q) [] /\
  vals Connection (q_headers q) [text "Upgrade"] /\ vals Key (q_headers q) [k] /\ vals Version (q_headers q) [text "13"] /\
  serve b64encode b64decode sha1 ext_name ext_valid iter c (inl q) = Refused 500.
Proof.
  exists plain, (Request (text "GET") 1 (ask [] k [])). split; [split; [reflexivity|exact I]|]. split; [apply (vals_values Upgrade)|].
  split; [apply (vals_values Connection)|]. split; [apply (vals_values Key)|]. split; [apply (vals_values Version)|reflexivity].
Qed.

Theorem malformed_500 iter (k : str) : exists c q vs, plain_config c q /\ vals Upgrade (q_headers q) [text "websocket"] /\
  vals Key (q_headers q) [k] /\ vals Version (q_headers q) [text "13"] /\
  vals Connection (q_headers q) vs /\ (forall names, ~ listed token vs names) /\
  serve b64encode b64decode sha1 ext_name ext_valid iter c (inl q) = Refused 500.
Proof.
  exists plain, (Request (text "GET") 1 [(Connection, text "Upgrade;"); (Upgrade, text "websocket"); (Key, k); (Version, text "13")]), [text "Upgrade;"].
  split; [split; [reflexivity|exact I]|]. split; [apply (vals_values Upgrade)|]. split; [apply (vals_values Key)|].
  split; [apply (vals_values Version)|]. split; [apply (vals_values Connection)|]. split; [|reflexivity].
  intros names L. apply (collect_listed _ _ subs_iff) in L. vm_compute in L. discriminate.
Qed.

Theorem surrogate_500 iter : exists c q k, plain_config c q /\ vals Connection (q_headers q) [text "Upgrade"] /\
  vals Upgrade (q_headers q) [text "websocket"] /\ vals Version (q_headers q) [text "13"] /\
  vals Key (q_headers q) [k] /\ ~ good_key b64decode k /\ serve b64encode b64decode sha1 ext_name ext_valid iter c (inl q) = Refused 500.
Proof.
  exists plain, (Request (text "GET") 1 [(Connection, text "Upgrade"); (Upgrade, text "websocket"); (Key, [56320%N]); (Version, text "13")]), [56320%N].
  split; [split; [reflexivity|exact I]|]. split; [apply (vals_values Connection)|]. split; [apply (vals_values Upgrade)|].
  split; [apply (vals_values Version)|]. split; [apply (vals_values Key)|]. split; [|reflexivity].
  intros (K & _). inversion K as [|? ? K1 K2]; subst. apply K1. lia.
Qed.

Theorem evil_origin iter k : good_key b64decode k -> exists c q exts sub resp,
  c_origin c = Some [text "https://example.com"] /\ vals Origin (q_headers q) [text "https://evil.example"] /\
  serve b64encode b64decode sha1 ext_name ext_valid iter c (inl q) = Opened exts sub resp.
Proof.
  intros G.
  exists (Config true None (Some [text "https://example.com"]) None None None []),
    (Request (text "GET") 1 ([(Connection, text "Upgrade"); (Upgrade, text "websocket"); (Key, k); (Version, text "13"); (Origin, text "https://evil.example")])),
    [], None. eexists. split; [reflexivity|]. split; [apply (vals_values Origin)|].
  rewrite serve_checks by (split; [reflexivity|exact I]). cbv zeta. cbn [q_headers].
  rewrite (proj2 (check_key_ok b64decode _ k)); [reflexivity|]. split; [apply (vals_values Key)|exact G].
Qed.

Lemma ask_ext iter c raw e : c_serving c = true -> c_early c = None ->
  List.length raw = 16 -> b64decode (b64encode raw) = Some raw -> no_surrogate (b64encode raw) ->
  serve b64encode b64decode sha1 ext_name ext_valid iter c (inl (Request (text "GET") 1 (client_request b64encode ext_name ext_params raw None (Some [e]) None []))) =
  match check_extensions ext_name ext_valid (c_exts c) [(Extensions, build_extensions [(ext_name e, ext_params e)])] with
  | inr x => refuse x
  | inl exts => Opened exts None (build_response b64encode sha1 c (b64encode raw) None)
  end.
Proof.
  intros H1 H2 L D S. rewrite serve_checks by (split; [exact H1|rewrite H2; exact I]). cbv zeta. cbn [q_headers].
  set (h := client_request _ _ _ _ _ _ _ _).
  rewrite (proj2 (check_key_ok b64decode h (b64encode raw))).
  2:{ split; [apply (vals_values Key h)|]. split; [exact S|]. eauto. }
  change (check_connection h) with (@None exc). change (check_upgrade h) with (@None exc). change (check_version h) with (@None exc). cbv iota.
  change (check_extensions ext_name ext_valid (c_exts c) h)
    with (check_extensions ext_name ext_valid (c_exts c) [(Extensions, build_extensions [(ext_name e, ext_params e)])]).
  destruct (check_extensions _ _ _ _); [|reflexivity]. unfold choose_subprotocol. rewrite get_all_values.
  change (values h Protocol) with (@nil str). destruct (c_subs c); reflexivity.
Qed.

Lemma one_parsed e : token_extension (ext_name e, ext_params e) ->
  collect parse_exts [build_extensions [(ext_name e, ext_params e)]] = Some [(ext_name e, ext_params e)].
Proof.
  intros H. cbn [collect]. unfold parse_exts. rewrite extensions_round_trip by (constructor; [exact H|constructor]). reflexivity.
Qed.

Theorem extension_500 iter raw e : token_extension (ext_name e, ext_params e) -> ext_valid e (ext_params e) [] = true ->
  List.length raw = 16 -> b64decode (b64encode raw) = Some raw -> no_surrogate (b64encode raw) ->
  exists c q, c_serving c = true /\ c_exts c = Some [e] /\
    q_headers q = client_request b64encode ext_name ext_params raw None (Some [e]) None [] /\
    serve b64encode b64decode sha1 ext_name ext_valid iter c (inl q) = Refused 500.
Proof.
  intros T V L D S. exists (Config true None None (Some [e]) None None []). eexists (Request (text "GET") 1 _).
  split; [reflexivity|]. split; [reflexivity|]. split; [reflexivity|]. rewrite ask_ext by (assumption || reflexivity).
  cbn [c_exts]. unfold check_extensions. pose proof (one_parsed e T) as E. revert E. generalize (build_extensions [(ext_name e, ext_params e)]). intros x E.
  change (get_all [(Extensions, x)] Extensions) with (Some [x]). cbv iota. rewrite E. cbn [match_extensions]. cbn [List.find]. rewrite beqb_refl, V. reflexivity.
Qed.

Theorem unknown_400 iter raw e : token_extension (ext_name e, ext_params e) ->
  List.length raw = 16 -> b64decode (b64encode raw) = Some raw -> no_surrogate (b64encode raw) ->
  exists c q, c_serving c = true /\ c_exts c = Some [] /\
    q_headers q = client_request b64encode ext_name ext_params raw None (Some [e]) None [] /\
    serve b64encode b64decode sha1 ext_name ext_valid iter c (inl q) = Refused 400.
Proof.
  intros T L D S. exists (Config true None None (Some []) None None []). eexists (Request (text "GET") 1 _).
  split; [reflexivity|]. split; [reflexivity|]. split; [reflexivity|]. rewrite ask_ext by (assumption || reflexivity).
  cbn [c_exts]. unfold check_extensions. pose proof (one_parsed e T) as E. revert E. generalize (build_extensions [(ext_name e, ext_params e)]). intros x E.
  change (get_all [(Extensions, x)] Extensions) with (Some [x]). cbv iota. rewrite E. reflexivity.
Qed.

Theorem ties k : good_key b64decode k -> exists c q iter1 iter2 s1 s2 r1 r2,
  c_select c = None /\ (forall l, Permutation (iter1 l) l) /\ (forall l, Permutation (iter2 l) l) /\ s1 <> s2 /\
  serve b64encode b64decode sha1 ext_name ext_valid iter1 c (inl q) = Opened [] s1 r1 /\
  serve b64encode b64decode sha1 ext_name ext_valid iter2 c (inl q) = Opened [] s2 r2.
Proof.
  intros G. exists (Config true None None None (Some [text "b"; text "a"]) None []).
  exists (Request (text "GET") 1 [(Connection, text "Upgrade"); (Upgrade, text "websocket"); (Key, k); (Version, text "13"); (Protocol, text "a, b")]).
  exists (fun l => l), (@rev str), (Some (text "a")), (Some (text "b")). eexists. eexists.
  split; [reflexivity|]. split; [reflexivity|]. split; [intros l; symmetry; apply Permutation_rev|]. split; [discriminate|].
  split; (rewrite serve_checks by (split; [reflexivity|exact I]); cbv zeta; cbn [q_headers];
    rewrite (proj2 (check_key_ok b64decode _ k)) by (split; [apply (vals_values Key)|exact G]); reflexivity).
Qed.

Theorem shutdown_escapes iter q : exists c, c_serving c = false /\ serve b64encode b64decode sha1 ext_name ext_valid iter c (inl q) = Escaped.
Proof. exists (Config false None None None None None []). split; reflexivity. Qed.

Theorem early_escapes iter q : exists c f, c_serving c = true /\ c_early c = Some f /\ f q = Some (Abort (PStr (text "Not for you.")) (PStatus 403)) /\
  serve b64encode b64decode sha1 ext_name ext_valid iter c (inl q) = Escaped.
Proof. eexists (Config true (Some (fun _ => Some (Abort (PStr (text "Not for you.")) (PStatus 403)))) None None None None []), _. repeat split. Qed.

Theorem client_h2c raw : exists h, (forall vs names, vals Upgrade h vs -> listed protocol vs names -> ~ names_websocket names) /\
  check_response b64encode sha1 ext_name ext_valid raw None None 1 101 h = Connected [] None.
Proof.
  exists [(Connection, text "Upgrade"); (Upgrade, text "h2c"); (Accept, b64encode (sha1 (b64encode raw ++ guid)))]. split.
  - intros vs names V L. apply vals_fun in V. cbn in V. subst vs. apply (collect_listed _ _ ups_iff) in L.
    vm_compute in L. injection L as <-. intros H. inversion H as [x l H1|x l H1]; subst; [|inversion H1].
    vm_compute in H1. repeat match goal with H : Forall2 _ (_ :: _) (_ :: _) |- _ => inversion H; clear H; subst end.
    intuition lia.
  - unfold check_response. rewrite !collect_opt_values, !get_all_values.
    change (values [(Connection, text "Upgrade"); (Upgrade, text "h2c"); (Accept, ?x)] Accept) with [x]. cbv iota.
    unfold accept_key. rewrite beqb_refl. reflexivity.
Qed.

Theorem client_failed raw : exists h, vals Upgrade h [] /\
  check_response b64encode sha1 ext_name ext_valid raw None None 1 101 h = Failed.
Proof.
  exists [(Connection, text "Upgrade"); (Accept, b64encode (sha1 (b64encode raw ++ guid)))]. split; [apply (vals_values Upgrade)|reflexivity].
Qed.
End W.
