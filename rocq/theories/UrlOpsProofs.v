From Coq Require Import List Arith Bool NArith ZArith String Lia Permutation.
From Verif Require Import Bytes Text QuoteModel QuoteSpec QuoteProofs UrlModel UrlSpec UrlProofs MultiModel MultiSpec MultiProofs UrlOpsModel UrlOpsSpec.
Import ListNotations.
Local Open Scope string_scope.
Local Open Scope list_scope.

(** * Cutting *)

Lemma cut_here c l r : ~ In c l -> cut c (l ++ c :: r) = (l, Some r).
Proof.
  induction l as [|x l IH]; intros H; cbn [app cut]; [rewrite N.eqb_refl; reflexivity|].
  destruct (N.eqb_spec x c) as [->|_]; [destruct H; left; reflexivity|]. rewrite IH by (intros Q; apply H; right; exact Q). reflexivity.
Qed.

Lemma cut_none c l : ~ In c l -> cut c l = (l, None).
Proof.
  induction l as [|x l IH]; intros H; cbn [cut]; [reflexivity|].
  destruct (N.eqb_spec x c) as [->|_]; [destruct H; left; reflexivity|]. rewrite IH by (intros Q; apply H; right; exact Q). reflexivity.
Qed.

Lemma without_not bad t c : without bad t -> In c (chars bad) -> ~ In c t.
Proof. intros W Hc Ht. unfold without in W. rewrite Forall_forall in W. exact (W c Ht Hc). Qed.

(** * What quoting writes *)

Lemma quote_free safe protected qs s q c : Forall scalar s -> quote safe protected qs s = Some q ->
  mem c (safe_set safe protected qs) = false -> c <> 43%N -> c <> 37%N -> ~ upper_hex c -> ~ In c q.
Proof.
  intros Hs Hq M H1 H2 H3 Hc. unfold quote in Hq. destruct (forallb _ _); [|discriminate]. injection Hq as <-.
  apply quoted_in in Hc; [|exact Hs]. apply mem_not_In in M. tauto.
Qed.

Lemma quote_spells safe protected s q : Forall ascii safe -> Forall ascii protected -> ~ QuoteSpec.kept safe protected false 37%N -> Forall scalar s ->
  quote safe protected false s = Some q -> rfc_decode q = Some (utf8 s).
Proof.
  intros H1 H2 H3 H4 Hq. destruct (quote_decodes safe protected s H1 H2 H3 H4) as (q' & E & D). congruence.
Qed.

Ltac free Hq := eapply (quote_free _ _ _ _ _ _ ltac:(eassumption) Hq); [reflexivity|lia|lia|unfold upper_hex; lia].

Lemma user_part p t bad : (forall c, In c (chars bad) -> In c (chars ":/?#@")) -> part_fits bad (Some p) ->
  encoded_of user_enc p = Some t -> spells p t /\ without bad t.
Proof.
  intros B F E. destruct p as [s|s]; cbn [part_fits encoded_of spells] in *.
  - split.
    + apply (quote_spells [] [] s t); [constructor|constructor| |exact F|exact E]. unfold QuoteSpec.kept, plain. cbn. intuition (try discriminate; lia).
    + apply Forall_forall. intros c Hc Hb. apply B in Hb. cbn in Hb. revert Hc.
      destruct Hb as [<-|[<-|[<-|[<-|[<-|[]]]]]]; free E.
  - injection E as <-. split; [reflexivity|exact F].
Qed.

Lemma user_opt p t bad : (forall c, In c (chars bad) -> In c (chars ":/?#@")) -> part_fits bad p ->
  opt_part (encoded_of user_enc) p = Some t -> spells_opt p (or_empty t) /\ without bad (or_empty t).
Proof.
  intros B F E. destruct p as [p|]; cbn [opt_part] in E.
  - destruct (encoded_of user_enc p) as [x|] eqn:X; [|discriminate]. injection E as <-. cbn [or_empty spells_opt]. exact (user_part p x bad B F X).
  - injection E as <-. split; [reflexivity|constructor].
Qed.

Lemma fragment_part p t : part_fits "" (Some p) -> encoded_of fragment_enc p = Some t -> spells p t.
Proof.
  intros F E. destruct p as [s|s]; cbn [part_fits encoded_of spells] in *.
  - apply (quote_spells (text "?/:@#") [] s t); [repeat constructor|constructor| |exact F|exact E]. unfold QuoteSpec.kept, plain. cbn. intuition (try discriminate; lia).
  - injection E as <-. reflexivity.
Qed.

Lemma path_segments parts qs : Forall (Forall scalar) parts -> map_option (quote (text "@:") (text "/") false) parts = Some qs ->
  Forall2 (fun g p => rfc_decode g = Some (utf8 p)) qs parts /\ Forall (without "?#") qs /\
  (Forall (fun s => ~ In 47%N s) parts -> Forall (fun s => ~ In 47%N s) qs).
Proof.
  intros H. revert qs. induction H as [|p parts Hp _ IH]; intros qs E; cbn [map_option] in E.
  - injection E as <-. repeat constructor.
  - destruct (quote _ _ _ p) as [q|] eqn:Q; [|discriminate]. destruct (map_option (quote (text "@:") (text "/") false) parts) as [r|]; [|discriminate]. injection E as <-.
    destruct (IH r eq_refl) as (I1 & I2 & I3). split; [|split].
    + constructor; [|exact I1]. apply (quote_spells (text "@:") (text "/") p q); [repeat constructor|repeat constructor| |exact Hp|exact Q].
      unfold QuoteSpec.kept, plain. cbn. intuition (try discriminate; lia).
    + constructor; [|exact I2]. apply Forall_forall. intros c Hc Hb. cbn in Hb. revert Hc. destruct Hb as [<-|[<-|[]]]; free Q.
    + intros N. inversion N as [|? ? N1 N2]; subst. constructor; [|apply I3; exact N2]. intros Hc. unfold quote in Q.
      destruct (forallb _ _); [|discriminate]. injection Q as <-. apply quoted_in in Hc; [|exact Hp]. unfold upper_hex in Hc.
      destruct Hc as [[_ Hc]|Hc]; [|lia]. apply N1, utf8_low; [exact Hp|lia|exact Hc].
Qed.

(** * Forms *)

Lemma upper_not_plus v : (v < 16)%N -> N.eqb (upper_digit v) 43 = false.
Proof. intros H. apply N.eqb_neq. destruct (upper_digit_hex v H); lia. Qed.

Lemma form_quoted set bs : ~ In 37%N set -> ~ In 43%N set -> Forall (fun b => (b < 256)%N) bs ->
  form_decode (flat_map (quote_byte set true) bs) = Some bs.
Proof.
  intros S1 S2. unfold form_decode. induction 1 as [|b l Hb _ IH]; [reflexivity|]. cbn [flat_map]. rewrite map_app. unfold quote_byte at 1.
  destruct (N.eqb_spec b 32) as [->|Hn]; cbn [andb].
  - cbn [map app rfc_decode N.eqb]. change (N.eqb 43 43) with true. cbn [rfc_decode]. change (N.eqb 32 37) with false. rewrite IH. reflexivity.
  - destruct (mem b set) eqn:E.
    + apply mem_In in E. cbn [map app rfc_decode]. destruct (N.eqb_spec b 43) as [->|_]; [contradiction|]. destruct (N.eqb_spec b 37) as [->|_]; [contradiction|].
      rewrite IH. reflexivity.
    + cbn [escape map]. rewrite !upper_not_plus by (apply N.div_lt_upper_bound || apply N.mod_lt; lia). change (N.eqb 37 43) with false.
      cbn [app rfc_decode]. rewrite N.eqb_refl. rewrite !hex_value_upper by (apply N.div_lt_upper_bound || apply N.mod_lt; lia). rewrite IH. f_equal. f_equal.
      pose proof (N.div_mod b 16). lia.
Qed.

Lemma query_part s q : Forall scalar s -> encode_query s = Some q -> form_decode q = Some (utf8 s) /\ without "&#" q.
Proof.
  intros Hs E. split.
  - unfold encode_query, quote in E. destruct (forallb _ _); [|discriminate]. injection E as <-. apply form_quoted; [| |apply utf8_bytes; exact Hs]; apply mem_not_In; reflexivity.
  - apply Forall_forall. intros c Hc Hb. cbn in Hb. revert Hc. unfold encode_query in E. destruct Hb as [<-|[<-|[]]]; free E.
Qed.

Lemma query_eq s q : Forall scalar s -> encode_query s = Some q -> ~ In 61%N s -> ~ In 61%N q.
Proof.
  intros Hs E N Hc. unfold encode_query, quote in E. destruct (forallb _ _); [|discriminate]. injection E as <-. apply quoted_in in Hc; [|exact Hs].
  unfold upper_hex in Hc. destruct Hc as [[_ Hc]|Hc]; [|lia]. apply N, utf8_low; [exact Hs|lia|exact Hc].
Qed.

Lemma serialize_rest items t : Forall (fun p => Forall scalar (fst p) /\ Forall scalar (snd p)) items -> QuoteModel.serialize_query false items = Some t ->
  exists raws, t = flat_map (fun p => [38%N] ++ fst p ++ [61%N] ++ snd p) raws /\ Forall2 form_spells items raws.
Proof.
  intros H. revert t. induction H as [|[k v] items [Hk Hv] _ IH]; intros t E; cbn [QuoteModel.serialize_query] in E.
  - injection E as <-. exists []. split; constructor.
  - destruct (encode_query k) as [k'|] eqn:K; [|discriminate]. destruct (encode_query v) as [v'|] eqn:V; [|discriminate].
    destruct (QuoteModel.serialize_query false items) as [r|]; [|discriminate]. injection E as <-. destruct (IH r eq_refl) as (raws & -> & F).
    exists ((k', v') :: raws). cbn [flat_map fst snd]. split; [rewrite <- !app_assoc; reflexivity|]. constructor; [|exact F].
    destruct (query_part k k' Hk K), (query_part v v' Hv V). split; [assumption|]. split; [assumption|]. split; [assumption|]. split; [assumption|]. exact (query_eq k k' Hk K).
Qed.

Lemma serialize_first items t : items <> [] -> Forall (fun p => Forall scalar (fst p) /\ Forall scalar (snd p)) items -> QuoteModel.serialize_query true items = Some t ->
  exists raws, t = form_text raws /\ Forall2 form_spells items raws.
Proof.
  intros Hn H E. destruct items as [|[k v] items]; [contradiction|]. cbn [QuoteModel.serialize_query] in E. inversion H as [|? ? [Hk Hv] Hi]; subst.
  destruct (encode_query k) as [k'|] eqn:K; [|discriminate]. destruct (encode_query v) as [v'|] eqn:V; [|discriminate].
  destruct (QuoteModel.serialize_query false items) as [r|] eqn:R; [|discriminate]. injection E as <-.
  destruct (serialize_rest items r Hi R) as (raws & -> & F). exists ((k', v') :: raws). split; [reflexivity|]. constructor; [|exact F].
  destruct (query_part k k' Hk K), (query_part v v' Hv V). split; [assumption|]. split; [assumption|]. split; [assumption|]. split; [assumption|]. exact (query_eq k k' Hk K).
Qed.

Lemma form_text_free items raws : Forall2 form_spells items raws -> ~ In 35%N (form_text raws).
Proof.
  assert (G : forall items raws, Forall2 form_spells items raws -> ~ In 35%N (flat_map (fun p => [38%N] ++ fst p ++ [61%N] ++ snd p) raws)).
  { induction 1 as [|i r is rs (_ & _ & W1 & W2 & _) _ IH]; [intros []|]. cbn [flat_map]. rewrite !in_app_iff.
    pose proof (without_not _ _ 35%N W1 ltac:(cbn; tauto)). pose proof (without_not _ _ 35%N W2 ltac:(cbn; tauto)). cbn [In]. intuition discriminate. }
  intros F. destruct F as [|i [k v] is rs (_ & _ & W1 & W2 & _) F]; [intros []|]. cbn [form_text]. rewrite !in_app_iff. specialize (G _ _ F).
  pose proof (without_not _ _ 35%N W1 ltac:(cbn; tauto)). pose proof (without_not _ _ 35%N W2 ltac:(cbn; tauto)). cbn [In]. intuition discriminate.
Qed.

(** * Sorted keys *)

Lemma insert_key_perm k l : Permutation (insert_key k l) (k :: l).
Proof.
  induction l as [|x l IH]; cbn [insert_key]; [reflexivity|]. destruct (str_lt k x); [reflexivity|]. rewrite IH. apply perm_swap.
Qed.
Lemma sort_keys_perm l : Permutation (sort_keys l) l.
Proof. induction l as [|x l IH]; cbn; [reflexivity|]. rewrite insert_key_perm, IH. reflexivity. Qed.

Lemma qkey_eqb_spec a b : reflect (a = b) (qkey_eqb a b).
Proof.
  destruct a as [x|x], b as [y|y]; cbn [qkey_eqb]; try (constructor; discriminate).
  - destruct (beqb x y) eqn:E; constructor; [apply beqb_eq in E; congruence|]. intros Q. injection Q as ->. rewrite beqb_refl in E. discriminate.
  - destruct (Z.eqb_spec x y) as [->|N]; constructor; congruence.
Qed.
Lemma beqb_spec a b : reflect (a = b) (beqb a b).
Proof. destruct (beqb a b) eqn:E; constructor; [apply beqb_eq; exact E|]. intros ->. rewrite beqb_refl in E. discriminate. Qed.

Notation qget := (get qkey qkey str (fun k => k) qkey_eqb).

Lemma get_in (d : dict qkey str) k vs : NoDup (map fst d) -> In (k, vs) d -> qget d k = Some vs.
Proof.
  induction d as [|[k' vs'] d IH]; intros N H; [destruct H|]. cbn [get]. unfold same. cbn [map fst] in N. inversion N as [|? ? N1 N2]; subst.
  destruct (qkey_eqb_spec k' k) as [->|Hk]; destruct H as [H|H].
  - congruence.
  - destruct N1. apply (in_map fst) in H. exact H.
  - congruence.
  - apply IH; assumption.
Qed.

Lemma flat_map_perm {A B} (f : A -> list B) l l' : Permutation l l' -> Permutation (flat_map f l) (flat_map f l').
Proof.
  induction 1 as [|x l l' _ IH|x y l|l1 l2 l3 _ I1 _ I2]; cbn [flat_map].
  - constructor.
  - apply Permutation_app_head. exact IH.
  - rewrite !app_assoc. apply Permutation_app_tail, Permutation_app_comm.
  - etransitivity; eassumption.
Qed.

Lemma key_strings_map d ks : key_strings d = Some ks -> map fst d = map KStr ks.
Proof.
  revert ks. induction d as [|[[s|z] vs] d IH]; intros ks E; cbn [key_strings] in E; [injection E as <-; reflexivity| |discriminate].
  destruct (key_strings d) as [r|]; [|discriminate]. injection E as <-. cbn [map fst]. rewrite (IH r eq_refl). reflexivity.
Qed.

Lemma items_perm d items : NoDup (map fst d) -> q_items d = Some items -> exists l, Permutation items l /\ string_pairs d l.
Proof.
  intros N E. unfold q_items in E. destruct (key_strings d) as [ks|] eqn:K; [|discriminate]. injection E as <-.
  pose proof (key_strings_map d ks K) as M.
  exists (flat_map (fun k => map (fun v => (k, v)) (match qget d (KStr k) with Some vs => vs | None => [] end)) ks).
  split; [apply flat_map_perm, sort_keys_perm|]. unfold string_pairs.
  assert (G : forall d' ks', map fst d' = map KStr ks' -> (forall p, In p d' -> In p d) ->
    flat_map (fun kv => map (fun v => (fst kv, v)) (snd kv)) d' =
    map (fun p => (KStr (fst p), snd p)) (flat_map (fun k => map (fun v => (k, v)) (match qget d (KStr k) with Some vs => vs | None => [] end)) ks')).
  { induction d' as [|[k vs] d' IH]; intros [|s ks'] E H; try discriminate; [reflexivity|]. cbn [map fst] in E. injection E as -> E.
    cbn [flat_map fst snd]. rewrite map_app. rewrite (IH ks' E) by (intros p Hp; apply H; right; exact Hp).
    rewrite (get_in d (KStr s) vs N) by (apply H; left; reflexivity). rewrite map_map. reflexivity. }
  apply (G d ks M). auto.
Qed.

Lemma items_scalar d l : query_fits d -> string_pairs d l -> Forall (fun p => Forall scalar (fst p) /\ Forall scalar (snd p)) l.
Proof.
  intros [_ F] S. apply Forall_forall. intros [k v] H.
  assert (I1 : In (KStr k, v) (flat_map (fun kv => map (fun v => (fst kv, v)) (snd kv)) d)).
  { unfold string_pairs in S. rewrite S. change (KStr k, v) with ((fun p : str * str => (KStr (fst p), snd p)) (k, v)). apply in_map. exact H. }
  apply in_flat_map in I1. destruct I1 as ([k' vs] & I1 & I2). apply in_map_iff in I2. destruct I2 as (w & E & I2). cbn [fst snd] in *. injection E as -> ->.
  destruct (F _ _ I1) as (F1 & _ & F2). rewrite Forall_forall in F2. split; [exact F1|exact (F2 v I2)].
Qed.

(** * Reading what is written *)

Definition user_text (u : option (str * str)) : str := match u with None => [] | Some (a, b) => a ++ [58%N] ++ b ++ [64%N] end.
Definition user_fits (u : option (str * str)) : Prop := match u with None => True | Some (a, b) => without ":/?#@" a /\ without "/?#@" b end.
Definition lead (c : N) (o : option str) : str := match o with None => [] | Some x => c :: x end.

Ltac absent := repeat first
  [ match goal with |- ~ In _ (_ ++ _) => rewrite in_app_iff; let Q := fresh in intros Q; destruct Q as [Q|Q]; revert Q end
  | match goal with |- In _ (_ ++ _) -> False => let Q := fresh in intros Q; rewrite in_app_iff in Q; destruct Q as [Q|Q]; revert Q end
  | match goal with |- ~ In _ (_ :: _) => let Q := fresh in intros Q; destruct Q as [Q|Q]; [discriminate Q|revert Q] end
  | match goal with |- In _ (_ :: _) -> False => let Q := fresh in intros Q; destruct Q as [Q|Q]; [discriminate Q|revert Q] end
  | match goal with |- ~ In _ [] => intros [] end
  | match goal with |- In _ [] -> False => intros [] end ].
Ltac wo := match goal with W : without _ ?t |- ~ In ?c ?t => exact (without_not _ _ c W ltac:(cbn; tauto)) | W : without _ ?t |- In ?c ?t -> False => exact (without_not _ _ c W ltac:(cbn; tauto)) end.

Lemma read_host_ok h port : host_fits h -> match port with None => True | Some p => without ":/?#@[" p end ->
  read_host (h ++ lead 58 port) = (h, port) /\ (forall c, In c (chars "/?#@") -> ~ In c (h ++ lead 58 port)).
Proof.
  intros Hh Hp. split.
  - destruct Hh as [(i & -> & W)|W].
    + cbn [app]. unfold read_host. rewrite <- app_assoc. cbn [app].
      assert (E : cut 93 (91%N :: i ++ 93%N :: lead 58 port) = (91%N :: i, Some (lead 58 port))) by (apply (cut_here 93 (91%N :: i)); absent; wo).
      rewrite E. destruct port as [p|]; reflexivity.
    + unfold read_host.
      assert (E : cut 58 (h ++ lead 58 port) = (h, port)).
      { destruct port as [p|]; cbn [lead]; [apply cut_here; wo|rewrite app_nil_r; apply cut_none; wo]. }
      pose proof (without_not _ _ 91%N W ltac:(cbn; tauto)) as N. destruct h as [|x h]; cbn [app] in *.
      * destruct port; exact E.
      * destruct (N.eq_dec x 91) as [->|Hx]; [destruct N; left; reflexivity|].
        destruct x as [|[?|?|]]; try exact E; repeat (match goal with p : positive |- _ => destruct p; try exact E end); contradiction.
  - assert (P : forall c, In c (chars "/?#@") -> ~ In c (lead 58 port)).
    { intros c Hc. destruct port as [p|]; cbn [lead]; [|intros []]. intros [Q|Q]; [subst c; cbn in Hc; intuition discriminate|].
      revert Q. apply (without_not _ _ _ Hp). cbn in *. tauto. }
    intros c Hc Q. apply in_app_iff in Q. destruct Q as [Q|Q]; [|exact (P c Hc Q)]. destruct Hh as [(i & -> & W)|W].
    + rewrite !in_app_iff in Q. destruct Q as [[Q|[]]|[Q|[Q|[]]]]; try (subst c; cbn in Hc; intuition discriminate).
      revert Q. apply (without_not _ _ _ W). cbn in *. tauto.
    + revert Q. apply (without_not _ _ _ W). cbn in *. tauto.
Qed.

Lemma read_shape s u h port p q f : scheme_fits s -> user_fits u -> host_fits h -> match port with None => True | Some x => without ":/?#@[" x end ->
  without "?#" p -> match q with None => True | Some x => ~ In 35%N x end ->
  read_url (s ++ [58; 47; 47]%N ++ (user_text u ++ h ++ lead 58 port) ++ (47%N :: p) ++ lead 63 q ++ lead 35 f) =
  mk_shown (Some s) (option_map (fun ab => (fst ab, Some (snd ab))) u) (Some h) port (47%N :: p) q f.
Proof.
  intros [Hs0 Hs] Hu Hh Hport Hp Hq. destruct (read_host_ok h port Hh Hport) as [RH RN]. set (auth := user_text u ++ h ++ lead 58 port) in *.
  assert (A : forall c, In c (chars "/?#") -> ~ In c auth).
  { intros c Hc. unfold auth. rewrite in_app_iff. intros [Q|Q]; [|revert Q; apply RN; cbn in *; tauto].
    destruct u as [[a b]|]; cbn [user_text] in Q; [|destruct Q]. destruct Hu as [W1 W2]. rewrite !in_app_iff in Q.
    destruct Q as [Q|[[Q|[]]|[Q|[Q|[]]]]]; try (subst c; cbn in Hc; intuition discriminate); revert Q;
    [apply (without_not _ _ _ W1)|apply (without_not _ _ _ W2)]; cbn in *; tauto. }
  assert (B : forall c, In c (chars "?#") -> ~ In c (s ++ [58; 47; 47]%N ++ auth ++ 47%N :: p)).
  { intros c Hc. rewrite !in_app_iff. intros [Q|[Q|[Q|Q]]].
    - revert Q. apply (without_not _ _ _ Hs). cbn in *; tauto.
    - cbn in Q, Hc. intuition (subst; discriminate).
    - revert Q. apply A. cbn in *; tauto.
    - destruct Q as [Q|Q]; [subst c; cbn in Hc; intuition discriminate|]. revert Q. apply (without_not _ _ _ Hp). exact Hc. }
  unfold read_url.
  replace (s ++ [58; 47; 47]%N ++ auth ++ (47%N :: p) ++ lead 63 q ++ lead 35 f) with (((s ++ [58; 47; 47]%N ++ auth ++ 47%N :: p) ++ lead 63 q) ++ lead 35 f)
    by (rewrite <- !app_assoc; reflexivity).
  set (front := s ++ [58; 47; 47]%N ++ auth ++ 47%N :: p) in *.
  assert (C1 : cut 35 ((front ++ lead 63 q) ++ lead 35 f) = (front ++ lead 63 q, f)).
  { assert (N : ~ In 35%N (front ++ lead 63 q)).
    { rewrite in_app_iff. intros [Q|Q]; [revert Q; apply B; cbn; tauto|]. destruct q as [x|]; cbn [lead] in Q; [|destruct Q]. destruct Q as [Q|Q]; [discriminate|auto]. }
    destruct f as [x|]; cbn [lead]; [apply cut_here; exact N|rewrite app_nil_r; apply cut_none; exact N]. }
  rewrite C1.
  assert (C2 : cut 63 (front ++ lead 63 q) = (front, q)).
  { assert (N : ~ In 63%N front) by (apply B; cbn; tauto).
    destruct q as [x|]; cbn [lead]; [apply cut_here; exact N|rewrite app_nil_r; apply cut_none; exact N]. }
  rewrite C2. unfold front at 1. cbn [app]. rewrite cut_here by (apply (without_not _ _ _ Hs); cbn; tauto).
  assert (E : existsb (N.eqb 47) s = false).
  { destruct (existsb (N.eqb 47) s) eqn:X; [|reflexivity]. apply existsb_exists in X. destruct X as (y & Y & Z). apply N.eqb_eq in Z. subst y.
    destruct (without_not _ _ 47%N Hs ltac:(cbn; tauto) Y). }
  destruct s as [|s0 s1]; [contradiction|]. rewrite E.
  rewrite (cut_here 47 auth p) by (apply A; cbn; tauto).
  assert (R : read_authority auth = (option_map (fun ab => (fst ab, Some (snd ab))) u, (h, port))).
  { unfold read_authority, auth. destruct u as [[a b]|]; cbn [user_text option_map fst snd app].
    - destruct Hu as [W1 W2]. replace ((a ++ 58%N :: b ++ [64%N]) ++ h ++ lead 58 port) with ((a ++ 58%N :: b) ++ 64%N :: h ++ lead 58 port)
        by (rewrite <- !app_assoc; cbn [app]; rewrite <- ?app_assoc; reflexivity).
      rewrite cut_here by (absent; wo). rewrite RH, cut_here by wo. reflexivity.
    - rewrite cut_none by (apply RN; cbn; tauto). rewrite RH. reflexivity. }
  rewrite R. reflexivity.
Qed.

Lemma dec_fits n : without ":/?#@[" (Text.dec n).
Proof.
  destruct (dec_spec n) as (_ & H & _). eapply Forall_impl; [|exact H]. intros c Hc Hb. unfold is_digit in Hc.
  apply andb_true_iff in Hc. rewrite !N.leb_le in Hc. cbn in Hb. lia.
Qed.

Lemma flat_slash_free segs : Forall (without "?#") segs -> without "?#" (flat_map (cons 47%N) segs).
Proof.
  induction 1 as [|g segs Hg _ IH]; [constructor|]. cbn [flat_map app]. constructor; [cbn; intuition discriminate|]. apply Forall_app. split; assumption.
Qed.

Lemma Forall2_nonempty {A B} (R : A -> B -> Prop) l l' : Forall2 R l l' -> l' <> [] -> l <> [].
Proof. intros F H ->. inversion F. subst. contradiction. Qed.

Lemma host_shown_built idna unidna h t : host_shown idna h t -> build_host (part_text true (host_enc idna) (host_dec unidna)) h = Some t.
Proof.
  assert (L : forall p x, label idna p x -> encoded_of (host_enc idna) p = Some x).
  { intros [y|y] x H; cbn in *; [|congruence]. unfold host_enc. destruct (is_ascii y); congruence. }
  intros H. destruct H as [m t H|dot m sub top t before after H Hs Ht]; unfold build_host; cbn [h_main h_sub h_top h_v6 h_dot opt_part bind option_map];
    change (part_text true (host_enc idna) (host_dec unidna)) with (encoded_of (host_enc idna)); rewrite (L _ _ H); cbn [bind option_map]; [rewrite app_nil_r; reflexivity|].
  destruct sub as [sub|]; [destruct Hs as (x & -> & Hs)|cbn in Hs; subst before]; (destruct top as [top|]; [destruct Ht as (y & -> & Ht)|cbn in Ht; subst after]);
    cbn [opt_part]; rewrite ?(L _ _ Hs), ?(L _ _ Ht); cbn [bind option_map app dotted]; f_equal; repeat (progress (rewrite <- ?app_assoc; cbn [app])); reflexivity.
Qed.

Theorem read_written idna unidna u s h ht t : scheme u = Some s -> scheme_fits s -> host u = Some h ->
  host_shown idna h ht -> host_fits ht -> fits u ->
  value_encoded idna unidna u = Some t -> says u s ht (read_url t).
Proof.
  intros Es Hs Eh Bh Hh [Fu Fp Fq Ff] V. apply (host_shown_built idna unidna) in Bh. unfold value_encoded, build_value in V. rewrite Es in V.
  assert (HA : has_authority u = true) by (unfold has_authority; rewrite Eh; destruct (user u); reflexivity).
  rewrite HA in V. unfold authority_text in V. rewrite Eh, Bh in V.
  (* the user *)
  destruct (match user u with None => Some [] | Some i => build_user (part_text true user_enc plain_dec) i end) as [ut|] eqn:U; [|discriminate].
  assert (UU : exists us, ut = user_text us /\ user_fits us /\
    match user u, us with None, None => True | Some i, Some (a, b) => spells_opt (u_name i) a /\ spells_opt (u_password i) b | _, _ => False end).
  { destruct (user u) as [i|].
    - unfold build_user, bind in U. change (part_text true user_enc plain_dec) with (encoded_of user_enc) in U.
      destruct (opt_part _ (u_name i)) as [a|] eqn:A; [|discriminate]. destruct (opt_part _ (u_password i)) as [b|] eqn:B; [|discriminate]. injection U as <-.
      destruct Fu as [F1 F2]. destruct (user_opt _ _ ":/?#@" ltac:(auto) F1 A) as [S1 W1]. destruct (user_opt _ _ "/?#@" ltac:(intros c Hc; cbn in *; tauto) F2 B) as [S2 W2].
      exists (Some (or_empty a, or_empty b)). split; [reflexivity|]. split; split; assumption.
    - injection U as <-. exists None. repeat split. }
  destruct UU as (us & -> & UF & US).
  (* the port *)
  cbn [bind option_map] in V.
  set (pt := option_map Text.dec (port u)) in *.
  assert (PT : match port u with None => [] | Some n => 58%N :: Text.dec n end = lead 58 pt) by (unfold pt; destruct (port u); reflexivity).
  rewrite PT in V. clear PT.
  assert (PF : match pt with None => True | Some x => without ":/?#@[" x end) by (unfold pt; destruct (port u); [apply dec_fits|exact Logic.I]).
  (* the path *)
  destruct (match path u with None => Some None | Some p => path_text true p end) as [po|] eqn:P; [|discriminate]. cbn [bind] in V.
  assert (PP : exists p, match po with None => [47%N] | Some p => p end = 47%N :: p /\ without "?#" p /\
    match parsed_path u with
    | None => 47%N :: p = [47%N]
    | Some parts => exists segments, 47%N :: p = flat_map (cons 47%N) segments /\
        Forall2 (fun g p => rfc_decode g = Some (utf8 p)) segments parts /\ (Forall (fun p => ~ In 47%N p) parts -> Forall (fun g => ~ In 47%N g) segments)
    end).
  { unfold parsed_path in *. destruct (path u) as [[parts|]|]; cbn [path_text] in P.
    - destruct Fp as [Fp1 Fp2]. destruct parts as [|p0 parts]; [contradiction|].
      unfold serialize_path in P. destruct (map_option _ (p0 :: parts)) as [segs|] eqn:M; [|discriminate]. cbn [option_map] in P. injection P as <-.
      destruct (path_segments _ _ Fp2 M) as (F1 & F2 & F3). pose proof (Forall2_nonempty _ _ _ F1 Fp1) as NE. destruct segs as [|g segs]; [contradiction|].
      exists (g ++ flat_map (cons 47%N) segs). split; [reflexivity|]. split.
      + pose proof (flat_slash_free _ F2) as W. cbn [flat_map app] in W. inversion W. assumption.
      + exists (g :: segs). split; [reflexivity|]. split; assumption.
    - injection P as <-. exists []. repeat split. constructor.
    - injection P as <-. exists []. repeat split. constructor. }
  destruct PP as (p & PE & PW & PS). cbv zeta in V. rewrite PE in V. clear PE.
  (* the query *)
  destruct (match query u with None => Some None | Some q => serialize true q end) as [qt|] eqn:Q; [|discriminate]. cbn [bind] in V.
  assert (QQ : match qt with None => True | Some x => ~ In 35%N x end /\
    match query u with
    | Some (Some ((_ :: _) as d)) => exists items raws pairs, qt = Some (form_text raws) /\ Forall2 form_spells items raws /\ Permutation items pairs /\ string_pairs d pairs
    | _ => qt = None
    end).
  { destruct (query u) as [[d|]|]; [|injection Q as <-; split; [exact Logic.I|reflexivity]..].
    destruct d as [|e d]; [injection Q as <-; split; [exact Logic.I|reflexivity]|]. cbn [serialize] in Q. unfold bind in Q.
    destruct (q_items (e :: d)) as [items|] eqn:IT; [|discriminate]. destruct (QuoteModel.serialize_query true items) as [x|] eqn:SQ; [|discriminate].
    cbn [option_map] in Q. injection Q as <-.
    destruct (items_perm _ _ (proj1 Fq) IT) as (ps & PERM & SP). pose proof (items_scalar _ _ Fq SP) as SC.
    assert (NE : items <> []).
    { intros ->. apply Permutation_nil in PERM. subst ps. unfold string_pairs in SP. cbn [map] in SP. destruct e as [k vs].
      destruct (proj2 Fq k vs ltac:(left; reflexivity)) as (_ & NV & _). destruct vs; [contradiction|discriminate]. }
    assert (SC' : Forall (fun p => Forall scalar (fst p) /\ Forall scalar (snd p)) items).
    { rewrite Forall_forall in *. intros y Hy. apply SC. eapply Permutation_in; eassumption. }
    destruct (serialize_first items x NE SC' SQ) as (raws & -> & FS). split; [eapply form_text_free; exact FS|].
    exists items, raws, ps. repeat split; assumption. }
  destruct QQ as [QF QS].
  (* the fragment *)
  destruct (opt_part (part_text true fragment_enc plain_dec) (fragment u)) as [ft|] eqn:F; [|discriminate]. cbn [bind andb] in V.
  assert (FS : match fragment u, ft with None, None => True | Some f, Some t => spells f t | _, _ => False end).
  { destruct (fragment u) as [f|]; cbn [opt_part] in F; [|injection F as <-; exact Logic.I].
    destruct (part_text _ _ _ f) as [x|] eqn:X; [|discriminate]. injection F as <-. exact (fragment_part f x Ff X). }
  injection V as <-.
  assert (E : (s ++ [58%N]) ++ ([47; 47]%N ++ user_text us ++ ht ++ lead 58 pt) ++ (47%N :: p)
       ++ (match qt with Some q => 63%N :: q | None => [] end) ++ (match ft with Some f => 35%N :: f | None => [] end)
     = s ++ [58; 47; 47]%N ++ (user_text us ++ ht ++ lead 58 pt) ++ (47%N :: p) ++ lead 63 qt ++ lead 35 ft).
  { rewrite <- !app_assoc. destruct qt, ft; reflexivity. }
  match goal with |- says _ _ _ (read_url ?x) => replace x with (s ++ [58; 47; 47]%N ++ (user_text us ++ ht ++ lead 58 pt) ++ (47%N :: p) ++ lead 63 qt ++ lead 35 ft) end.
  rewrite (read_shape s us ht pt p qt ft Hs UF Hh PF PW QF).
  split; cbn [s_scheme s_user s_host s_port s_path s_query s_fragment].
  - reflexivity.
  - destruct (user u), us as [[a b]|]; cbn [option_map fst snd]; auto.
  - reflexivity.
  - unfold pt. destruct (port u) as [n|]; cbn [option_map]; [|exact Logic.I]. split; apply (dec_spec n).
  - exact PS.
  - exact QS.
  - exact FS.
Qed.

(** * Joining *)

Lemma build_cong idna unidna e u v : scheme u = scheme v -> user u = user v -> host u = host v -> port u = port v -> parsed_path u = parsed_path v ->
  query u = query v -> fragment u = fragment v -> build_value idna unidna e u = build_value idna unidna e v.
Proof.
  intros E1 E2 E3 E4 E5 E6 E7. unfold build_value, has_authority, authority_text. rewrite E1, E2, E3, E4, E6, E7.
  assert (P : match path u with None => Some None | Some p => path_text e p end = match path v with None => Some None | Some p => path_text e p end).
  { unfold parsed_path in E5. destruct (path u) as [p|], (path v) as [q|]; cbn [path_text]; subst; reflexivity. }
  rewrite P. reflexivity.
Qed.

(** Of a base without a path, a reference without scheme and authority but with a path is resolved as it should be. *)
Theorem join_root idna unidna e base ref : parsed_path base = None -> scheme ref = None -> has_authority ref = false -> parsed_path ref <> None ->
  build_value idna unidna e (join base ref) = build_value idna unidna e (resolve base ref).
Proof.
  intros B S A P. unfold resolve. rewrite S, A. destruct (parsed_path ref) as [parts|] eqn:E; [|contradiction].
  apply build_cong; try reflexivity. unfold join. rewrite B, E. cbn [option_map]. unfold parsed_path at 1. cbn [path]. unfold parsed_path in *. cbn [path]. rewrite E. reflexivity.
Qed.

Theorem join_path base ref : normal base -> normal ref ->
  parsed_path (join base ref) =
  match parsed_path base, parsed_path ref with
  | None, o => o
  | Some b, None => Some b
  | Some b, Some r => Some (b ++ r)
  end.
Proof.
  unfold normal, join. intros B R. unfold parsed_path at 1. cbn [path].
  destruct (parsed_path base) as [b|], (parsed_path ref) as [r|]; cbn [option_map]; try reflexivity.
  destruct B as [B1 B2], R as [R1 R2]. rewrite normalize_id; [reflexivity| |apply Forall_app; split; assumption].
  intros Q. apply app_eq_nil in Q. destruct Q. contradiction.
Qed.

Theorem join_keeps idna unidna base ref r : normal base -> normal ref -> join base ref = r ->
  scheme r = scheme base /\ user r = user base /\ host r = host base /\ port r = port base /\ query r = query ref /\ fragment r = fragment ref /\ normal r
  /\ authority_text idna unidna true r = authority_text idna unidna true base.
Proof.
  intros B R <-. repeat split.
  unfold normal. rewrite (join_path base ref B R). unfold normal in B, R. destruct (parsed_path base) as [b|], (parsed_path ref) as [r|]; auto.
  destruct B as [B1 B2], R as [R1 R2]. split; [|apply Forall_app; split; assumption]. intros Q. apply app_eq_nil in Q. destruct Q. contradiction.
Qed.

(** * Names *)

Lemma removelast_snoc {A} (l : list A) x : removelast (l ++ [x]) = l.
Proof. apply removelast_last. Qed.

Lemma div_parts u n : normal u -> plain_segment n -> parsed_path (div u n) = Some (match parsed_path u with None => [n] | Some parts => parts ++ [n] end).
Proof.
  intros H P. unfold div, with_path. unfold parsed_path at 1. cbn [path]. unfold normal in H. destruct (parsed_path u) as [parts|].
  - destruct H as [H1 H2]. rewrite normalize_id; [reflexivity| |apply Forall_app; split; [exact H2|repeat constructor; apply P]].
    intros Q. apply app_eq_nil in Q. destruct Q. discriminate.
  - rewrite normalize_id; [reflexivity|discriminate|constructor; [exact P|constructor]].
Qed.

Theorem div_name u n : normal u -> plain_segment n -> name (div u n) = n /\ normal (div u n).
Proof.
  intros H P. unfold name, normal. rewrite (div_parts u n H P). unfold normal in H. destruct (parsed_path u) as [parts|].
  - split; [apply last_last|]. split; [intros Q; apply app_eq_nil in Q; destruct Q; discriminate|]. apply Forall_app. split; [apply H|repeat constructor; apply P].
  - split; [reflexivity|]. split; [discriminate|repeat constructor; apply P].
Qed.

Theorem div_parent idna unidna e u n : normal u -> plain_segment n ->
  build_value idna unidna e (parent (div u n)) = build_value idna unidna e (without_query u).
Proof.
  intros H P. apply build_cong; try reflexivity. unfold parent. rewrite (div_parts u n H P). unfold parsed_path at 1. cbn [path].
  unfold normal in H. destruct (parsed_path u) as [parts|] eqn:E.
  - destruct H as [H1 _]. rewrite app_length. cbn [List.length]. destruct (Nat.eqb_spec (List.length parts + 1) 1) as [Q|_].
    + destruct parts; [contradiction|cbn in Q; lia].
    + rewrite removelast_snoc. unfold parsed_path in *. cbn [without_query path]. symmetry. exact E.
  - cbn [List.length Nat.eqb]. unfold parsed_path in *. cbn [without_query path]. symmetry. exact E.
Qed.

Theorem with_name_ok idna unidna e u n : normal u -> plain_segment n ->
  name (with_name u n) = n /\ normal (with_name u n) /\ build_value idna unidna e (parent (with_name u n)) = build_value idna unidna e (parent u).
Proof.
  intros H P.
  assert (E : parsed_path (with_name u n) = Some (match parsed_path u with None => [n] | Some parts => removelast parts ++ [n] end)).
  { unfold with_name, with_path. unfold parsed_path at 1. cbn [path]. unfold normal in H. destruct (parsed_path u) as [parts|].
    - destruct H as [H1 H2]. destruct parts as [|p [|q parts]]; [contradiction| |].
      + cbn [List.length Nat.leb removelast app]. rewrite normalize_id; [reflexivity|discriminate|constructor; [exact P|constructor]].
      + cbn [List.length Nat.leb]. rewrite normalize_id; [reflexivity| |].
        * intros Q. apply app_eq_nil in Q. destruct Q. discriminate.
        * apply Forall_app. split; [|repeat constructor; apply P]. rewrite (app_removelast_last [] (l := p :: q :: parts)) in H2 by discriminate.
          apply Forall_app in H2. apply H2.
    - rewrite normalize_id; [reflexivity|discriminate|constructor; [exact P|constructor]]. }
  assert (R : match parsed_path u with None => True | Some parts => Forall plain_segment (removelast parts) end).
  { unfold normal in H. destruct (parsed_path u) as [parts|]; [|exact Logic.I]. destruct H as [H1 H2].
    rewrite (app_removelast_last [] H1) in H2. apply Forall_app in H2. apply H2. }
  split; [|split].
  - unfold name. rewrite E. destruct (parsed_path u); [apply last_last|reflexivity].
  - unfold normal. rewrite E. destruct (parsed_path u) as [parts|].
    + split; [intros Q; apply app_eq_nil in Q; destruct Q; discriminate|]. apply Forall_app. split; [exact R|repeat constructor; apply P].
    + split; [discriminate|repeat constructor; apply P].
  - apply build_cong; try reflexivity. unfold parent. rewrite E. unfold parsed_path at 1. cbn [path]. unfold normal in H. destruct (parsed_path u) as [parts|] eqn:EP.
    + destruct H as [H1 _]. destruct parts as [|p [|q parts]]; [contradiction| |].
      * reflexivity.
      * rewrite app_length, removelast_snoc. cbn [List.length]. destruct (Nat.eqb_spec (List.length (removelast (p :: q :: parts)) + 1) 1) as [Q|_].
        -- cbn [removelast List.length] in Q. lia.
        -- unfold parsed_path. cbn [path]. reflexivity.
    + cbn [List.length Nat.eqb]. unfold parsed_path. cbn [path]. reflexivity.
Qed.

(** * Queries *)

Section Query.
Variables (float date : Type) (int_text : Z -> str) (float_text : float -> str) (isinf isnan : float -> bool) (isoformat : date -> str).
Notation normalize_item := (normalize_item float date int_text float_text isinf isnan isoformat).
Notation normalize_items := (normalize_items float date int_text float_text isinf isnan isoformat).
Notation texts := (texts float date int_text float_text isinf isnan isoformat).
Notation pair_texts := (pair_texts float date int_text float_text isinf isnan isoformat).

Definition store_all (q : option (dict qkey str)) (k : qkey) (l : list str) : option (dict qkey str) := fold_left (fun q v => q_store q k v) l q.

Fixpoint qval_ind' (P : qval float date -> Prop) (H1 : forall s, P (VStr _ _ s)) (H2 : forall b, P (VBool _ _ b)) (H3 : forall z, P (VInt _ _ z))
  (H4 : P (VNone _ _)) (H5 : forall d, P (VDate _ _ d)) (H6 : forall f, P (VFloat _ _ f)) (H7 : forall l, Forall P l -> P (VList _ _ l)) (H8 : P (VOther _ _))
  (v : qval float date) : P v :=
  match v with
  | VStr _ _ s => H1 s | VBool _ _ b => H2 b | VInt _ _ z => H3 z | VNone _ _ => H4 | VDate _ _ d => H5 d | VFloat _ _ f => H6 f
  | VList _ _ l => H7 l ((fix go l : Forall P l := match l with [] => Forall_nil _ | x :: l' => Forall_cons _ (qval_ind' P H1 H2 H3 H4 H5 H6 H7 H8 x) (go l') end) l)
  | VOther _ _ => H8
  end.

Lemma item_ok v : forall q k, normalize_item q k v = match texts v with (a, None) => inl (store_all q k a) | (_, Some e) => inr e end.
Proof.
  induction v as [s|b|z| |d|f|l IH|] using qval_ind'; intros q k; cbn [UrlOpsModel.normalize_item UrlOpsSpec.texts].
  - reflexivity.
  - destruct b; reflexivity.
  - reflexivity.
  - reflexivity.
  - reflexivity.
  - destruct (isinf f), (isnan f); reflexivity.
  - revert q. induction IH as [|x l Hx _ IHl]; intros q; [reflexivity|]. rewrite Hx. destruct (texts x) as [a [e|]]; [reflexivity|].
    rewrite IHl. match goal with |- match ?g with _ => _ end = _ => destruct g as [b [e|]] end; [reflexivity|]. unfold store_all. rewrite fold_left_app. reflexivity.
  - reflexivity.
Qed.

Definition store_pairs (q : option (dict qkey str)) (l : list (qkey * str)) := fold_left (fun q p => q_store q (fst p) (snd p)) l q.

Lemma store_map q k l : store_pairs q (map (pair k) l) = store_all q k l.
Proof. revert q. induction l as [|x l IH]; intros q; [reflexivity|]. apply IH. Qed.

Lemma items_ok l : forall q, normalize_items q l = match pair_texts l with (a, None) => inl (store_pairs q a) | (_, Some e) => inr e end.
Proof.
  induction l as [|[k v] l IH]; intros q; cbn [UrlOpsModel.normalize_items UrlOpsSpec.pair_texts]; [reflexivity|]. rewrite item_ok.
  destruct (texts v) as [a [e|]]; [reflexivity|]. rewrite IH. destruct (pair_texts l) as [b [e|]]; [reflexivity|]. unfold store_pairs at 2. rewrite fold_left_app.
  change (fold_left _ (map (pair k) a) q) with (store_pairs q (map (pair k) a)). rewrite store_map. reflexivity.
Qed.
End Query.

Notation qlook := (look qkey qkey str (fun k => k) qkey_eqb).
Notation qinv := (inv qkey qkey str (fun k => k)).

Definition odict (q : option (dict qkey str)) : dict qkey str := match q with None => [] | Some d => d end.

Lemma q_store_written q k v : q_store q k v = if written (k, v) then Some (q_set (odict q) k v) else q.
Proof.
  unfold q_store, written, odict. destruct k as [[|c s]|z], v as [|x v]; cbn [andb]; try reflexivity; rewrite ?andb_true_r, ?andb_false_r.
  - destruct (Z.eqb z 0); reflexivity.
  - reflexivity.
Qed.

Lemma store_filter q l : store_pairs q l = match filter written l with [] => q | l' => Some (extend qkey qkey str (fun k => k) qkey_eqb beqb (odict q) l') end.
Proof.
  revert q. induction l as [|[k v] l IH]; intros q; [reflexivity|]. unfold store_pairs. cbn [fold_left fst snd]. fold (store_pairs (q_store q k v) l). rewrite IH, q_store_written.
  cbn [filter]. destruct (written (k, v)); [|reflexivity]. unfold extend. cbn [fold_left fst snd odict]. destruct (filter written l); reflexivity.
Qed.

Lemma once_nodup l : forall seen, NoDup seen -> NoDup (seen ++ once seen l).
Proof.
  induction l as [|x l IH]; intros seen H; cbn [once]; [rewrite app_nil_r; exact H|]. destruct (existsb (beqb x) seen) eqn:E; [apply IH; exact H|].
  replace (seen ++ x :: once (seen ++ [x]) l) with ((seen ++ [x]) ++ once (seen ++ [x]) l) by (rewrite <- app_assoc; reflexivity). apply IH.
  apply NoDup_snoc; [exact H|]. intros Q. assert (T : existsb (beqb x) seen = true) by (apply existsb_exists; exists x; split; [exact Q|apply beqb_refl]). congruence.
Qed.

Lemma existsb_in x l : existsb (beqb x) l = true <-> In x l.
Proof. rewrite existsb_exists. split; [intros (y & H & E); apply beqb_eq in E; subst; exact H|intros H; exists x; split; [exact H|apply beqb_refl]]. Qed.

Lemma added_values m l m' : added_all qkey qkey str (fun k => k) m l m' ->
  forall k, m' k = m k ++ once (m k) (map snd (filter (fun p => qkey_eqb (fst p) k) l)).
Proof.
  induction 1 as [m m' H|m m1 m2 k0 v l A _ IH]; intros k.
  - cbn [filter map once]. rewrite app_nil_r. apply H.
  - rewrite IH. cbn [filter fst]. destruct (qkey_eqb_spec k0 k) as [->|N].
    + cbn [map snd once]. destruct A as [[I1 K1]|[I1 [C1 _]]].
      * rewrite (proj2 (existsb_in v (m k)) I1), (K1 k). reflexivity.
      * destruct (existsb (beqb v) (m k)) eqn:E; [apply existsb_in in E; contradiction|]. rewrite C1, <- app_assoc. reflexivity.
    + assert (Q : m1 k = m k) by (destruct A as [[_ K1]|[_ [_ C2]]]; [apply K1|apply C2; congruence]). rewrite Q. reflexivity.
Qed.

Lemma values_look d k : NoDup (map fst d) -> values (Some d) k = qlook d k.
Proof.
  unfold values. induction d as [|[k' vs] d IH]; intros N; [reflexivity|]. cbn [map fst] in N. inversion N as [|? ? N1 N2]; subst. cbn [filter fst look].
  destruct (qkey_eqb_spec k' k) as [->|H]; [|apply IH; exact N2]. cbn [flat_map snd]. rewrite (IH N2).
  rewrite (look_absent qkey qkey str (fun k => k) qkey_eqb qkey_eqb_spec d k); [apply app_nil_r|]. unfold keys. exact N1.
Qed.

Lemma filter_and {A} (f g : A -> bool) l : filter f (filter g l) = filter (fun x => f x && g x) l.
Proof. induction l as [|x l IH]; [reflexivity|]. cbn [filter]. destruct (g x); cbn [filter]; rewrite ?andb_true_r, ?andb_false_r, IH; reflexivity. Qed.

Definition fine (q : option (dict qkey str)) : Prop := match q with None => True | Some d => d <> [] /\ qinv d end.

Lemma extend_nonempty l : forall d, d <> [] -> extend qkey qkey str (fun k => k) qkey_eqb beqb d l <> [].
Proof.
  assert (S1 : forall d k vs, d <> [] -> set qkey qkey str (fun k => k) qkey_eqb d k vs <> []).
  { intros [|[k' vs'] d] k vs H; [contradiction|]. cbn [set]. unfold same. destruct (qkey_eqb k' k); discriminate. }
  induction l as [|[k v] l IH]; intros d H; [exact H|]. cbn [extend fold_left]. apply IH. unfold set_item. destruct (qget d _); [destruct (holds _ _ _ _); [exact H|]|]; apply S1; exact H.
Qed.

Lemma extend_ok' d l : qinv d -> l <> [] -> fine (Some (extend qkey qkey str (fun k => k) qkey_eqb beqb d l)) /\
  forall k, values (Some (extend qkey qkey str (fun k => k) qkey_eqb beqb d l)) k = qlook d k ++ once (qlook d k) (map snd (filter (fun p => qkey_eqb (fst p) k) l)).
Proof.
  intros I NE. destruct (extend_ok qkey qkey str (fun k => k) qkey_eqb beqb qkey_eqb_spec beqb_spec l d I) as [I2 A]. split.
  - split; [|exact I2]. destruct d as [|p d]; [|apply extend_nonempty; discriminate]. destruct l as [|[k v] l]; [contradiction|]. cbn [extend fold_left fst snd].
    apply extend_nonempty. discriminate.
  - intros k. rewrite values_look by apply I2. apply (added_values _ _ _ A).
Qed.

Lemma store_values q l : fine q -> fine (store_pairs q l) /\
  forall k, values (store_pairs q l) k = values q k ++ once (values q k) (given k l).
Proof.
  intros F. rewrite store_filter. unfold given. destruct (filter written l) as [|p l'] eqn:E.
  - split; [exact F|]. intros k. assert (G : filter (fun p => qkey_eqb (fst p) k && written p) l = []) by (rewrite <- filter_and, E; reflexivity). rewrite G. symmetry. apply app_nil_r.
  - assert (I0 : qinv (odict q)) by (destruct q as [d|]; [apply F|split; constructor]).
    destruct (extend_ok' (odict q) (p :: l') I0 ltac:(discriminate)) as [I1 V]. split; [exact I1|]. intros k. rewrite V, <- E, filter_and.
    assert (Q : qlook (odict q) k = values q k) by (destruct q as [d|]; [symmetry; apply values_look, F|reflexivity]). rewrite Q. reflexivity.
Qed.

Lemma store_none l : store_pairs None l = None <-> filter written l = [].
Proof. rewrite store_filter. destruct (filter written l); split; congruence. Qed.

Section Query2.
Variables (float date : Type) (int_text : Z -> str) (float_text : float -> str) (isinf isnan : float -> bool) (isoformat : date -> str).
Notation with_query := (with_query float date int_text float_text isinf isnan isoformat).
Notation extend_query := (extend_query float date int_text float_text isinf isnan isoformat).
Notation pair_texts := (pair_texts float date int_text float_text isinf isnan isoformat).

Definition the_query (u : url) : option (dict qkey str) := match query u with Some q => q | None => None end.

Lemma the_query_map q a b c d e f : the_query (mk_url a b c d e (option_map Some q) f) = q.
Proof. destruct q; reflexivity. Qed.

Theorem with_query_values u l : match pair_texts l, with_query u l with
  | (a, None), inl r => (forall k, values (the_query r) k = once [] (given k a)) /\ fine (the_query r) /\
      scheme r = scheme u /\ user r = user u /\ host r = host u /\ port r = port u /\ path r = path u /\ fragment r = fragment u
  | (_, Some e), inr e' => e = e'
  | _, _ => False
  end.
Proof.
  unfold UrlOpsModel.with_query. rewrite items_ok. destruct (pair_texts l) as [a [e|]]; [reflexivity|]. rewrite the_query_map.
  destruct (store_values None a Logic.I) as [F V]. repeat split; try reflexivity; [|exact F]. intros k. rewrite V. reflexivity.
Qed.

Lemma pairs_filter d k : map snd (filter (fun p => qkey_eqb (fst p) k) (pairs d)) = values (Some d) k.
Proof.
  unfold values, pairs. induction d as [|[k' vs] d IH]; [reflexivity|]. cbn [flat_map fst snd filter]. rewrite filter_app, map_app, IH.
  assert (Q : map snd (filter (fun p => qkey_eqb (fst p) k) (map (fun v => (k', v)) vs)) = if qkey_eqb k' k then vs else []).
  { clear. induction vs as [|v vs IH]; cbn [map filter fst]; [destruct (qkey_eqb k' k); reflexivity|]. destruct (qkey_eqb k' k); [cbn [map snd]; rewrite IH; reflexivity|exact IH]. }
  rewrite Q. destruct (qkey_eqb k' k); reflexivity.
Qed.

Lemma once_once l : forall a b, (forall x, In x b -> In x a) -> once a (once b l) = once a l.
Proof.
  assert (G : forall l a b, (forall x, In x b -> In x a) -> once a (once b l) = once a l).
  { clear l. induction l as [|x l IH]; intros a b H; [reflexivity|]. cbn [once]. destruct (existsb (beqb x) b) eqn:E.
    - assert (T : existsb (beqb x) a = true) by (apply existsb_in, H, existsb_in, E). rewrite T. apply IH. exact H.
    - cbn [once]. destruct (existsb (beqb x) a) eqn:E2.
      + apply IH. intros y Q. apply in_app_or in Q. destruct Q as [Q|[<-|[]]]; [apply H, Q|apply existsb_in, E2].
      + f_equal. apply IH. intros y Q. apply in_app_or in Q. apply in_or_app. destruct Q as [Q|Q]; [left; apply H, Q|right; exact Q]. }
  apply G.
Qed.

Theorem extend_query_values u l : fine (the_query u) -> match pair_texts l, extend_query u l with
  | (a, None), inl r => (forall k, values (the_query r) k = values (the_query u) k ++ once (values (the_query u) k) (given k a)) /\ fine (the_query r) /\
      scheme r = scheme u /\ user r = user u /\ host r = host u /\ port r = port u /\ path r = path u /\ fragment r = fragment u
  | (_, Some e), inr e' => e = e'
  | _, _ => False
  end.
Proof.
  intros F. unfold UrlOpsModel.extend_query. rewrite items_ok. destruct (pair_texts l) as [a [e|]]; [reflexivity|]. rewrite the_query_map.
  destruct (store_values None a Logic.I) as [F1 V1]. fold (the_query u). destruct (store_pairs None a) as [o|] eqn:EO.
  - destruct (the_query u) as [s|] eqn:ES.
    + destruct F as [F0 I0]. destruct F1 as [F1 _].
      assert (NE : pairs o <> []).
      { intros Q. assert (G : forall k, values (Some o) k = []) by (intros k; rewrite <- pairs_filter, Q; reflexivity).
        destruct o as [|[k vs] o]; [contradiction|]. specialize (G k). unfold values in G. cbn [filter fst] in G. destruct (qkey_eqb_spec k k) as [_|N]; [|congruence].
        cbn [flat_map snd] in G. apply app_eq_nil in G. destruct G as [-> _]. destruct (store_values None a Logic.I) as [FF _]. rewrite EO in FF. destruct FF as [_ [_ FF]].
        inversion FF as [|? ? G1 G2]; subst. cbn in G1. destruct G1 as [G1 _]. contradiction. }
      destruct (extend_ok' s (pairs o) I0 NE) as [E1 E2]. repeat split; try reflexivity; try apply E1.
      intros k. change (fold_left _ (pairs o) s) with (extend qkey qkey str (fun k => k) qkey_eqb beqb s (pairs o)). rewrite E2, pairs_filter.
      rewrite <- (values_look s k) by apply I0. specialize (V1 k). rewrite V1. cbn [values app]. rewrite once_once; [reflexivity|intros x []].
    + repeat split; try reflexivity; try apply F1. intros k. rewrite V1. reflexivity.
  - repeat split; try reflexivity; [|exact F]. intros k. specialize (V1 k). cbn [values app] in V1. destruct (the_query u) as [s|].
    + rewrite <- (once_once _ (values (Some s) k) [] (fun x (H : In x []) => match H with end)), <- V1. symmetry. apply app_nil_r.
    + cbn [values app]. exact V1.
Qed.
End Query2.

(** * Replacing components *)

Lemma none_some s : none_if_empty s = some_text s.
Proof. destruct s as [[|c s]|]; reflexivity. Qed.

Lemma make_user_name n p : match make_user n p with None => Some None | Some i => opt_part (decoded_of plain_dec) (u_name i) end = Some n.
Proof. destruct n, p; reflexivity. Qed.
Lemma make_user_password n p : match make_user n p with None => Some None | Some i => opt_part (decoded_of plain_dec) (u_password i) end = Some p.
Proof. destruct n, p; reflexivity. Qed.

Theorem calls_ok l : forall u n p f, absolute u = true -> user_name u = Some n -> user_password u = Some p ->
  opt_part (decoded_of plain_dec) (fragment u) = Some f ->
  exists r, calls u l = Some r /\
    scheme r = last_given (fun s => match s with SetScheme x => Some (some_text x) | _ => None end) (scheme u) l /\
    user_name r = Some (last_given (fun s => match s with SetUser x => Some (some_text x) | _ => None end) n l) /\
    user_password r = Some (last_given (fun s => match s with SetPassword x => Some (some_text x) | _ => None end) p l) /\
    host r = last_given (fun s => match s with SetHost h => Some (Some h) | _ => None end) (host u) l /\
    port r = last_given (fun s => match s with SetPort x => Some x | _ => None end) (port u) l /\
    opt_part (decoded_of plain_dec) (fragment r) = Some (last_given (fun s => match s with SetFragment x => Some (some_text x) | _ => None end) f l) /\
    path r = path u /\ query r = query u.
Proof.
  induction l as [|s l IH]; intros u n p f A N P F.
  - exists u. repeat split; assumption.
  - assert (C : exists v, call u s = Some v /\ absolute v = true /\
      scheme v = match s with SetScheme x => some_text x | _ => scheme u end /\
      user_name v = Some match s with SetUser x => some_text x | _ => n end /\
      user_password v = Some match s with SetPassword x => some_text x | _ => p end /\
      host v = match s with SetHost h => Some h | _ => host u end /\
      port v = match s with SetPort x => x | _ => port u end /\
      opt_part (decoded_of plain_dec) (fragment v) = Some match s with SetFragment x => some_text x | _ => f end /\
      path v = path u /\ query v = query u).
    { destruct s as [x|x|x|h|x|x]; cbn [call]; unfold with_scheme, with_user, with_password, with_host, with_port, with_fragment; rewrite ?A, ?N, ?P; cbn [bind]; rewrite ?none_some;
        (eexists; split; [reflexivity|]); cbn [absolute scheme host port path query fragment]; unfold user_name, user_password in *; cbn [user]; rewrite ?make_user_name, ?make_user_password;
        repeat split; try assumption; try reflexivity. destruct (some_text x); reflexivity. }
    destruct C as (v & Ev & A' & E1 & N' & P' & E4 & E5 & F' & E7 & E8). cbn [calls]. rewrite Ev.
    destruct (IH v _ _ _ A' N' P' F') as (r & -> & R1 & R2 & R3 & R4 & R5 & R6 & R7 & R8). exists r. split; [reflexivity|].
    rewrite R1, R2, R3, R4, R5, R6, R7, R8, E1, E4, E5, E7, E8. destruct s; repeat split; reflexivity.
Qed.

Theorem relative_refused u s : absolute u = false -> match s with SetFragment _ => False | _ => True end -> call u s = None.
Proof.
  intros A K. destruct s; try contradiction; cbn [call]; unfold with_scheme, with_user, with_password, with_host, with_port; rewrite A; try reflexivity;
    [destruct (user_password u)|destruct (user_name u)]; reflexivity.
Qed.

(** * Comparing *)

Lemma str_lt_irrefl a : str_lt a a = false.
Proof. induction a as [|x a IH]; [reflexivity|]. cbn [str_lt]. rewrite N.ltb_irrefl, IH, andb_false_r. reflexivity. Qed.

Lemma str_lt_trans a : forall b c, str_lt a b = true -> str_lt b c = true -> str_lt a c = true.
Proof.
  induction a as [|x a IH]; intros [|y b] [|z c] H1 H2; cbn [str_lt] in *; try discriminate; [reflexivity|].
  apply orb_prop in H1. apply orb_prop in H2. apply orb_true_intro. destruct H1 as [H1|H1], H2 as [H2|H2].
  - left. apply N.ltb_lt in H1, H2. apply N.ltb_lt. lia.
  - left. apply andb_prop in H2. destruct H2 as [H2 _]. apply N.eqb_eq in H2. subst. exact H1.
  - left. apply andb_prop in H1. destruct H1 as [H1 _]. apply N.eqb_eq in H1. subst. exact H2.
  - right. apply andb_prop in H1, H2. destruct H1 as [H1 H3], H2 as [H2 H4]. apply N.eqb_eq in H1, H2. subst. rewrite N.eqb_refl. apply (IH b c H3 H4).
Qed.

Lemma str_lt_total a : forall b, str_lt a b = false -> str_lt b a = false -> a = b.
Proof.
  induction a as [|x a IH]; intros [|y b] H1 H2; cbn [str_lt] in *; try discriminate; [reflexivity|].
  apply orb_false_elim in H1. apply orb_false_elim in H2. destruct H1 as [H1 H3], H2 as [H2 H4]. apply N.ltb_ge in H1, H2. assert (x = y) by lia. subst.
  rewrite N.eqb_refl in H3, H4. f_equal. apply IH; assumption.
Qed.

Section Compare.
Variables (idna unidna : str -> option str).
Notation url_eq := (url_eq idna unidna).
Notation url_ne := (url_ne idna unidna).
Notation url_lt := (url_lt idna unidna).
Notation url_le := (url_le idna unidna).
Notation url_gt := (url_gt idna unidna).
Notation url_ge := (url_ge idna unidna).

Lemma compare_some f a b r : compare_by idna unidna f a b = Some r ->
  exists x y, value_encoded idna unidna a = Some x /\ value_encoded idna unidna b = Some y /\ f x y = r.
Proof.
  unfold compare_by. destruct (value_encoded idna unidna a) as [x|]; cbn [bind]; [|discriminate]. destruct (value_encoded idna unidna b) as [y|]; cbn [bind]; [|discriminate].
  intros [= E]. exists x, y. repeat split; assumption || reflexivity.
Qed.
Lemma compare_of f a b x y : value_encoded idna unidna a = Some x -> value_encoded idna unidna b = Some y -> compare_by idna unidna f a b = Some (f x y).
Proof. unfold compare_by. intros -> ->. reflexivity. Qed.

Theorem eq_equivalence a b c :
  (value_encoded idna unidna a <> None -> url_eq a a = Some true) /\ (url_eq a b = Some true -> url_eq b a = Some true) /\
  (url_eq a b = Some true -> url_eq b c = Some true -> url_eq a c = Some true).
Proof.
  unfold UrlOpsModel.url_eq. repeat split.
  - destruct (value_encoded idna unidna a) as [x|] eqn:E; [|congruence]. intros _. rewrite (compare_of _ a a x x E E), beqb_refl. reflexivity.
  - intros H. destruct (compare_some _ _ _ _ H) as (x & y & E1 & E2 & E). rewrite (compare_of _ b a y x E2 E1). apply beqb_eq in E. subst. rewrite beqb_refl. reflexivity.
  - intros H1 H2. destruct (compare_some _ _ _ _ H1) as (x & y & E1 & E2 & E). destruct (compare_some _ _ _ _ H2) as (y' & z & E3 & E4 & E').
    rewrite (compare_of _ a c x z E1 E4). apply beqb_eq in E, E'. assert (y = y') by congruence. subst. rewrite beqb_refl. reflexivity.
Qed.

Theorem hash_equal h a b : url_eq a b = Some true -> url_hash idna unidna h a = url_hash idna unidna h b /\ url_hash idna unidna h a <> None.
Proof.
  intros H. destruct (compare_some _ _ _ _ H) as (x & y & E1 & E2 & E). apply beqb_eq in E. unfold url_hash. rewrite E1, E2, E. split; [reflexivity|discriminate].
Qed.

Theorem order_total a b c :
  (value_encoded idna unidna a <> None -> value_encoded idna unidna b <> None ->
     (url_lt a b = Some true /\ url_eq a b = Some false /\ url_gt a b = Some false) \/
     (url_lt a b = Some false /\ url_eq a b = Some true /\ url_gt a b = Some false) \/
     (url_lt a b = Some false /\ url_eq a b = Some false /\ url_gt a b = Some true)) /\
  (url_lt a b = Some true -> url_lt b c = Some true -> url_lt a c = Some true) /\
  (url_gt a b = url_lt b a) /\ (url_ne a b = option_map negb (url_eq a b)) /\
  (url_le a b = option_map negb (url_gt a b)) /\ (url_ge a b = option_map negb (url_lt a b)).
Proof.
  assert (LE : forall x y, str_le x y = negb (str_lt y x)).
  { intros x y. unfold str_le. destruct (str_lt y x) eqn:E; cbn [negb].
    - destruct (str_lt x y) eqn:E2; [pose proof (str_lt_trans _ _ _ E E2) as T; rewrite str_lt_irrefl in T; discriminate|]. cbn [orb].
      destruct (beqb x y) eqn:E3; [|reflexivity]. apply beqb_eq in E3. subst. rewrite str_lt_irrefl in E. discriminate.
    - destruct (str_lt x y) eqn:E2; [reflexivity|]. cbn [orb]. rewrite (str_lt_total x y E2 E). apply beqb_refl. }
  unfold UrlOpsModel.url_eq, UrlOpsModel.url_ne, UrlOpsModel.url_lt, UrlOpsModel.url_le, UrlOpsModel.url_gt, UrlOpsModel.url_ge. repeat split.
  - destruct (value_encoded idna unidna a) as [x|] eqn:E1; [|congruence]. destruct (value_encoded idna unidna b) as [y|] eqn:E2; [|congruence]. intros _ _.
    rewrite !(compare_of _ a b x y E1 E2). destruct (str_lt x y) eqn:L1, (str_lt y x) eqn:L2.
    + pose proof (str_lt_trans _ _ _ L1 L2) as T. rewrite str_lt_irrefl in T. discriminate.
    + left. repeat split. destruct (beqb x y) eqn:E3; [|reflexivity]. apply beqb_eq in E3. subst. rewrite str_lt_irrefl in L1. discriminate.
    + right. right. repeat split. destruct (beqb x y) eqn:E3; [|reflexivity]. apply beqb_eq in E3. subst. rewrite str_lt_irrefl in L2. discriminate.
    + right. left. rewrite (str_lt_total x y L1 L2), beqb_refl. repeat split.
  - intros H1 H2. destruct (compare_some _ _ _ _ H1) as (x & y & E1 & E2 & E). destruct (compare_some _ _ _ _ H2) as (y' & z & E3 & E4 & E').
    rewrite (compare_of _ a c x z E1 E4). assert (y = y') by congruence. subst. rewrite (str_lt_trans _ _ _ E E'). reflexivity.
  - unfold compare_by. destruct (value_encoded idna unidna a), (value_encoded idna unidna b); reflexivity.
  - unfold compare_by. destruct (value_encoded idna unidna a), (value_encoded idna unidna b); reflexivity.
  - unfold compare_by. destruct (value_encoded idna unidna a), (value_encoded idna unidna b); try reflexivity. cbn [bind option_map]. rewrite LE. reflexivity.
  - unfold compare_by. destruct (value_encoded idna unidna a), (value_encoded idna unidna b); try reflexivity. cbn [bind option_map]. rewrite LE. reflexivity.
Qed.

(** Equal urls have the same components. *)
Theorem equal_parts a b s s' h h' t t' : scheme a = Some s -> scheme_fits s -> host a = Some h ->
  host_shown idna h t -> host_fits t -> fits a ->
  scheme b = Some s' -> scheme_fits s' -> host b = Some h' -> host_shown idna h' t' -> host_fits t' -> fits b ->
  url_eq a b = Some true -> s = s' /\ t = t' /\ port a = port b.
Proof.
  intros S1 SF1 H1 B1 HF1 F1 S2 SF2 H2 B2 HF2 F2 E. destruct (compare_some _ _ _ _ E) as (x & y & E1 & E2 & Q). apply beqb_eq in Q. subst y.
  pose proof (read_written idna unidna a s h t x S1 SF1 H1 B1 HF1 F1 E1) as A. pose proof (read_written idna unidna b s' h' t' x S2 SF2 H2 B2 HF2 F2 E2) as B.
  pose proof (says_scheme _ _ _ _ A). pose proof (says_scheme _ _ _ _ B). pose proof (says_host _ _ _ _ A). pose proof (says_host _ _ _ _ B).
  pose proof (says_port _ _ _ _ A) as PA. pose proof (says_port _ _ _ _ B) as PB. repeat split; try congruence.
  destruct (port a), (port b), (s_port (read_url x)); try contradiction; try reflexivity. destruct PA as [_ PA], PB as [_ PB]. congruence.
Qed.
End Compare.
