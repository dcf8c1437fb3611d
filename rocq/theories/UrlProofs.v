From Coq Require Import String List Arith Bool NArith Lia.
From Verif Require Import Bytes Text QuoteModel QuoteSpec QuoteProofs UrlModel UrlSpec.
Import ListNotations.

Lemma beqb_false x y : beqb x y = false <-> x <> y.
Proof. rewrite <- beqb_eq. destruct (beqb x y); split; congruence. Qed.

(** * The walk *)

Lemma walk_cancel pre a t names stack : a <> dot_dot -> a <> dot ->
  fold_left walk1 (pre ++ a :: dot_dot :: t ++ names) stack = fold_left walk1 (pre ++ t ++ names) stack.
Proof.
  intros H1 H2. rewrite (fold_left_app _ pre), (fold_left_app _ pre). cbn [fold_left]. unfold walk1 at 3. apply beqb_false in H1, H2. rewrite H1, H2. reflexivity.
Qed.

Definition no_dd (s : segment) : Prop := s <> dot_dot.

Lemma walk_names names stack : Forall plain_segment names -> fold_left walk1 names stack = rev names ++ stack.
Proof.
  intros H. revert stack. induction H as [|s names [H1 H2] _ IH]; intros stack; [reflexivity|]. cbn [fold_left rev].
  unfold walk1 at 2. apply beqb_false in H1, H2. rewrite H1, H2, IH, <- app_assoc. reflexivity.
Qed.

Lemma walk_repeat t stack : fold_left walk1 (repeat dot_dot t) stack = skipn t stack.
Proof.
  revert stack. induction t as [|t IH]; intros stack; [reflexivity|]. cbn [repeat fold_left]. rewrite IH.
  destruct stack; [destruct t; reflexivity|reflexivity].
Qed.

Lemma del_at_app {A} (l : list A) x r : del_at (length l) (l ++ x :: r) = l ++ r.
Proof. induction l as [|y l IH]; [reflexivity|]. cbn. rewrite IH. reflexivity. Qed.

Definition nodot (s : segment) : Prop := s <> dot.

Lemma double_dots_ok : forall pre t names n, Forall nodot pre -> Forall plain_segment names ->
  forall parts' t' n', remove_double_dots (length pre) (pre ++ repeat dot_dot t ++ names) t n = (parts', t', n') ->
  exists names', parts' = repeat dot_dot t' ++ names' /\ Forall plain_segment names' /\
    fold_left walk1 (pre ++ repeat dot_dot t ++ names) [] = rev names' /\
    (n' + t' = 0 -> n = 0 /\ t = 0 /\ names' = pre ++ names).
Proof.
  intros pre. remember (length pre) as k eqn:Ek. revert pre Ek. induction k as [|k IH]; intros pre Ek t names n Hp Hn parts' t' n' H.
  - destruct pre; [|discriminate]. cbn [remove_double_dots app] in *. injection H as <- <- <-. exists names.
    split; [reflexivity|]. split; [assumption|]. split.
    + rewrite fold_left_app, walk_repeat, skipn_nil, walk_names, app_nil_r by assumption. reflexivity.
    + intros E. split; [lia|]. split; [lia|reflexivity].
  - destruct (exists_last (l := pre)) as (pre' & x & ->); [destruct pre; discriminate|].
    rewrite app_length in Ek. cbn [length] in Ek. assert (k = length pre') by lia. clear Ek. subst k.
    apply Forall_app in Hp. destruct Hp as [Hp Hx]. inversion Hx as [|? ? Hxd _]. subst. unfold nodot in Hxd.
    cbn [remove_double_dots] in H. rewrite <- app_assoc in H. rewrite app_nth2 in H by lia. rewrite Nat.sub_diag in H. cbn [nth app] in H.
    rewrite <- app_assoc.
    destruct (beqb x dot_dot) eqn:Ex.
    + apply beqb_eq in Ex. subst x.
      change (pre' ++ dot_dot :: repeat dot_dot t ++ names) with (pre' ++ repeat dot_dot (S t) ++ names) in H.
      destruct (IH pre' eq_refl (S t) names n Hp Hn _ _ _ H) as (names' & E1 & E2 & E3 & E4).
      exists names'. split; [exact E1|]. split; [exact E2|]. split; [exact E3|].
      intros E. destruct (E4 E) as (_ & Q & _). discriminate.
    + apply beqb_false in Ex. destruct t as [|t].
      * change (pre' ++ x :: repeat dot_dot 0 ++ names) with (pre' ++ repeat dot_dot 0 ++ (x :: names)) in H.
        destruct (IH pre' eq_refl 0 (x :: names) n Hp ltac:(constructor; [split; assumption|assumption]) _ _ _ H) as (names' & E1 & E2 & E3 & E4).
        exists names'. split; [exact E1|]. split; [exact E2|]. split; [exact E3|].
        intros E. destruct (E4 E) as (Q1 & _ & Q2). split; [exact Q1|]. split; [reflexivity|]. rewrite <- app_assoc. exact Q2.
      * change (pre' ++ x :: repeat dot_dot (S t) ++ names) with (pre' ++ x :: dot_dot :: repeat dot_dot t ++ names) in H.
        rewrite !del_at_app in H.
        destruct (IH pre' eq_refl t names (S (S n)) Hp Hn _ _ _ H) as (names' & E1 & E2 & E3 & E4).
        exists names'. split; [exact E1|]. split; [exact E2|]. split.
        -- change ([x] ++ repeat dot_dot (S t) ++ names) with (x :: dot_dot :: repeat dot_dot t ++ names).
           rewrite walk_cancel by assumption. exact E3.
        -- intros E. destruct (E4 E). lia.
Qed.

(** * Removing the single dots *)

Lemma remove_dots_ok : forall parts kept r n, remove_dots kept parts = (r, n) ->
  Forall nodot r /\ r = filter (fun s => negb (beqb s dot))
    (match rev parts with
     | s :: q => if beqb s dot && (kept || existsb (fun x => negb (beqb x dot)) q) then rev q ++ [[]] else parts
     | [] => parts end).
Proof.
  induction parts as [|x parts IH]; intros kept r n H.
  - injection H as <- <-. split; [constructor|reflexivity].
  - cbn [remove_dots] in H. destruct (beqb x dot) eqn:Ex.
    + destruct parts as [|y parts].
      * apply beqb_eq in Ex. subst x. destruct kept; injection H as <- <-; (split; [|reflexivity]); repeat constructor; discriminate.
      * destruct (remove_dots kept (y :: parts)) as [r' n'] eqn:E. injection H as <- <-.
        destruct (IH kept r' n' E) as (H1 & H2). split; [exact H1|].
        rewrite H2. cbn [rev]. destruct (rev parts ++ [y]) as [|z q] eqn:Eq; [destruct (rev parts); discriminate|]. cbn [app].
        rewrite existsb_app. cbn [existsb]. rewrite Ex. cbn [negb orb]. rewrite !orb_false_r.
        destruct (beqb z dot && _); cbn [filter]; [rewrite rev_app_distr; cbn [rev app filter]|]; rewrite Ex; reflexivity.
    + destruct (remove_dots true parts) as [r' n'] eqn:E. injection H as <- <-.
      destruct (IH true r' n' E) as (H1 & H2). split; [constructor; [apply beqb_false; exact Ex|exact H1]|].
      rewrite H2. cbn [rev]. destruct (rev parts) as [|z q] eqn:Eq.
      * apply (f_equal (@rev _)) in Eq. rewrite rev_involutive in Eq. cbn in Eq. subst parts. cbn [app filter existsb orb andb]. rewrite orb_false_r, Ex. cbn [negb andb filter]. rewrite Ex. reflexivity.
      * cbn [app]. rewrite existsb_app. cbn [existsb]. rewrite Ex. cbn [negb]. rewrite !orb_true_r, !orb_true_l, !andb_true_r.
        destruct (beqb z dot); [rewrite rev_app_distr; cbn [rev app filter]|cbn [filter]]; rewrite Ex; reflexivity.
Qed.

Lemma walk_filter parts stack : fold_left walk1 (filter (fun s => negb (beqb s dot)) parts) stack = fold_left walk1 parts stack.
Proof.
  revert stack. induction parts as [|s parts IH]; intros stack; [reflexivity|]. cbn [filter fold_left].
  destruct (beqb s dot) eqn:E; cbn [negb].
  - rewrite IH. unfold walk1 at 3. rewrite E. apply beqb_eq in E. subst s. reflexivity.
  - cbn [fold_left]. apply IH.
Qed.

Lemma skipn_repeat t (names : list segment) : skipn t (repeat dot_dot t ++ names) = names.
Proof. induction t; [reflexivity|]. exact IHt. Qed.

Lemma remove_dots_length : forall parts kept r n, remove_dots kept parts = (r, n) -> length r + n = length parts.
Proof.
  induction parts as [|x parts IH]; intros kept r n H.
  - injection H as <- <-. reflexivity.
  - cbn [remove_dots] in H. destruct (beqb x dot).
    + destruct parts as [|y parts].
      * destruct kept; injection H as <- <-; reflexivity.
      * destruct (remove_dots kept (y :: parts)) as [r' n'] eqn:E. injection H as <- <-. apply IH in E. cbn [length] in *. lia.
    + destruct (remove_dots true parts) as [r' n'] eqn:E. injection H as <- <-. apply IH in E. cbn [length] in *. lia.
Qed.

(** The result is the walk; a single empty name which is left by removing others is dropped. *)
Theorem normalize_walk parts :
  normalize_path_parts parts =
  match walk (directory_end parts) with
  | [] => None
  | [[]] => match parts with [[]] => Some [[]] | _ => None end
  | r => Some r
  end.
Proof.
  destruct (list_eq_dec (list_eq_dec N.eq_dec) parts [[]]) as [->|Hne]; [reflexivity|].
  unfold normalize_path_parts. destruct (remove_dots false parts) as [p1 n1] eqn:E1.
  destruct (remove_dots_ok parts false p1 n1 E1) as (D1 & D2).
  destruct (remove_double_dots (length p1) p1 0 n1) as [[p2 t2] n2] eqn:E2.
  pose proof (double_dots_ok p1 0 [] n1 D1 (Forall_nil _) p2 t2 n2) as Q. cbn [repeat app] in Q. rewrite app_nil_r in Q.
  destruct (Q E2) as (names & N1 & N2 & N3 & N4). clear Q. subst p2. rewrite skipn_repeat.
  assert (W : walk (directory_end parts) = names).
  { unfold walk. rewrite <- (rev_involutive names), <- N3, D2. f_equal. cbn [orb]. rewrite walk_filter. reflexivity. }
  rewrite W. destruct names as [|x names]; [reflexivity|]. destruct names as [|y names]; [|destruct x; reflexivity].
  destruct x as [|c x]; [|reflexivity].
  assert (G : Nat.eqb (n2 + t2) 0 = false).
  2: { rewrite G. destruct parts as [|[|u v] [|w z]]; try reflexivity. destruct Hne. reflexivity. }
  apply Nat.eqb_neq. intros Z. apply Hne.
  destruct (N4 Z) as (-> & _ & <-).
  pose proof (remove_dots_length _ _ _ _ E1) as L. destruct parts as [|x [|y parts]]; [discriminate| |cbn in L; lia].
  cbn [remove_dots] in E1. destruct (beqb x dot); [discriminate|]. injection E1 as ->. reflexivity.
Qed.

(** No '.' and '..' is left. *)
Lemma walk1_plain parts stack : Forall plain_segment stack -> Forall plain_segment (fold_left walk1 parts stack).
Proof.
  revert stack. induction parts as [|s parts IH]; intros stack H; [exact H|]. cbn [fold_left]. apply IH. unfold walk1.
  destruct (beqb s dot_dot) eqn:E1; [destruct H; [constructor|assumption]|].
  destruct (beqb s dot) eqn:E2; [exact H|]. constructor; [|exact H]. split; apply beqb_false; assumption.
Qed.

Lemma walk_plain parts : Forall plain_segment (walk parts).
Proof. unfold walk. apply Forall_rev, walk1_plain. constructor. Qed.

Lemma walk_id parts : Forall plain_segment parts -> walk parts = parts.
Proof. intros H. unfold walk. rewrite walk_names, app_nil_r, rev_involutive by assumption. reflexivity. Qed.

Lemma directory_end_id parts : Forall plain_segment parts -> directory_end parts = parts.
Proof.
  intros H. unfold directory_end. destruct (rev parts) as [|s r] eqn:E; [reflexivity|].
  assert (Hs : In s parts) by (apply in_rev; rewrite E; left; reflexivity).
  rewrite Forall_forall in H. destruct (H s Hs) as [H1 _]. apply beqb_false in H1. rewrite H1. reflexivity.
Qed.

Theorem normalize_plain parts r : normalize_path_parts parts = Some r -> Forall plain_segment r.
Proof.
  rewrite normalize_walk. pose proof (walk_plain (directory_end parts)) as P. intros H.
  destruct (walk (directory_end parts)) as [|x l]; [discriminate|].
  destruct x as [|c x]; [destruct l as [|y l]|].
  - destruct parts as [|[|u v] [|w z]]; try discriminate. injection H as <-. exact P.
  - injection H as <-. exact P.
  - injection H as <-. exact P.
Qed.

Theorem normalize_id parts : parts <> [] -> Forall plain_segment parts -> normalize_path_parts parts = Some parts.
Proof.
  intros Hne H. rewrite normalize_walk, directory_end_id, walk_id by assumption.
  destruct parts as [|[|u v] [|w z]]; [contradiction|reflexivity..].
Qed.

Theorem normalize_idempotent parts r : normalize_path_parts parts = Some r -> normalize_path_parts r = Some r.
Proof.
  intros H. apply normalize_id; [|exact (normalize_plain _ _ H)]. intros ->.
  unfold normalize_path_parts in H. destruct (remove_dots false parts) as [p1 n1].
  destruct (remove_double_dots (length p1) p1 0 n1) as [[p2 t2] n2].
  destruct (match skipn t2 p2 with [[]] => _ | _ => _ end); discriminate.
Qed.

(** * Round trip *)

Lemma split_part p rest : ~ In 47%N p -> split_slash (p ++ 47%N :: rest) = p :: split_slash rest.
Proof.
  induction p as [|c p IH]; intros H; [reflexivity|]. cbn [app split_slash].
  destruct (N.eqb_spec c 47) as [->|_]; [destruct H; left; reflexivity|]. rewrite IH by (intros Q; apply H; right; exact Q). reflexivity.
Qed.

Lemma split_last p : ~ In 47%N p -> split_slash p = [p].
Proof.
  induction p as [|c p IH]; intros H; [reflexivity|]. cbn [split_slash].
  destruct (N.eqb_spec c 47) as [->|_]; [destruct H; left; reflexivity|]. rewrite IH by (intros Q; apply H; right; exact Q). reflexivity.
Qed.

Lemma split_join p parts : ~ In 47%N p -> Forall (fun s => ~ In 47%N s) parts ->
  split_slash (p ++ flat_map (fun p => 47%N :: p) parts) = p :: parts.
Proof.
  intros Hp H. revert p Hp. induction H as [|q parts Hq _ IH]; intros p Hp; cbn [flat_map].
  - rewrite app_nil_r. apply split_last. exact Hp.
  - cbn [app]. rewrite split_part by exact Hp. rewrite IH by exact Hq. reflexivity.
Qed.

Lemma path_plain parts : path_parts parts -> normalize_path_parts parts = Some parts.
Proof. intros (H1 & _ & H3). apply normalize_id; [exact H1|]. eapply Forall_impl; [|exact H3]. intros s [H _]. exact H. Qed.

Theorem decoded_round_trip parts : path_parts parts ->
  exists text, serialize_path false parts = Some text /\ parse_path false text = Some (Some parts).
Proof.
  intros P. pose proof (path_plain parts P) as N. destruct P as (H1 & H2 & H3). destruct parts as [|p parts]; [contradiction|].
  exists (flat_map (fun p => 47%N :: p) (p :: parts)). split; [reflexivity|]. cbn [flat_map app parse_path]. rewrite N.eqb_refl.
  assert (S : Forall (fun s => ~ In 47%N s) (p :: parts)) by (eapply Forall_impl; [|exact H3]; intros s [_ H]; exact H).
  rewrite split_join by (inversion S; assumption). destruct p as [|c p]; [destruct H2; reflexivity|]. exact (f_equal Some N).
Qed.

Lemma quote_part p : Forall (survives (kept (chars "@:") (chars "/") false) false false) p -> ~ In 47%N p ->
  exists q, quote (chars "@:") (chars "/") false p = Some q /\ unquote None false q = Some p /\ ~ In 47%N q.
Proof.
  intros Hs Hn.
  assert (Sc : Forall scalar p) by (eapply Forall_impl; [|exact Hs]; intros c [H _]; exact H).
  destruct (unquote_quote (chars "@:") (chars "/") false false p ltac:(repeat constructor) ltac:(repeat constructor) Hs) as (q & Q1 & Q2).
  exists q. split; [exact Q1|]. split; [exact Q2|]. intros H. unfold quote in Q1. destruct (forallb _ _); [|discriminate].
  injection Q1 as <-. apply quoted_in in H; [|exact Sc]. unfold upper_hex in H. destruct H as [[_ H]|H]; [|lia].
  apply Hn, utf8_low; [assumption|lia|assumption].
Qed.

Lemma quote_parts parts : Forall (fun p => Forall (survives (kept (chars "@:") (chars "/") false) false false) p /\ ~ In 47%N p) parts ->
  exists qs, map_option (quote (chars "@:") (chars "/") false) parts = Some qs /\ map_option (unquote None false) qs = Some parts /\
    Forall (fun s => ~ In 47%N s) qs /\ length qs = length parts.
Proof.
  induction 1 as [|p parts [H1 H2] _ (qs & IH1 & IH2 & IH3 & IH4)].
  - exists []. repeat split. constructor.
  - destruct (quote_part p H1 H2) as (q & Q1 & Q2 & Q3). exists (q :: qs). cbn [map_option]. rewrite Q1, Q2, IH1, IH2.
    split; [reflexivity|]. split; [reflexivity|]. split; [constructor; assumption|]. cbn [length]. congruence.
Qed.

Theorem encoded_round_trip parts : path_parts parts ->
  Forall (Forall (survives (kept (chars "@:") (chars "/") false) false false)) parts ->
  exists text, serialize_path true parts = Some text /\ parse_path true text = Some (Some parts).
Proof.
  intros P Hs. pose proof (path_plain parts P) as N. destruct P as (H1 & H2 & H3).
  destruct (quote_parts parts) as (qs & Q1 & Q2 & Q3 & Q4).
  { apply Forall_forall. intros p Hp. rewrite Forall_forall in Hs, H3. split; [apply Hs; exact Hp|]. apply H3. exact Hp. }
  destruct parts as [|p parts]; [contradiction|]. destruct qs as [|q qs]; [discriminate|].
  exists (flat_map (fun p => 47%N :: p) (q :: qs)). split.
  { unfold serialize_path. change (text "@:") with (chars "@:"). change (text "/") with (chars "/"). rewrite Q1. reflexivity. }
  cbn [flat_map app parse_path]. rewrite N.eqb_refl.
  rewrite split_join by (inversion Q3; assumption). cbv iota. lazymatch goal with |- match ?m with _ => _ end = _ => replace m with (Some (p :: parts)) by (symmetry; exact Q2) end.
  destruct p as [|c p]; [destruct H2; reflexivity|]. exact (f_equal Some N).
Qed.

(** * What the parser gives *)

Lemma normalize_nonempty parts r : normalize_path_parts parts = Some r -> r <> [].
Proof.
  intros H ->. unfold normalize_path_parts in H. destruct (remove_dots false parts) as [p1 n1].
  destruct (remove_double_dots (length p1) p1 0 n1) as [[p2 t2] n2].
  destruct (match skipn t2 p2 with [[]] => _ | _ => _ end); discriminate.
Qed.

Lemma walk1_in (Q : segment -> Prop) parts stack : Forall Q parts -> Forall Q stack -> Forall Q (fold_left walk1 parts stack).
Proof.
  intros H. revert stack. induction H as [|s parts Hs _ IH]; intros stack K; [exact K|]. cbn [fold_left]. apply IH. unfold walk1.
  destruct (beqb s dot_dot); [destruct K; [constructor|assumption]|]. destruct (beqb s dot); [exact K|constructor; assumption].
Qed.

Lemma directory_end_in (Q : segment -> Prop) parts : Q [] -> Forall Q parts -> Forall Q (directory_end parts).
Proof.
  intros E H. unfold directory_end. destruct (rev parts) as [|s r] eqn:R; [exact H|].
  destruct (beqb s dot && _); [|exact H]. apply Forall_app. split; [|repeat constructor; exact E].
  apply Forall_rev in H. rewrite R in H. inversion H. apply Forall_rev. assumption.
Qed.

Lemma normalize_in (Q : segment -> Prop) parts r : Q [] -> Forall Q parts -> normalize_path_parts parts = Some r -> Forall Q r.
Proof.
  rewrite normalize_walk. intros E F H.
  assert (P : Forall Q (walk (directory_end parts))) by (unfold walk; apply Forall_rev, walk1_in; [apply directory_end_in; assumption|constructor]).
  destruct (walk (directory_end parts)) as [|x l]; [discriminate|].
  destruct x as [|c x]; [destruct l as [|y l]|].
  - destruct parts as [|[|u v] [|w z]]; try discriminate. injection H as <-. exact P.
  - injection H as <-. exact P.
  - injection H as <-. exact P.
Qed.

Lemma split_slash_no v : Forall (fun s => ~ In 47%N s) (split_slash v).
Proof.
  induction v as [|c v IH]; cbn [split_slash]; [repeat constructor; intros []|].
  destruct (N.eqb_spec c 47) as [->|Hc]; [constructor; [intros []|exact IH]|].
  destruct IH as [|x r Hx Hr]; constructor; [|constructor| |exact Hr]; intros [Q|Q]; try contradiction; auto.
Qed.

Theorem parse_normal encoded v r : parse_path encoded v = Some (Some r) -> r <> [] /\ Forall plain_segment r.
Proof.
  destruct v as [|c v]; cbn [parse_path]; [discriminate|]. destruct (if encoded then _ else _) as [parts|]; [|discriminate].
  intros H. assert (K := f_equal (fun o => match o with Some x => x | None => None end) H). cbn beta iota in K.
  split; [exact (normalize_nonempty _ _ K)|exact (normalize_plain _ _ K)].
Qed.

Theorem parse_no_slash v r : parse_path false v = Some (Some r) -> Forall (fun s => ~ In 47%N s) r.
Proof.
  destruct v as [|c v]; cbn [parse_path]; [discriminate|].
  intros H. assert (K := f_equal (fun o => match o with Some x => x | None => None end) H). cbn beta iota in K.
  revert K. apply normalize_in; [intros []|].
  pose proof (split_slash_no (if N.eqb c 47 then v else c :: v)) as F. destruct (split_slash _) as [|[|] ?]; [constructor|inversion F; assumption|exact F].
Qed.

Theorem reparse v r text : parse_path false v = Some (Some r) -> hd [] r <> [] -> serialize_path false r = Some text -> parse_path false text = Some (Some r).
Proof.
  intros H Hh Ht. destruct (parse_normal _ _ _ H) as [H1 H2]. pose proof (parse_no_slash _ _ H) as H3.
  destruct (decoded_round_trip r) as (t & T1 & T2).
  { split; [exact H1|]. split; [exact Hh|]. rewrite Forall_forall in *. intros s Hs. split; [exact (H2 s Hs)|exact (H3 s Hs)]. }
  congruence.
Qed.

(** * Hosts *)

Lemma opt_eqb_eq a b : opt_eqb a b = true <-> a = b.
Proof.
  destruct a, b; cbn [opt_eqb]; try (split; congruence). rewrite beqb_eq. split; congruence.
Qed.

Theorem host_eq_partial a b : flags a = flags b -> (host_eq a b = true <-> a = b).
Proof.
  intros H. unfold host_eq. rewrite H, N.eqb_refl. cbn [negb]. destruct a as [fa ma sa ta], b as [fb mb sb tb]. cbn in *. subst fb.
  destruct (opt_eqb ma mb) eqn:E1; [apply opt_eqb_eq in E1|split; [discriminate|]; intros Q; injection Q as -> -> ->; rewrite (proj2 (opt_eqb_eq mb mb) eq_refl) in E1; discriminate].
  destruct (opt_eqb sa sb) eqn:E2; [apply opt_eqb_eq in E2|split; [discriminate|]; intros Q; injection Q as _ -> ->; rewrite (proj2 (opt_eqb_eq sb sb) eq_refl) in E2; discriminate].
  destruct (opt_eqb ta tb) eqn:E3; [apply opt_eqb_eq in E3|split; [discriminate|]; intros Q; injection Q as _ _ ->; rewrite (proj2 (opt_eqb_eq tb tb) eq_refl) in E3; discriminate].
  cbn [negb]. subst. split; reflexivity.
Qed.
