From Coq Require Import List Bool Arith Lia.
From Verif Require Import RedirectModel RedirectSpec.
Import ListNotations.

Lemma put_eq h k l : put h k l k = l.
Proof. unfold put. destruct (hname_dec k k); congruence. Qed.
Lemma put_neq h k l k' : k' <> k -> put h k l k' = h k'.
Proof. unfold put. destruct (hname_dec k' k); congruence. Qed.
Lemma hset_neq h k v k' : k' <> k -> hset h k v k' = h k'.
Proof. intros N. unfold hset. destruct (in_dec _ _ _); auto. apply put_neq; auto. Qed.
Lemma hdel_neq h k k' : k' <> k -> hdel h k k' = h k'.
Proof. apply put_neq. Qed.
Lemma hdel_eq h k : hdel h k k = tl (h k).
Proof. apply put_eq. Qed.
Lemma hsetdefault_neq h k v k' : k' <> k -> hsetdefault h k v k' = h k'.
Proof. intros N. unfold hsetdefault. destruct (h k); auto. apply put_neq; auto. Qed.
Lemma hset_absent h k v : h k = [] -> hset h k v k = [v].
Proof. intros E. unfold hset. rewrite E. cbn [in_dec app]. destruct (in_dec value_dec v []) as [[]|]. apply put_eq. Qed.
Lemma hset_in h k v : In v (hset h k v k).
Proof. unfold hset. destruct (in_dec _ _ _); auto. rewrite put_eq. apply in_app_iff. cbn; auto. Qed.

Lemma extra_neq l h k : (forall n, k <> HOther n) ->
  fold_left (fun h (kv : nat * nat) => hsetdefault h (HOther (fst kv)) (Given (snd kv))) l h k = h k.
Proof.
  intros N. revert h; induction l as [|x l IH]; intros h; auto. cbn [fold_left]. rewrite IH. apply hsetdefault_neq. apply N.
Qed.

Section WithOracles.
Variable jar : nat -> url -> list (nat * nat).
Variable load : nat -> list (nat * nat).
Variable says_chunked : nat -> bool.

Notation build := (build load says_chunked).
Notation go := (go jar load says_chunked).
Notation request := (request jar load says_chunked).
Notation add_body := (add_body says_chunked).
Notation add_cookies := (add_cookies load).

Lemma add_body_other data h hb c k : add_body data h = Some (hb, c) ->
  k = HAuthorization \/ k = HHost \/ k = HCookie -> hb k = h k.
Proof.
  intros E K. unfold RedirectModel.add_body in E. destruct data as [p|].
  - destruct (wants_chunked _ h || hhas h HEncoding).
    + remember (fold_left _ _ _) as h2 eqn:E2. destruct (hhas h2 HLength); [discriminate|]. injection E as <- <-.
      rewrite hset_neq by (intuition congruence). subst h2. rewrite extra_neq by (intuition congruence).
      destruct (hhas h HType); auto. apply hset_neq. intuition congruence.
    + destruct (hhas h HLength) eqn:EL; [|destruct (p_size p)].
      * injection E as <- <-. rewrite extra_neq by (intuition congruence).
        destruct (hhas h HType); auto. apply hset_neq. intuition congruence.
      * injection E as <- <-. rewrite extra_neq by (intuition congruence).
        destruct (hhas _ HType); rewrite ?hset_neq by (intuition congruence); auto.
      * remember (fold_left _ _ _) as h2 eqn:E2. destruct (hhas h2 HLength); [discriminate|]. injection E as <- <-.
        rewrite hset_neq by (intuition congruence). subst h2. rewrite extra_neq by (intuition congruence).
        destruct (hhas h HType); auto. apply hset_neq. intuition congruence.
  - injection E as <- <-. rewrite !hdel_neq by (intuition congruence). reflexivity.
Qed.

Lemma add_cookies_neq l h k : k <> HCookie -> add_cookies l h k = h k.
Proof. intros N. unfold RedirectModel.add_cookies. destruct l; auto. rewrite hset_neq, put_neq by auto. reflexivity. Qed.

Lemma add_host_neq u h k : k <> HHost -> k <> HAccept -> k <> HAcceptEncoding -> add_host u h k = h k.
Proof.
  intros N1 N2 N3. unfold add_host. destruct (hhas _ HHost); rewrite ?hset_neq, ?hsetdefault_neq by auto; reflexivity.
Qed.
Lemma add_host_host u h : add_host u h HHost = match h HHost with [] => [host_value u] | l => l end.
Proof.
  unfold add_host. unfold hhas. rewrite !hsetdefault_neq by discriminate. destruct (h HHost) as [|v l] eqn:E.
  - apply hset_absent. rewrite !hsetdefault_neq by discriminate. exact E.
  - rewrite !hsetdefault_neq by discriminate. exact E.
Qed.
Lemma add_auth_neq u a h k : k <> HAuthorization -> add_authorization u a h k = h k.
Proof. intros N. unfold add_authorization. destruct a as [c|]; [|destruct (u_user u)]; auto; apply hset_neq; auto. Qed.

Lemma build_auth u data cs a h hb c : build u data cs a h = Some (hb, c) -> hb HAuthorization = add_authorization u a h HAuthorization.
Proof.
  intros E. unfold RedirectModel.build in E. rewrite (add_body_other _ _ _ _ HAuthorization E) by auto.
  rewrite add_cookies_neq by discriminate. rewrite add_host_neq by discriminate. reflexivity.
Qed.
Lemma build_host u data cs a h hb c : build u data cs a h = Some (hb, c) -> hb HHost = match h HHost with [] => [host_value u] | l => l end.
Proof.
  intros E. unfold RedirectModel.build in E. rewrite (add_body_other _ _ _ _ HHost E) by auto.
  rewrite add_cookies_neq by discriminate. rewrite add_host_host, add_auth_neq by discriminate. reflexivity.
Qed.
Lemma build_cookie u data cs a h hb c : build u data cs a h = Some (hb, c) -> hb HCookie =
  match cs with
  | [] => h HCookie
  | _ => let v := Cookies (cookie_merge (cookies_of load h) cs) in
         if in_dec value_dec v (tl (h HCookie)) then tl (h HCookie) else tl (h HCookie) ++ [v]
  end.
Proof.
  intros E. unfold RedirectModel.build in E. rewrite (add_body_other _ _ _ _ HCookie E) by auto.
  unfold RedirectModel.add_cookies, cookies_of, hget.
  assert (EC : add_host u (add_authorization u a h) HCookie = h HCookie)
    by (rewrite add_host_neq, add_auth_neq by discriminate; reflexivity).
  rewrite EC. destruct cs as [|x cs]; auto. cbv zeta. unfold hset.
  replace (match hd_error (h HCookie) with Some v => loaded load v | None => [] end)
    with (match h HCookie with [] => [] | v :: _ => loaded load v end) by (destruct (h HCookie); reflexivity).
  rewrite put_eq.
  destruct (in_dec _ _ _); rewrite put_eq; reflexivity.
Qed.

(** ** The loop *)

Definition carry (second : bool) (u u' : url) (get : bool) (h : hdrs) : hdrs :=
  let h := if get then hdel h HLength else h in
  if second then h else if origin_dec (origin u) (origin u') then h else hdel h HAuthorization.

Lemma go_eq second i m u h data auth redirects history rs :
  go second i m u h data auth redirects history rs =
  match build u data (jar i u) auth h with
  | None => ([], Conflict)
  | Some (hb, chunked) =>
      let q := mk_sent m u hb data chunked in
      match rs with
      | [] => ([q], Waiting)
      | r :: rs =>
          match is_redirect (s_status r), redirects with
          | true, S O => ([q], TooMany)
          | true, S redirects =>
              let get := becomes_get (s_status r) m in
              let next u' :=
                let res := go second (S i) (if get then MGet else m) u' (carry second u u' get hb) (if get then None else data) auth redirects (history ++ [r]) rs in
                (q :: fst res, snd res) in
              match s_target r with
              | NoTarget => ([q], Returned r (history ++ [r]))
              | Foreign | Relative _ => ([q], BadScheme)
              | Absolute u' => next u'
              end
          | _, _ => ([q], Returned r history)
          end
      end
  end.
Proof.
  destruct rs as [|r rs]; [reflexivity|]. cbn [RedirectModel.go].
  destruct (build u data (jar i u) auth h) as [[hb c]|]; [|reflexivity]. destruct (is_redirect (s_status r)); [|reflexivity].
  destruct redirects as [|[|redirects]]; [reflexivity|reflexivity|]. cbv zeta. unfold carry. cbv zeta.
  destruct (s_target r) as [|u'|n|]; try reflexivity.
  match goal with |- (let (_, _) := ?g in _) = _ => destruct g end; reflexivity.
Qed.

(** An invariant of the loop: [Inv past u h data] holds before a request to [u] is built. *)
Lemma go_inv second auth (Vis : url -> Prop) (Inv : list sent -> url -> hdrs -> option payload -> Prop) (Good : list sent -> sent -> Prop) :
  (forall past m u h data hb c, Vis u -> Inv past u h data -> build u data (jar (length past) u) auth h = Some (hb, c) ->
     Good past (mk_sent m u hb data c) /\
     forall get u', Vis u' -> Inv (past ++ [mk_sent m u hb data c]) u' (carry second u u' get hb) (if get then None else data)) ->
  forall rs past m u h data redirects history,
    (forall q, In q (fst (go second (length past) m u h data auth redirects history rs)) -> Vis (q_url q)) ->
    Inv past u h data ->
    forall pre q post, fst (go second (length past) m u h data auth redirects history rs) = pre ++ q :: post -> Good (past ++ pre) q.
Proof.
  intros Step rs. induction rs as [|r rs IH]; intros past m u h data redirects history V I pre q post E; rewrite go_eq in *.
  - destruct (build u data (jar (length past) u) auth h) as [[hb c]|] eqn:EB; [|destruct (app_cons_not_nil _ _ _ E)].
    cbn [fst] in *. assert (Vis u) by (apply (V (mk_sent m u hb data c)); left; auto).
    destruct (Step past m u h data hb c H I EB) as [G _]. destruct pre as [|p pre]; [|destruct pre; discriminate].
    injection E as <- _. rewrite app_nil_r. exact G.
  - destruct (build u data (jar (length past) u) auth h) as [[hb c]|] eqn:EB; [|destruct (app_cons_not_nil _ _ _ E)].
    cbv zeta in *. set (q0 := mk_sent m u hb data c) in *.
    assert (One : forall x, (forall q, In q (fst ([q0], x : result)) -> Vis (q_url q)) -> fst ([q0], x) = pre ++ q :: post -> Good (past ++ pre) q).
    { intros x V' E'. assert (Vu : Vis u) by (apply (V' q0); left; auto).
      destruct (Step past m u h data hb c Vu I EB) as [G _]. cbn [fst] in E'. destruct pre as [|p pre]; [|destruct pre; discriminate].
      injection E' as <- _. rewrite app_nil_r. exact G. }
    destruct (is_redirect (s_status r)); [|eapply One; eauto]. destruct redirects as [|redirects]; [eapply One; eauto|].
    destruct redirects as [|redirects]; [eapply One; eauto|].
    set (get := becomes_get (s_status r) m) in *.
    assert (Next : forall u',
      let res := go second (S (length past)) (if get then MGet else m) u' (carry second u u' get hb)
                   (if get then None else data) auth (S redirects) (history ++ [r]) rs in
      (forall q, In q (q0 :: fst res) -> Vis (q_url q)) -> q0 :: fst res = pre ++ q :: post -> Good (past ++ pre) q).
    { intros u' res V' E'. assert (Vu : Vis u) by (apply (V' q0); left; auto).
      destruct (Step past m u h data hb c Vu I EB) as [G N]. destruct pre as [|p pre].
      - injection E' as <- _. rewrite app_nil_r. exact G.
      - injection E' as <- E'.
        assert (L : S (length past) = length (past ++ [q0])) by (rewrite app_length; cbn; lia).
        assert (Vu' : Vis u').
        { destruct (fst res) as [|q1 qs1] eqn:ER; [destruct pre; discriminate|].
          assert (q_url q1 = u'); [|subst u'; apply (V' q1); right; left; auto].
          unfold res in ER. rewrite go_eq in ER. destruct (build u' _ _ auth _) as [[hb' c']|]; [|discriminate].
          cbv zeta in ER. destruct rs as [|r1 rs1]; [injection ER as <- _; reflexivity|].
          destruct (is_redirect (s_status r1)); [|injection ER as <- _; reflexivity].
          destruct redirects; [injection ER as <- _; reflexivity|].
          destruct (s_target r1); injection ER as <- _; reflexivity. }
        replace (past ++ q0 :: pre) with ((past ++ [q0]) ++ pre) by (rewrite <- app_assoc; reflexivity).
        apply (IH (past ++ [q0]) (if get then MGet else m) u' (carry second u u' get hb)
                 (if get then None else data) (S redirects) (history ++ [r])) with (post := post).
        + rewrite <- L. intros q' H. apply V'. right. exact H.
        + apply (N get u' Vu').
        + rewrite <- L. exact E'. }
    destruct (s_target r) as [|u'|n|]; [eapply One; eauto|exact (Next u' V E)|eapply One; eauto|eapply One; eauto].
Qed.

(** ** Where the requests go *)

Lemma is_redirect_spec st : is_redirect st = true <-> In st [301; 302; 303; 307].
Proof.
  unfold is_redirect. rewrite !orb_true_iff, !Nat.eqb_eq. cbn [In]. intuition.
Qed.

Lemma redirected_spec st m data : redirected st m data = if becomes_get st m then (MGet, None) else (m, data).
Proof.
  unfold becomes_get, redirected.
  destruct (st =? 303) eqn:E3; [apply Nat.eqb_eq in E3; subst st; destruct m; reflexivity|].
  destruct (st =? 301) eqn:E1; [apply Nat.eqb_eq in E1; subst st; destruct m; reflexivity|].
  destruct (st =? 302) eqn:E2; [apply Nat.eqb_eq in E2; subst st; destruct m; reflexivity|].
  apply Nat.eqb_neq in E3, E1, E2. cbn [orb].
  transitivity (m, data); [|destruct m; reflexivity].
  do 301 (destruct st as [|st]; [reflexivity|]).
  destruct st as [|[|[|st]]]; [congruence|congruence|congruence|reflexivity].
Qed.

Lemma go_bounded second rs : forall i m u h data auth redirects history,
  length (fst (go second i m u h data auth redirects history rs)) <= Nat.max 1 redirects /\
  (Nat.max 1 redirects <= length rs -> snd (go second i m u h data auth redirects history rs) <> Waiting).
Proof.
  induction rs as [|r rs IH]; intros; rewrite go_eq; destruct (build _ _ _ _ _) as [[hb c]|]; cbv zeta; cbn [fst snd length].
  - split; lia.
  - split; [lia|discriminate].
  - destruct (is_redirect _); [|cbn [fst snd length]; split; [lia|discriminate]].
    destruct redirects as [|[|redirects]]; try (cbn [fst snd length]; split; [lia|discriminate]).
    destruct (s_target r) as [|u'|n|]; cbn [fst snd length]; try (split; [lia|discriminate]).
    match goal with |- context [go second ?a ?b ?c ?d ?e ?f ?g ?k rs] => pose proof (IH a b c d e f g k) as [L W] end.
    split; [lia|]. intros H. apply W. lia.
  - split; [lia|discriminate].
Qed.

Lemma go_head second rs i m u h data auth redirects history q qs :
  fst (go second i m u h data auth redirects history rs) = q :: qs -> q_method q = m /\ q_url q = u /\ q_data q = data.
Proof.
  rewrite go_eq. destruct (build _ _ _ _ _) as [[hb c]|]; [|discriminate]. cbv zeta.
  destruct rs as [|r rs]; [intros E; injection E as <- _; auto|].
  destruct (is_redirect _); [|intros E; injection E as <- _; auto].
  destruct redirects as [|[|redirects]]; try (intros E; injection E as <- _; auto; fail).
  destruct (s_target r); intros E; injection E as <- _; auto.
Qed.

Lemma go_next second rs : forall i m u h data auth redirects history k q q',
  nth_error (fst (go second i m u h data auth redirects history rs)) k = Some q ->
  nth_error (fst (go second i m u h data auth redirects history rs)) (S k) = Some q' ->
  exists r, nth_error rs k = Some r /\ In (s_status r) [301; 302; 303; 307] /\ redirects_to r (q_url q') /\
            (q_method q', q_data q') = redirected (s_status r) (q_method q) (q_data q).
Proof.
  induction rs as [|r rs IH]; intros i m u h data auth redirects history k q q'; rewrite go_eq;
    destruct (build _ _ _ _ _) as [[hb c]|]; cbv zeta; cbn [fst]; try (destruct k; discriminate).
  assert (One : forall x, nth_error (fst ([mk_sent m u hb data c], x : result)) (S k) = Some q' -> False)
      by (intros x; cbn [fst nth_error]; destruct k; discriminate).
    destruct (is_redirect (s_status r)) eqn:ER; [|intros _ H; destruct (One _ H)].
    destruct redirects as [|[|redirects]]; try (intros _ H; destruct (One _ H); fail).
    apply is_redirect_spec in ER.
    assert (Next : forall u', redirects_to r u' ->
      let res := go second (S i) (if becomes_get (s_status r) m then MGet else m) u' (carry second u u' (becomes_get (s_status r) m) hb)
           (if becomes_get (s_status r) m then None else data) auth (S redirects) (history ++ [r]) rs in
      nth_error (mk_sent m u hb data c :: fst res) k = Some q -> nth_error (mk_sent m u hb data c :: fst res) (S k) = Some q' ->
      exists r0, nth_error (r :: rs) k = Some r0 /\ In (s_status r0) [301; 302; 303; 307] /\ redirects_to r0 (q_url q') /\
            (q_method q', q_data q') = redirected (s_status r0) (q_method q) (q_data q)).
    { intros u' RT res H1 H2. destruct k as [|k]; cbn [nth_error] in *.
      - injection H1 as <-. exists r. split; auto. split; auto. destruct (fst res) as [|q1 qs] eqn:EF; [discriminate|]. injection H2 as ->.
        unfold res in EF. destruct (go_head _ _ _ _ _ _ _ _ _ _ _ _ EF) as (A & B & C). cbn [q_url q_method q_data]. rewrite B. split; auto.
        rewrite A, C, redirected_spec. destruct (becomes_get (s_status r) m); reflexivity.
      - unfold res in H1, H2. eapply IH; eauto. }
    destruct (s_target r) as [|u'|n|] eqn:ET; cbn [fst]; try (intros _ H; destruct k; discriminate).
    apply Next. unfold redirects_to. rewrite ET. reflexivity.
Qed.

Lemma go_follows second pre : forall i m u h data auth redirects history r post,
  Forall follows_on pre -> length pre < redirects -> ~ In (s_status r) [301; 302; 303; 307] ->
  let res := go second i m u h data auth redirects history (pre ++ r :: post) in
  snd res = Returned r (history ++ pre) \/ snd res = Conflict.
Proof.
  induction pre as [|x pre IH]; intros i m u h data auth redirects history r post F L N res; unfold res; rewrite go_eq;
    destruct (build _ _ _ _ _) as [[hb c]|]; cbv zeta; cbn [app]; auto.
  - destruct (is_redirect (s_status r)) eqn:ER; [apply is_redirect_spec in ER; tauto|]. left. rewrite app_nil_r. reflexivity.
  - inversion F as [|? ? [F1 F2] F3]; subst. apply is_redirect_spec in F1. rewrite F1.
    cbn [length] in L. destruct redirects as [|[|redirects]]; [lia|lia|].
    destruct (s_target x) as [|u'|n|]; try tauto; cbn [fst snd].
    match goal with |- context [go second ?a ?b ?c ?d ?e ?f ?g ?k (pre ++ r :: post)] => pose proof (IH a b c d e f g k r post F3 ltac:(lia) N) as H end.
    rewrite <- app_assoc in H. exact H.
Qed.

Lemma go_too_many second pre : forall i m u h data auth redirects history post,
  Forall follows_on pre -> length pre = redirects -> 0 < redirects ->
  let res := go second i m u h data auth redirects history (pre ++ post) in
  snd res = TooMany \/ snd res = Conflict.
Proof.
  induction pre as [|x pre IH]; intros i m u h data auth redirects history post F L P res; [cbn in L; lia|]. unfold res; rewrite go_eq;
    destruct (build _ _ _ _ _) as [[hb c]|]; cbv zeta; cbn [app]; auto.
  inversion F as [|? ? [F1 F2] F3]; subst. apply is_redirect_spec in F1. rewrite F1. cbn [length].
  destruct pre as [|y pre]; [auto|]. cbn [length].
  destruct (s_target x) as [|u'|n|]; try tauto; cbn [fst snd].
  apply IH; auto. cbn; lia.
Qed.

Lemma go_no_conflict second rs : forall i m u h auth redirects history,
  snd (go second i m u h None auth redirects history rs) <> Conflict.
Proof.
  induction rs as [|r rs IH]; intros; rewrite go_eq; unfold RedirectModel.build; cbn [RedirectModel.add_body]; cbv zeta; [discriminate|].
  destruct (is_redirect _); [|discriminate]. destruct redirects as [|[|redirects]]; try discriminate.
  destruct (s_target r); try discriminate; cbn [snd].
  destruct (becomes_get _ _); apply IH.
Qed.

Lemma go_returned second rs : forall i m u h data auth redirects history r hist,
  snd (go second i m u h data auth redirects history rs) = Returned r hist ->
  let n := length (fst (go second i m u h data auth redirects history rs)) in
  nth_error rs (n - 1) = Some r /\
  (hist = history ++ firstn (n - 1) rs \/ s_target r = NoTarget /\ hist = history ++ firstn n rs).
Proof.
  induction rs as [|x rs IH]; intros i m u h data auth redirects history r hist; rewrite go_eq;
    destruct (build _ _ _ _ _) as [[hb c]|]; cbv zeta; cbn [fst snd]; try discriminate.
  destruct (is_redirect (s_status x)).
  2: { cbn [fst snd length]. intros E; injection E as <- <-. cbn [Nat.sub nth_error firstn]. rewrite app_nil_r. auto. }
  destruct redirects as [|[|redirects]].
  - cbn [fst snd length]. intros E; injection E as <- <-. cbn [Nat.sub nth_error firstn]. rewrite app_nil_r. auto.
  - cbn [fst snd]. discriminate.
  - assert (Next : forall u', 
      let res := go second (S i) (if becomes_get (s_status x) m then MGet else m) u' (carry second u u' (becomes_get (s_status x) m) hb)
           (if becomes_get (s_status x) m then None else data) auth (S redirects) (history ++ [x]) rs in
      snd res = Returned r hist ->
      let n := S (length (fst res)) in nth_error (x :: rs) (n - 1) = Some r /\
      (hist = history ++ firstn (n - 1) (x :: rs) \/ s_target r = NoTarget /\ hist = history ++ firstn n (x :: rs))).
    { intros u' res E. unfold res in E. destruct (IH _ _ _ _ _ _ _ _ _ _ E) as [A B]. fold res in E, A, B.
      assert (P : 0 < length (fst res)).
      { destruct (fst res) eqn:EF; [|cbn; lia]. exfalso. unfold res in E, EF. rewrite go_eq in E, EF.
        destruct (build _ _ _ _ _) as [[? ?]|]; [|discriminate]. cbv zeta in EF. destruct rs as [|r1 rs1]; [discriminate|].
        destruct (is_redirect _); [|discriminate]. destruct redirects; [discriminate|]. destruct (s_target r1); discriminate. }
      cbv zeta. destruct (length (fst res)) as [|n]; [lia|]. cbn [Nat.sub] in *. rewrite Nat.sub_0_r in *. cbn [nth_error].
      split; [exact A|]. cbn [firstn]. rewrite <- !app_assoc in B. cbn [app] in B. exact B. }
    destruct (s_target x) as [|u'|n|] eqn:ET; cbn [fst snd length]; try discriminate.
    + intros E; injection E as <- <-. cbn [Nat.sub nth_error firstn]. auto.
    + apply Next.
Qed.

(** ** Authorization *)


Lemma stayed_dec o past u : stayed o past u \/ ~ stayed o past u.
Proof.
  unfold stayed. destruct (origin_dec (origin u) o) as [E|E]; [|right; tauto].
  destruct (Forall_dec (fun q => origin (q_url q) = o) (fun q => origin_dec (origin (q_url q)) o) past); [left|right]; tauto.
Qed.

Lemma request_go second m u h data auth redirects rs pre q post :
  fst (request second m u h data auth redirects rs) = pre ++ q :: post ->
  fst (request second m u h data auth redirects rs) = fst (go second 0 m u h data (if second then auth else None) redirects [] rs).
Proof.
  unfold RedirectModel.request. destruct (_ && _ && _); auto. cbn [fst]. intros E. destruct (app_cons_not_nil _ _ _ E).
Qed.

Lemma auth_confined m u h data auth redirects rs pre q post :
  length (h HAuthorization) <= 1 ->
  fst (request false m u h data auth redirects rs) = pre ++ q :: post ->
  (forall q', In q' (pre ++ q :: post) -> u_user (q_url q') = None) ->
  (stayed (origin u) pre (q_url q) -> q_headers q HAuthorization = h HAuthorization) /\
  (~ stayed (origin u) pre (q_url q) -> q_headers q HAuthorization = []).
Proof.
  intros L E V. pose proof (request_go _ _ _ _ _ _ _ _ _ _ _ E) as R. cbn [andb] in R. rewrite R in E.
  pose (Inv := fun (past : list sent) (v : url) (h' : hdrs) (_ : option payload) =>
    (stayed (origin u) past v -> h' HAuthorization = h HAuthorization) /\ (~ stayed (origin u) past v -> h' HAuthorization = [])).
  apply (go_inv false None (fun v => u_user v = None) Inv
    (fun past q => (stayed (origin u) past (q_url q) -> q_headers q HAuthorization = h HAuthorization) /\
                   (~ stayed (origin u) past (q_url q) -> q_headers q HAuthorization = []))) with (past := []) (post := post) in E; auto.
  3: { split; auto. intros H. exfalso. apply H. split; auto. }
  2: { cbn [length]. rewrite E. auto. }
  - clear V E R. intros past m' v h' data' hb c V [I1 I2] EB. pose proof (build_auth _ _ _ _ _ _ _ EB) as A.
    unfold add_authorization in A. rewrite V in A. cbn [q_url q_headers]. split.
    + split; intros H; rewrite A; auto.
    + intros get v' _. unfold Inv, carry. cbv zeta.
      assert (A' : (if get then hdel hb HLength else hb) HAuthorization = h' HAuthorization)
        by (destruct get; [rewrite hdel_neq by discriminate|]; exact A).
      destruct (origin_dec (origin v) (origin v')) as [EO|NO].
      * rewrite A'. unfold stayed in *. rewrite Forall_app. rewrite <- EO.
        split; intros H; [apply I1|apply I2]; intuition.
      * rewrite hdel_eq, A'. split.
        -- intros [F EO]. exfalso. apply NO. apply Forall_app in F. destruct F as [_ F]. inversion F; subst. cbn [q_url] in *. congruence.
        -- intros _. destruct (stayed_dec (origin u) past v) as [S1|S1]; [rewrite (I1 S1)|rewrite (I2 S1); reflexivity].
           destruct (h HAuthorization) as [|x [|y l]]; auto. cbn in L. lia.
Qed.

(** ** Host *)

Lemma host_first second m u h data auth redirects rs pre q post :
  fst (request second m u h data auth redirects rs) = pre ++ q :: post ->
  q_headers q HHost = match h HHost with [] => [host_value u] | l => l end.
Proof.
  intros E. pose proof (request_go _ _ _ _ _ _ _ _ _ _ _ E) as R. rewrite R in E.
  pose (Inv := fun (past : list sent) (v : url) (h' : hdrs) (_ : option payload) =>
    (past = [] /\ v = u /\ h' HHost = h HHost) \/ h' HHost = match h HHost with [] => [host_value u] | l => l end).
  apply (go_inv second (if second then auth else None) (fun _ => True) Inv
    (fun past q => q_headers q HHost = match h HHost with [] => [host_value u] | l => l end)) with (past := []) in E; auto.
  - clear E R. intros past m' v h' data' hb c _ I EB. pose proof (build_host _ _ _ _ _ _ _ EB) as A. cbn [q_headers].
    assert (B : hb HHost = match h HHost with [] => [host_value u] | l => l end).
    { rewrite A. destruct I as [(_ & -> & ->)| -> ]; auto. destruct (h HHost); auto. }
    split; auto. intros get v' _. right. unfold carry. cbv zeta. rewrite <- B.
    destruct second; [|destruct (origin_dec _ _)]; destruct get; rewrite ?hdel_neq by discriminate; reflexivity.
  - left. auto.
Qed.

(** ** Cookies *)

Lemma cookie_set_in k v l x : In x (cookie_set k v l) -> x = (k, v) \/ In x l.
Proof.
  induction l as [|[k' v'] l IH]; cbn [cookie_set].
  - intros [H|[]]; auto.
  - destruct (k' =? k); intros [H|H]; auto.
    + right; right; auto.
    + right; left; auto.
    + destruct (IH H); auto. right; right; auto.
Qed.
Lemma cookie_set_has k v l : In (k, v) (cookie_set k v l).
Proof.
  induction l as [|[k' v'] l IH]; cbn [cookie_set]; [left; auto|]. destruct (k' =? k); [left; auto|right; auto].
Qed.
Lemma cookie_set_keeps k v l x : In x l -> fst x <> k -> In x (cookie_set k v l).
Proof.
  induction l as [|[k' v'] l IH]; cbn [cookie_set]; [intros []|]. intros [<-|H] N.
  - cbn [fst] in N. destruct (k' =? k) eqn:E; [apply Nat.eqb_eq in E; congruence|left; auto].
  - destruct (k' =? k); right; auto.
Qed.
Lemma merge_in new : forall old x, In x (cookie_merge old new) -> In x old \/ In x new.
Proof.
  unfold cookie_merge. induction new as [|y new IH]; intros old x; cbn [fold_left]; auto. intros H.
  destruct (IH _ _ H) as [H1|H1]; [|right; right; auto]. destruct (cookie_set_in _ _ _ _ H1) as [H2|H2]; auto. right; left. destruct y; auto.
Qed.
Lemma merge_keeps new : forall old x, In x old -> ~ In (fst x) (map fst new) -> In x (cookie_merge old new).
Proof.
  unfold cookie_merge. induction new as [|y new IH]; intros old x H N; cbn [fold_left]; auto. apply IH.
  - apply cookie_set_keeps; auto. intros E. apply N. left. auto.
  - intros H'. apply N. right. auto.
Qed.
Lemma merge_has new : forall old x, NoDup (map fst new) -> In x new -> In x (cookie_merge old new).
Proof.
  unfold cookie_merge. induction new as [|y new IH]; [intros old x _ []|]. intros old x ND [<-|H]; cbn [fold_left]; inversion ND; subst.
  - apply merge_keeps; auto. destruct y. apply cookie_set_has.
  - apply IH; auto.
Qed.

Lemma cookies_followed second m u h data auth redirects rs pre q post :
  length (h HCookie) <= 1 ->
  fst (request second m u h data auth redirects rs) = pre ++ q :: post ->
  length (q_headers q HCookie) <= 1 /\
  (NoDup (map fst (jar (length pre) (q_url q))) -> forall x, In x (jar (length pre) (q_url q)) -> In x (cookies_of load (q_headers q))) /\
  (forall x, In x (cookies_of load (q_headers q)) -> In x (cookies_of load h) \/
     exists j q', nth_error (pre ++ [q]) j = Some q' /\ In x (jar j (q_url q'))).
Proof.
  intros L E. pose proof (request_go _ _ _ _ _ _ _ _ _ _ _ E) as R. rewrite R in E.
  pose (Inv := fun (past : list sent) (v : url) (h' : hdrs) (_ : option payload) => length (h' HCookie) <= 1 /\
    (forall x, In x (cookies_of load h') -> In x (cookies_of load h) \/ exists j q', nth_error past j = Some q' /\ In x (jar j (q_url q')))).
  apply (go_inv second (if second then auth else None) (fun _ => True) Inv
    (fun past q => length (q_headers q HCookie) <= 1 /\
  (NoDup (map fst (jar (length past) (q_url q))) -> forall x, In x (jar (length past) (q_url q)) -> In x (cookies_of load (q_headers q))) /\
  (forall x, In x (cookies_of load (q_headers q)) -> In x (cookies_of load h) \/
     exists j q', nth_error (past ++ [q]) j = Some q' /\ In x (jar j (q_url q'))))) with (past := []) in E; auto.
  - clear E R. intros past m' v h' data' hb c _ [I1 I2] EB. pose proof (build_cookie _ _ _ _ _ _ _ EB) as A. cbn [q_headers q_url].
    set (q0 := mk_sent m' v hb data' c).
    assert (TL : tl (h' HCookie) = []) by (destruct (h' HCookie) as [|a [|b l]]; auto; cbn in I1; lia).
    assert (B : length (hb HCookie) <= 1 /\
      (NoDup (map fst (jar (length past) v)) -> forall x, In x (jar (length past) v) -> In x (cookies_of load hb)) /\
      (forall x, In x (cookies_of load hb) -> In x (cookies_of load h) \/
        exists j q', nth_error (past ++ [q0]) j = Some q' /\ In x (jar j (q_url q')))).
    { assert (Old : forall x, In x (cookies_of load h') -> In x (cookies_of load h) \/
        exists j q', nth_error (past ++ [q0]) j = Some q' /\ In x (jar j (q_url q'))).
      { intros x H. destruct (I2 x H) as [H1|(j & q' & H1 & H2)]; auto. right. exists j, q'. split; auto.
        rewrite nth_error_app1; auto. apply nth_error_Some. congruence. }
      destruct (jar (length past) v) as [|y ys] eqn:EJ.
      - rewrite A. split; auto. split; [intros _ x []|]. intros x. unfold cookies_of. rewrite A. apply Old.
      - rewrite TL in A. cbv zeta in A. destruct (in_dec _ _ _) as [[]|_] in A. cbn [app] in A. rewrite A. split; [cbn; lia|].
        assert (CO : cookies_of load hb = cookie_merge (cookies_of load h') (y :: ys)) by (unfold cookies_of; rewrite A; reflexivity). rewrite CO. split.
        + intros ND x H. apply merge_has; auto.
        + intros x H. apply merge_in in H. destruct H as [H|H]; [auto|]. right. exists (length past), q0.
          rewrite nth_error_app2, Nat.sub_diag by lia. split; auto. cbn [q_url q0]. rewrite EJ. exact H. }
    split; [exact B|]. intros get v' _. destruct B as (B1 & _ & B3). unfold Inv.
    assert (C : carry second v v' get hb HCookie = hb HCookie).
    { unfold carry. cbv zeta. destruct second; [|destruct (origin_dec _ _)]; destruct get; rewrite ?hdel_neq by discriminate; reflexivity. }
    unfold cookies_of at 1. rewrite C. split; [exact B1|]. intros x H. apply (B3 x H).
  - unfold Inv. split; auto.
Qed.

(** ** The body *)

Lemma body_framed second m u h data auth redirects rs pre q post :
  fst (request second m u h data auth redirects rs) = pre ++ q :: post ->
  match q_data q with
  | None => q_chunked q = false
  | Some p =>
      (q_chunked q = true -> q_headers q HLength = [] /\ In Chunked (q_headers q HTransfer)) /\
      (q_chunked q = false -> q_headers q HLength <> [] /\
         (h HLength = [] -> exists n, p_size p = Some n /\ q_headers q HLength = [Size n]))
  end.
Proof.
  intros E. pose proof (request_go _ _ _ _ _ _ _ _ _ _ _ E) as R. rewrite R in E.
  pose (Inv := fun (past : list sent) (v : url) (h' : hdrs) (data : option payload) =>
    h HLength = [] -> h' HLength = [] \/ exists p n, data = Some p /\ p_size p = Some n /\ h' HLength = [Size n]).
  apply (go_inv second (if second then auth else None) (fun _ => True) Inv
    (fun past q => match q_data q with
  | None => q_chunked q = false
  | Some p =>
      (q_chunked q = true -> q_headers q HLength = [] /\ In Chunked (q_headers q HTransfer)) /\
      (q_chunked q = false -> q_headers q HLength <> [] /\
         (h HLength = [] -> exists n, p_size p = Some n /\ q_headers q HLength = [Size n]))
  end)) with (past := []) in E; auto; [|intros H; auto].
  clear E R. intros past m' v h' data' hb c _ I EB. cbn [q_headers q_url q_data q_chunked].
  unfold RedirectModel.build in EB. remember (add_cookies _ _) as h1 eqn:E1.
  assert (L1 : h1 HLength = h' HLength).
  { subst h1. rewrite add_cookies_neq, add_host_neq, add_auth_neq by discriminate. reflexivity. }
  clear E1. destruct data' as [p|]; cbn [RedirectModel.add_body] in EB.
  - assert (B : (c = true -> hb HLength = [] /\ In Chunked (hb HTransfer)) /\
      (c = false -> hb HLength <> [] /\ (h HLength = [] -> exists n, p_size p = Some n /\ hb HLength = [Size n]))).
    { destruct (wants_chunked _ h1 || hhas h1 HEncoding).
      - remember (fold_left _ _ _) as h2 eqn:E2. destruct (hhas h2 HLength) eqn:EL; [discriminate|]. injection EB as <- <-.
        split; [|discriminate]. intros _. split; [|apply hset_in]. rewrite hset_neq by discriminate. unfold hhas in EL. destruct (h2 HLength); [auto|discriminate].
      - destruct (hhas h1 HLength) eqn:EL; [|destruct (p_size p) as [n|] eqn:EP].
        + injection EB as <- <-. split; [discriminate|]. intros _. rewrite extra_neq by discriminate.
          assert (X : (if hhas h1 HType then h1 else hset h1 HType (TypeOf (p_type p))) HLength = h' HLength)
            by (destruct (hhas h1 HType); rewrite ?hset_neq by discriminate; exact L1).
          rewrite X. unfold hhas in EL. rewrite L1 in EL. split; [destruct (h' HLength); [discriminate|discriminate]|].
          intros HL. destruct (I HL) as [Z|(p' & n & Z1 & Z2 & Z3)]; [rewrite Z in EL; discriminate|]. injection Z1 as <-. eauto.
        + injection EB as <- <-. split; [discriminate|]. intros _. rewrite extra_neq by discriminate.
          assert (X : (if hhas (hset h1 HLength (Size n)) HType then hset h1 HLength (Size n)
                       else hset (hset h1 HLength (Size n)) HType (TypeOf (p_type p))) HLength = [Size n]).
          { assert (Y : hset h1 HLength (Size n) HLength = [Size n]) by (apply hset_absent; unfold hhas in EL; destruct (h1 HLength); [auto|discriminate]).
            destruct (hhas _ HType); rewrite ?(hset_neq (hset h1 HLength (Size n)) HType _ HLength) by discriminate; exact Y. }
          rewrite X. split; [discriminate|]. eauto.
        + remember (fold_left _ _ _) as h2 eqn:E2. destruct (hhas h2 HLength) eqn:EL2; [discriminate|]. injection EB as <- <-.
          split; [|discriminate]. intros _. split; [|apply hset_in]. rewrite hset_neq by discriminate. unfold hhas in EL2. destruct (h2 HLength); [auto|discriminate]. }
    split; [exact B|]. intros get v' _ HL. destruct B as [B1 B2].
    assert (C : carry second v v' get hb HLength = if get then tl (hb HLength) else hb HLength).
    { unfold carry. cbv zeta. destruct second; [|destruct (origin_dec _ _)]; destruct get; rewrite ?(hdel_neq _ HAuthorization HLength) by discriminate; rewrite ?hdel_eq; reflexivity. }
    rewrite C. destruct c.
    + destruct (B1 eq_refl) as [-> _]. left. destruct get; reflexivity.
    + destruct (B2 eq_refl) as [_ B3]. destruct (B3 HL) as (n & P & ->). destruct get; [left; reflexivity|]. right. eauto.
  - injection EB as <- <-. split; auto. intros get v' _ HL. left.
    assert (C : forall h2, h2 HLength = [] -> carry second v v' get h2 HLength = []).
    { intros h2 Z. unfold carry. cbv zeta. destruct second; [|destruct (origin_dec _ _)]; destruct get; rewrite ?(hdel_neq _ HAuthorization HLength) by discriminate; rewrite ?hdel_eq, ?Z; reflexivity. }
    apply C. rewrite (hdel_neq _ HTransfer), (hdel_neq _ HType), hdel_eq, hdel_neq, L1 by discriminate.
    destruct (I HL) as [-> |(p & n & Z & _)]; [reflexivity|discriminate].
Qed.

Lemma no_body_no_headers second m u h data auth redirects rs pre q post :
  length (h HEncoding) <= 1 -> length (h HLength) <= 1 -> length (h HType) <= 1 -> h HTransfer = [] \/ h HTransfer = [Chunked] ->
  fst (request second m u h data auth redirects rs) = pre ++ q :: post -> q_data q = None ->
  q_headers q HEncoding = [] /\ q_headers q HLength = [] /\ q_headers q HType = [] /\ q_headers q HTransfer = [].
Proof.
  intros L1 L2 L3 L4 E. pose proof (request_go _ _ _ _ _ _ _ _ _ _ _ E) as R. rewrite R in E.
  pose (Few := fun (h' : hdrs) => length (h' HEncoding) <= 1 /\ length (h' HLength) <= 1 /\ length (h' HType) <= 1 /\
    (h' HTransfer = [] \/ h' HTransfer = [Chunked])).
  refine (go_inv second (if second then auth else None) (fun _ => True) (fun _ _ h' _ => Few h')
    (fun past q => q_data q = None -> q_headers q HEncoding = [] /\ q_headers q HLength = [] /\ q_headers q HType = [] /\ q_headers q HTransfer = [])
    _ rs [] m u h data redirects [] _ _ pre q post E); auto; [|unfold Few; auto].
  clear E R. intros past m' v h' data' hb c _ I EB. cbn [q_headers q_url q_data q_chunked].
  unfold RedirectModel.build in EB. remember (add_cookies _ _) as h1 eqn:E1.
  assert (F1 : Few h1).
  { unfold Few. subst h1. rewrite !add_cookies_neq, !add_host_neq, !add_auth_neq by discriminate. exact I. }
  clear E1. destruct F1 as (A1 & A2 & A3 & A4).
  assert (Tl : forall l : list value, length l <= 1 -> tl l = []) by (intros [|a [|b l]]; auto; cbn; lia).
  assert (Fb : Few hb /\ (data' = None -> hb HEncoding = [] /\ hb HLength = [] /\ hb HType = [] /\ hb HTransfer = [])).
  { destruct data' as [p|]; cbn [RedirectModel.add_body] in EB.
    - split; [|discriminate].
      assert (T : forall h0 : hdrs, Few h0 -> Few (fold_left (fun h (kv : nat * nat) => hsetdefault h (HOther (fst kv)) (Given (snd kv))) (p_extra p)
                    (if hhas h0 HType then h0 else hset h0 HType (TypeOf (p_type p))))).
      { intros h0 (B1 & B2 & B3 & B4). unfold Few. rewrite !extra_neq by discriminate. destruct (hhas h0 HType) eqn:EH; [auto|].
        rewrite (hset_neq h0 HType _ HEncoding), (hset_neq h0 HType _ HLength), (hset_neq h0 HType _ HTransfer) by discriminate. split; auto. split; auto. split; auto.
        rewrite hset_absent; [cbn; auto|]. unfold hhas in EH. destruct (h0 HType); [auto|discriminate]. }
      assert (C : forall h0 : hdrs, Few h0 -> Few (hset h0 HTransfer Chunked)).
      { intros h0 (B1 & B2 & B3 & B4). unfold Few. rewrite (hset_neq h0 HTransfer _ HEncoding), (hset_neq h0 HTransfer _ HLength), (hset_neq h0 HTransfer _ HType) by discriminate. split; auto. split; auto. split; auto.
        right. unfold hset. destruct B4 as [B4|B4]; rewrite B4; destruct (in_dec _ _ _) as [Y|Y]; rewrite ?put_eq; auto; try (destruct Y; fail).
        destruct Y. left. reflexivity. }
      destruct (wants_chunked _ h1 || hhas h1 HEncoding).
      + match type of EB with (if hhas ?h2 _ then _ else _) = _ => assert (F2 : Few h2) by (apply T; unfold Few; auto); destruct (hhas h2 HLength) end; [discriminate|].
        injection EB as <- <-. apply C, F2.
      + destruct (hhas h1 HLength) eqn:EL; [|destruct (p_size p) as [n|] eqn:EP].
        * injection EB as <- <-. apply T. unfold Few; auto.
        * injection EB as <- <-. apply T. unfold Few. rewrite (hset_neq h1 HLength _ HEncoding), (hset_neq h1 HLength _ HTransfer), (hset_neq h1 HLength _ HType) by discriminate.
          rewrite hset_absent; [cbn; auto|]. unfold hhas in EL. destruct (h1 HLength); [auto|discriminate].
        * match type of EB with (if hhas ?h2 _ then _ else _) = _ => assert (F2 : Few h2) by (apply T; unfold Few; auto); destruct (hhas h2 HLength) end; [discriminate|].
          injection EB as <- <-. apply C, F2.
    - injection EB as <- <-.
      assert (Z : let hz := hdel (hdel (hdel (hdel h1 HEncoding) HLength) HType) HTransfer in
        hz HEncoding = [] /\ hz HLength = [] /\ hz HType = [] /\ hz HTransfer = []).
      { cbv zeta. repeat split.
        - rewrite (hdel_neq _ HTransfer), (hdel_neq _ HType), (hdel_neq _ HLength), hdel_eq by discriminate. auto.
        - rewrite (hdel_neq _ HTransfer), (hdel_neq _ HType), hdel_eq, (hdel_neq _ HEncoding) by discriminate. auto.
        - rewrite (hdel_neq _ HTransfer), hdel_eq, (hdel_neq _ HLength), (hdel_neq _ HEncoding) by discriminate. auto.
        - rewrite hdel_eq, (hdel_neq _ HType), (hdel_neq _ HLength), (hdel_neq _ HEncoding) by discriminate. destruct A4 as [->| ->]; reflexivity. }
      split; auto. destruct Z as (Z1 & Z2 & Z3 & Z4). unfold Few. rewrite Z1, Z2, Z3, Z4. cbn; auto. }
  destruct Fb as [Fb FN]. split; auto. intros get v' _. destruct Fb as (B1 & B2 & B3 & B4). unfold Few, carry. cbv zeta.
  assert (D : forall h0, Few h0 -> Few (hdel h0 HLength)).
  { intros h0 (C1 & C2 & C3 & C4). unfold Few. rewrite (hdel_neq h0 HLength HEncoding), (hdel_neq h0 HLength HTransfer), (hdel_neq h0 HLength HType) by discriminate. rewrite hdel_eq, (Tl _ C2). cbn; auto. }
  assert (G : Few (if get then hdel hb HLength else hb)) by (destruct get; [apply D|]; unfold Few; auto).
  destruct second; [exact G|]. destruct (origin_dec _ _); [exact G|].
  rewrite !(hdel_neq _ HAuthorization) by discriminate. exact G.
Qed.

Lemma chunks_announced second m u h data auth redirects rs pre q post :
  h HTransfer = [] \/ h HTransfer = [Chunked] ->
  fst (request second m u h data auth redirects rs) = pre ++ q :: post ->
  (q_chunked q = true <-> In Chunked (q_headers q HTransfer)).
Proof.
  intros L4 E. pose proof (request_go _ _ _ _ _ _ _ _ _ _ _ E) as R. rewrite R in E.
  pose (Few := fun (h' : hdrs) => h' HTransfer = [] \/ h' HTransfer = [Chunked]).
  refine (go_inv second (if second then auth else None) (fun _ => True) (fun _ _ h' _ => Few h')
    (fun past q => q_chunked q = true <-> In Chunked (q_headers q HTransfer))
    _ rs [] m u h data redirects [] _ _ pre q post E); auto.
  clear E R. intros past m' v h' data' hb c _ I EB. cbn [q_headers q_url q_data q_chunked].
  unfold RedirectModel.build in EB. remember (add_cookies _ _) as h1 eqn:E1.
  assert (F1 : Few h1).
  { unfold Few. subst h1. rewrite !add_cookies_neq, !add_host_neq, !add_auth_neq by discriminate. exact I. }
  clear E1.
  assert (C : forall h0 : hdrs, Few h0 -> hset h0 HTransfer Chunked HTransfer = [Chunked]).
  { intros h0 B4. unfold hset. destruct B4 as [B4|B4]; rewrite B4; destruct (in_dec _ _ _) as [Y|Y]; rewrite ?put_eq; auto; try (destruct Y; fail).
    destruct Y. left. reflexivity. }
  assert (T : forall p (h0 : hdrs), fold_left (fun h (kv : nat * nat) => hsetdefault h (HOther (fst kv)) (Given (snd kv))) (p_extra p)
                    (if hhas h0 HType then h0 else hset h0 HType (TypeOf (p_type p))) HTransfer = h0 HTransfer).
  { intros p h0. rewrite !extra_neq by discriminate. destruct (hhas h0 HType); [auto|]. apply hset_neq. discriminate. }
  assert (Fb : (c = true /\ hb HTransfer = [Chunked]) \/ (c = false /\ hb HTransfer = [])).
  { destruct data' as [p|]; cbn [RedirectModel.add_body] in EB.
    - destruct (wants_chunked _ h1 || hhas h1 HEncoding) eqn:EW.
      + match type of EB with (if hhas ?h2 _ then _ else _) = _ => assert (F2 : Few h2) by (unfold Few; rewrite T; exact F1); destruct (hhas h2 HLength) end; [discriminate|].
        injection EB as <- <-. left. split; [reflexivity|]. apply C, F2.
      + assert (Z : h1 HTransfer = []).
        { destruct F1 as [F1|F1]; [exact F1|]. apply orb_false_iff in EW. unfold RedirectModel.wants_chunked, hget in EW. rewrite F1 in EW. destruct EW. discriminate. }
        destruct (hhas h1 HLength) eqn:EL; [|destruct (p_size p) as [n|] eqn:EP].
        * injection EB as <- <-. right. rewrite T. auto.
        * injection EB as <- <-. right. rewrite T, hset_neq by discriminate. auto.
        * match type of EB with (if hhas ?h2 _ then _ else _) = _ => assert (F2 : Few h2) by (unfold Few; rewrite T; exact F1); destruct (hhas h2 HLength) end; [discriminate|].
          injection EB as <- <-. left. split; [reflexivity|]. apply C, F2.
    - injection EB as <- <-. right. split; [reflexivity|].
      rewrite hdel_eq, (hdel_neq _ HType), (hdel_neq _ HLength), (hdel_neq _ HEncoding) by discriminate. destruct F1 as [->| ->]; reflexivity. }
  split.
  - destruct Fb as [[-> ->]|[-> ->]]; cbn; split; auto; try discriminate; intros [].
  - intros get v' _. assert (K : carry second v v' get hb HTransfer = hb HTransfer).
    { unfold carry. cbv zeta. destruct second; [|destruct (origin_dec _ _)]; destruct get; rewrite ?hdel_neq by discriminate; reflexivity. }
    unfold Few. rewrite K. destruct Fb as [[_ ->]|[_ ->]]; auto.
Qed.

Lemma host_value_names u : names_host u (host_value u).
Proof.
  unfold names_host, usual_port, host_value, default_port. destruct (u_secure u); destruct (_ =? _) eqn:E;
  (apply Nat.eqb_eq in E || apply Nat.eqb_neq in E); split; intros H; try reflexivity; exfalso;
  try (destruct H as [[? ?]|[? ?]]; congruence); apply H; auto.
Qed.

Lemma host_named second m u h data auth redirects rs pre q post :
  fst (request second m u h data auth redirects rs) = pre ++ q :: post ->
  match h HHost with [] => exists v, q_headers q HHost = [v] /\ names_host u v | l => q_headers q HHost = l end.
Proof.
  intros E. apply host_first in E. destruct (h HHost); [|exact E]. exists (host_value u). split; [exact E|apply host_value_names].
Qed.

Lemma auth_sent second m u h data auth redirects rs pre q post :
  fst (request second m u h data auth redirects rs) = pre ++ q :: post ->
  forall c, (second = true /\ auth = Some c \/ (second = false \/ auth = None) /\ u_user (q_url q) = Some c) -> In (Basic c) (q_headers q HAuthorization).
Proof.
  intros E. pose proof (request_go _ _ _ _ _ _ _ _ _ _ _ E) as R. rewrite R in E.
  refine (go_inv second (if second then auth else None) (fun _ => True) (fun _ _ _ _ => True)
    (fun past q => forall c, (second = true /\ auth = Some c \/ (second = false \/ auth = None) /\ u_user (q_url q) = Some c) -> In (Basic c) (q_headers q HAuthorization))
    _ rs [] m u h data redirects [] _ _ pre q post E); auto.
  clear E R. intros past m' v h' data' hb c _ _ EB. split; [|auto]. cbn [q_headers q_url]. intros c' H.
  rewrite (build_auth _ _ _ _ _ _ _ EB). unfold add_authorization.
  destruct H as [[-> ->]|[[-> | ->] ->]]; [| |destruct second]; apply hset_in.
Qed.

Lemma given_cookies_sent second m u h data auth redirects rs pre q post x :
  length (h HCookie) <= 1 ->
  fst (request second m u h data auth redirects rs) = pre ++ q :: post ->
  In x (cookies_of load h) ->
  (forall j q', nth_error (pre ++ [q]) j = Some q' -> ~ In (fst x) (map fst (jar j (q_url q')))) ->
  In x (cookies_of load (q_headers q)).
Proof.
  intros L E G. pose proof (request_go _ _ _ _ _ _ _ _ _ _ _ E) as R. rewrite R in E.
  pose (Fresh := fun l : list sent => forall j q', nth_error l j = Some q' -> ~ In (fst x) (map fst (jar j (q_url q')))).
  pose (Inv := fun (past : list sent) (v : url) (h' : hdrs) (_ : option payload) => length (h' HCookie) <= 1 /\ (Fresh past -> In x (cookies_of load h'))).
  refine (go_inv second (if second then auth else None) (fun _ => True) Inv
    (fun past q => Fresh (past ++ [q]) -> In x (cookies_of load (q_headers q)))
    _ rs [] m u h data redirects [] _ _ pre q post E); auto; [|unfold Inv; auto].
  clear E R. intros past m' v h' data' hb c _ [I1 I2] EB. pose proof (build_cookie _ _ _ _ _ _ _ EB) as A. cbn [q_headers].
  set (q0 := mk_sent m' v hb data' c).
  assert (TL : tl (h' HCookie) = []) by (destruct (h' HCookie) as [|a [|b l]]; auto; cbn in I1; lia).
  assert (B : length (hb HCookie) <= 1 /\ (Fresh (past ++ [q0]) -> In x (cookies_of load hb))).
  { assert (FP : Fresh (past ++ [q0]) -> Fresh past).
    { intros F j q' H. apply F. rewrite nth_error_app1; auto. apply nth_error_Some. congruence. }
    assert (FQ : Fresh (past ++ [q0]) -> ~ In (fst x) (map fst (jar (length past) v))).
    { intros F. apply (F (length past) q0). rewrite nth_error_app2, Nat.sub_diag by lia. reflexivity. }
    destruct (jar (length past) v) as [|y ys] eqn:EJ.
    - rewrite A. split; auto. intros F. unfold cookies_of. rewrite A. apply I2; auto.
    - rewrite TL in A. cbv zeta in A. destruct (in_dec _ _ _) as [[]|_] in A. cbn [app] in A. rewrite A. split; [cbn; lia|].
      intros F. assert (CO : cookies_of load hb = cookie_merge (cookies_of load h') (y :: ys)) by (unfold cookies_of; rewrite A; reflexivity). rewrite CO.
      apply merge_keeps; auto. }
  split; [apply B|]. intros get v' _. unfold Inv.
  assert (C : carry second v v' get hb HCookie = hb HCookie).
  { unfold carry. cbv zeta. destruct second; [|destruct (origin_dec _ _)]; destruct get; rewrite ?hdel_neq by discriminate; reflexivity. }
  unfold cookies_of. rewrite C. exact B.
Qed.

End WithOracles.
