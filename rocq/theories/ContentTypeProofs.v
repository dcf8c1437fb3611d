(** Proofs for C49, C93. *)

From Coq Require Import List Arith Bool NArith Lia.
From Verif Require Import Text ContentTypeModel.
From Verif Require ContentTypeSpec.
Import ListNotations.

(** * Positions are what is left of the text *)
Definition suffix (l s : str) : Prop := exists p, s = p ++ l.
Definition idx (s l : str) : nat := length s - length l.

Lemma suffix_refl s : suffix s s. Proof. now exists []. Qed.
Lemma suffix_cons c l s : suffix (c :: l) s -> suffix l s.
Proof. intros [p ->]. exists (p ++ [c]). now rewrite <- app_assoc. Qed.
Lemma suffix_app a l s : suffix (a ++ l) s -> suffix l s.
Proof. intros [p ->]. exists (p ++ a). now rewrite app_assoc. Qed.
Lemma suffix_length l s : suffix l s -> length l <= length s.
Proof. intros [p ->]. rewrite app_length. lia. Qed.
Lemma idx_app p l : idx (p ++ l) l = length p.
Proof. unfold idx. rewrite app_length. lia. Qed.

Lemma idx_at c l s : suffix (c :: l) s -> nth_error s (idx s (c :: l)) = Some c.
Proof. intros [p ->]. rewrite idx_app, nth_error_app2 by lia. now rewrite Nat.sub_diag. Qed.
Lemma idx_next c l s : suffix (c :: l) s -> idx s (c :: l) + 1 = idx s l.
Proof. intros S0. apply suffix_length in S0. unfold idx. cbn [length] in *. lia. Qed.
Lemma idx_end l s : suffix l s -> (length s <=? idx s l) = match l with [] => true | _ => false end.
Proof. intros S0. apply suffix_length in S0. unfold idx. destruct l; [apply Nat.leb_le|apply Nat.leb_gt]; cbn [length] in *; lia. Qed.
Lemma idx_more l s : suffix l s -> (idx s l <? length s) = match l with [] => false | _ => true end.
Proof. intros S0. apply suffix_length in S0. unfold idx. destruct l; [apply Nat.ltb_ge|apply Nat.ltb_lt]; cbn [length] in *; lia. Qed.

(** * The functions on what is left *)
Definition ws (c : N) : bool := contains c white_space.
Definition ok (disallowed : str) (c : N) : bool := negb (contains c disallowed || contains c white_space || contains c delimiters).
Definition skip (l : str) : str := drop_while ws l.
Definition r_token (dis l : str) : str * option str :=
  (drop_while (ok dis) l, match take_while (ok dis) l with [] => None | t => Some t end).
Definition r_spaced (dis l : str) : str * option str := let '(l, t) := r_token dis (skip l) in (skip l, t).
Fixpoint r_quoted (l : str) (acc : option str) (esc : bool) : str * option str * option str :=
  match l with
  | [] => ([], if esc then push acc 92%N else acc, Some [34%N])
  | c :: l' =>
      if esc then r_quoted l' (push (if contains c [92; 34]%N then acc else push acc 92%N) c) false
      else if N.eqb c 34 then (l', acc, None)
      else if N.eqb c 92 then r_quoted l' acc true
      else r_quoted l' (push acc c) false
  end.
Definition r_value (l : str) : str * option str * option str :=
  let '(l, t, e) := match skip l with
                    | [] => ([], None, None)
                    | c :: l' => if N.eqb c 34 then r_quoted l' None false else let '(l, t) := r_token [] (c :: l') in (l, t, None)
                    end in
  (skip l, t, e).
Definition r_look (l : str) (more : option N) : stop :=
  match l with [] => AtEnd | c :: _ => if N.eqb c 59 then Semicolon else match more with Some m => if N.eqb c m then More else Other | None => Other end end.
Definition r_head (l : str) : str * option str * option str * option str * option str :=
  match l with
  | [] => ([], None, None, None, None)
  | _ =>
  let '(l, ty) := r_spaced [59; 47]%N l in
  match r_look l (Some 47%N) with
  | AtEnd => (l, ty, None, None, None)
  | Semicolon => (tl l, ty, None, None, None)
  | Other => (l, ty, None, None, Some [59; 47]%N)
  | More =>
  let '(l, sub) := r_spaced [59; 43]%N (tl l) in
  match r_look l (Some 43%N) with
  | AtEnd => (l, ty, sub, None, None)
  | Semicolon => (tl l, ty, sub, None, None)
  | Other => (l, ty, sub, None, Some [59; 43]%N)
  | More =>
  let '(l, suf) := r_spaced [59]%N (tl l) in
  match r_look l None with
  | AtEnd => (l, ty, sub, suf, None)
  | Semicolon => (tl l, ty, sub, suf, None)
  | _ => (l, ty, sub, suf, Some [59]%N)
  end end end end.
Definition r_parameter (l : str) : str * option str * option str * option str :=
  match l with
  | [] => ([], None, None, None)
  | _ =>
  let '(l, key) := r_spaced [59; 61]%N l in
  match r_look l (Some 61%N) with
  | AtEnd => (l, key, None, None)
  | Semicolon => (tl l, key, None, None)
  | Other => (l, key, None, Some [59; 61]%N)
  | More =>
  let '(l, value, expected) := r_value (tl l) in
  match r_look l None with
  | AtEnd => (l, key, value, expected)
  | Semicolon => (tl l, key, value, expected)
  | _ => (l, key, value, Some [59]%N)
  end end end.

Lemma suffix_drop p l s : suffix l s -> suffix (drop_while p l) s.
Proof. intros S0. apply (suffix_app (take_while p l)). now rewrite take_drop. Qed.

Lemma consume_loop_is s : forall l fuel, suffix l s -> length l < fuel -> consume_loop fuel s (idx s l) (length s) = Some (idx s (skip l)).
Proof.
  induction l as [|c l IH]; intros fuel S0 L; (destruct fuel as [|fuel]; [cbn in L; lia|]); cbn [consume_loop]; rewrite (idx_end _ _ S0); [reflexivity|].
  rewrite (idx_at _ _ _ S0). unfold skip. cbn [drop_while]. unfold ws at 1. destruct (contains c white_space); [|reflexivity].
  rewrite (idx_next _ _ _ S0). apply IH; [exact (suffix_cons _ _ _ S0)|cbn in L; lia].
Qed.
Lemma consume_is s l : suffix l s -> consume_whitespace s (idx s l) (length s) = Some (idx s (skip l)).
Proof. intros S0. apply consume_loop_is; [exact S0|]. apply suffix_length in S0. lia. Qed.

Lemma token_loop_is s dis : forall l fuel, suffix l s -> length l < fuel -> token_loop fuel s (idx s l) (length s) dis = Some (idx s (drop_while (ok dis) l)).
Proof.
  induction l as [|c l IH]; intros fuel S0 L; (destruct fuel as [|fuel]; [cbn in L; lia|]); cbn [token_loop]; rewrite (idx_end _ _ S0); [reflexivity|].
  rewrite (idx_at _ _ _ S0). cbn [drop_while]. unfold ok at 1. destruct (_ || _); [reflexivity|]. cbn [negb].
  rewrite (idx_next _ _ _ S0). apply IH; [exact (suffix_cons _ _ _ S0)|cbn in L; lia].
Qed.

Lemma slice_is s a l : suffix (a ++ l) s -> slice s (idx s (a ++ l)) (idx s l) = a.
Proof.
  intros [p ->]. rewrite idx_app. unfold slice. rewrite skipn_app, skipn_all, Nat.sub_diag. cbn [skipn app].
  replace (idx (p ++ a ++ l) l) with (length p + length a) by (rewrite app_assoc, idx_app, app_length; reflexivity).
  replace (length p + length a - length p) with (length a) by lia. rewrite firstn_app, firstn_all, Nat.sub_diag. cbn. apply app_nil_r.
Qed.

Lemma parse_token_is s dis l : suffix l s -> parse_token s (idx s l) (length s) dis = let '(l', t) := r_token dis l in Some (idx s l', t).
Proof.
  intros S0. unfold parse_token, r_token. rewrite token_loop_is; [|exact S0|apply suffix_length in S0; lia]. do 2 f_equal.
  pose proof (take_drop (ok dis) l) as E. pose proof (slice_is s (take_while (ok dis) l) (drop_while (ok dis) l)) as SL. rewrite E in SL. specialize (SL S0).
  pose proof (suffix_length _ _ S0) as LS. rewrite <- E in LS. unfold idx at 1 2. rewrite <- E at 2. rewrite app_length in *.
  destruct (take_while (ok dis) l) as [|c t] eqn:T.
  - replace (_ <=? _) with true; [reflexivity|]. symmetry. apply Nat.leb_le. cbn [length]. lia.
  - replace (_ <=? _) with false; [now rewrite SL|]. symmetry. apply Nat.leb_gt. cbn [length] in *. lia.
Qed.

Lemma spaced_is s dis l : suffix l s -> parse_token_spaced s (idx s l) (length s) dis = (let '(l', t) := r_spaced dis l in Some (idx s l', t)) /\ suffix (fst (r_spaced dis l)) s.
Proof.
  intros S0. unfold parse_token_spaced, r_spaced. rewrite consume_is by exact S0. assert (S1 : suffix (skip l) s) by now apply suffix_drop.
  rewrite parse_token_is by exact S1. unfold r_token. assert (S2 : suffix (drop_while (ok dis) (skip l)) s) by now apply suffix_drop.
  rewrite consume_is by exact S2. split; [reflexivity|]. now apply suffix_drop.
Qed.

Lemma quoted_loop_is s : forall l fuel acc esc, suffix l s -> length l < fuel ->
  quoted_loop fuel s (idx s l) (length s) acc esc = (let '(l', t, e) := r_quoted l acc esc in Some (idx s l', t, e)) /\ suffix (fst (fst (r_quoted l acc esc))) s.
Proof.
  induction l as [|c l IH]; intros fuel acc esc S0 L; (destruct fuel as [|fuel]; [cbn in L; lia|]); cbn [quoted_loop r_quoted]; rewrite (idx_end _ _ S0); [split; [reflexivity|exact S0]|].
  rewrite (idx_at _ _ _ S0), (idx_next _ _ _ S0). pose proof (suffix_cons _ _ _ S0) as S1. cbn in L. assert (L1 : length l < fuel) by lia. cbv zeta.
  destruct esc; [now apply IH|]. destruct (N.eqb c 34); [split; [reflexivity|exact S1]|]. destruct (N.eqb c 92); now apply IH.
Qed.

Lemma value_is s l : suffix l s -> parse_value s (idx s l) (length s) = (let '(l', t, e) := r_value l in Some (idx s l', t, e)) /\ suffix (fst (fst (r_value l))) s.
Proof.
  intros S0. unfold parse_value, r_value. rewrite consume_is by exact S0. assert (S1 : suffix (skip l) s) by now apply suffix_drop. cbv zeta. rewrite (idx_more _ _ S1).
  destruct (skip l) as [|c l1].
  - rewrite consume_is by exact S1. split; [reflexivity|]. now apply suffix_drop.
  - rewrite (idx_at _ _ _ S1). destruct (N.eqb c 34).
    + rewrite (idx_next _ _ _ S1). pose proof (suffix_cons _ _ _ S1) as S2. destruct (quoted_loop_is s l1 (S (length s)) None false S2) as [E S3]; [apply suffix_length in S2; lia|].
      unfold parse_quoted. rewrite E. destruct (r_quoted l1 None false) as [[l2 t] e]. cbn [fst] in S3. rewrite consume_is by exact S3. split; [reflexivity|]. now apply suffix_drop.
    + rewrite parse_token_is by exact S1. unfold r_token. assert (S2 : suffix (drop_while (ok []) (c :: l1)) s) by now apply suffix_drop.
      rewrite consume_is by exact S2. split; [reflexivity|]. now apply suffix_drop.
Qed.

Lemma look_is s l more : suffix l s -> look s (idx s l) (length s) more = Some (r_look l more).
Proof. intros S0. unfold look. rewrite (idx_end _ _ S0). destruct l as [|c l]; [reflexivity|]. now rewrite (idx_at _ _ _ S0). Qed.

Lemma look_cons l more : r_look l more <> AtEnd -> exists c l', l = c :: l'.
Proof. destruct l; [now intros []|eauto]. Qed.

Ltac look s l more S0 :=
  rewrite (look_is s l more S0); destruct (r_look l more) eqn:?; [split; [reflexivity|exact S0]|..];
  let c := fresh "c" in let l' := fresh "l'" in destruct l as [|c l']; [discriminate|]; cbn [tl].

Lemma parameter_is s l : suffix l s -> parse_parameter s (idx s l) (length s) = (let '(l', k, v, e) := r_parameter l in Some (idx s l', k, v, e)) /\ suffix (fst (fst (fst (r_parameter l)))) s.
Proof.
  intros S0. unfold parse_parameter, r_parameter. rewrite (idx_end _ _ S0). destruct l as [|c0 l0]; [split; [reflexivity|exact S0]|]. set (l := c0 :: l0) in *.
  destruct (spaced_is s [59; 61]%N l S0) as [-> S1]. destruct (r_spaced [59; 61]%N l) as [l1 key]. cbn [fst] in S1. look s l1 (Some 61%N) S1.
  - rewrite (idx_next _ _ _ S1). split; [reflexivity|]. exact (suffix_cons _ _ _ S1).
  - rewrite (idx_next _ _ _ S1). pose proof (suffix_cons _ _ _ S1) as S2. destruct (value_is s l' S2) as [-> S3]. destruct (r_value l') as [[l2 v] e]. cbn [fst] in S3.
    look s l2 (@None N) S3; try (split; [reflexivity|exact S3]). rewrite (idx_next _ _ _ S3). split; [reflexivity|]. exact (suffix_cons _ _ _ S3).
  - split; [reflexivity|exact S1].
Qed.

Lemma head_is s l : suffix l s -> parse_head s (idx s l) (length s) = (let '(l', a, b, c, e) := r_head l in Some (idx s l', a, b, c, e)) /\ suffix (fst (fst (fst (fst (r_head l))))) s.
Proof.
  intros S0. unfold parse_head, r_head. rewrite (idx_end _ _ S0). destruct l as [|c0 l0]; [split; [reflexivity|exact S0]|]. set (l := c0 :: l0) in *.
  destruct (spaced_is s [59; 47]%N l S0) as [-> S1]. destruct (r_spaced [59; 47]%N l) as [l1 ty]. cbn [fst] in S1. look s l1 (Some 47%N) S1.
  - rewrite (idx_next _ _ _ S1). split; [reflexivity|]. exact (suffix_cons _ _ _ S1).
  - rewrite (idx_next _ _ _ S1). pose proof (suffix_cons _ _ _ S1) as S2. destruct (spaced_is s [59; 43]%N l' S2) as [-> S3]. destruct (r_spaced [59; 43]%N l') as [l2 sub]. cbn [fst] in S3.
    look s l2 (Some 43%N) S3.
    + rewrite (idx_next _ _ _ S3). split; [reflexivity|]. exact (suffix_cons _ _ _ S3).
    + rewrite (idx_next _ _ _ S3). pose proof (suffix_cons _ _ _ S3) as S4. destruct (spaced_is s [59]%N l'0 S4) as [-> S5]. destruct (r_spaced [59]%N l'0) as [l3 suf]. cbn [fst] in S5.
      look s l3 (@None N) S5; try (split; [reflexivity|exact S5]). rewrite (idx_next _ _ _ S5). split; [reflexivity|]. exact (suffix_cons _ _ _ S5).
    + split; [reflexivity|exact S3].
  - split; [reflexivity|exact S1].
Qed.

(** * Progress *)
Lemma drop_le p l : length (drop_while p l) <= length l.
Proof. pose proof (f_equal (@length N) (take_drop p l)) as E. rewrite app_length in E. lia. Qed.
Lemma spaced_le dis l : length (fst (r_spaced dis l)) <= length l.
Proof. unfold r_spaced, r_token, skip. cbn [fst]. pose proof (drop_le ws l). pose proof (drop_le (ok dis) (drop_while ws l)). pose proof (drop_le ws (drop_while (ok dis) (drop_while ws l))). lia. Qed.
Lemma quoted_le : forall l acc esc, length (fst (fst (r_quoted l acc esc))) <= length l.
Proof.
  induction l as [|c l IH]; intros acc esc; cbn [r_quoted]; [auto|]. cbn [length].
  destruct esc; [eapply Nat.le_trans; [apply IH|lia]|]. destruct (N.eqb c 34); [cbn; lia|]. destruct (N.eqb c 92); (eapply Nat.le_trans; [apply IH|lia]).
Qed.
Lemma value_le l : length (fst (fst (r_value l))) <= length l.
Proof.
  unfold r_value. pose proof (drop_le ws l) as D. fold (skip l) in D. destruct (skip l) as [|c l1]; [cbn; lia|]. cbn [length] in D. destruct (N.eqb c 34).
  - pose proof (quoted_le l1 None false). destruct (r_quoted l1 None false) as [[l2 t] e]. cbn [fst] in *. unfold skip. pose proof (drop_le ws l2). lia.
  - unfold r_token. cbn [fst]. unfold skip. pose proof (drop_le (ok []) (c :: l1)) as D2. cbn [length] in D2. pose proof (drop_le ws (drop_while (ok []) (c :: l1))). lia.
Qed.
Lemma parameter_lt l : l <> [] -> let '(l', _, _, e) := r_parameter l in e <> None \/ l' = [] \/ length l' < length l.
Proof.
  intros NE. destruct l as [|c0 l0]; [congruence|]. unfold r_parameter. set (l := c0 :: l0) in *. pose proof (spaced_le [59; 61]%N l) as SL. destruct (r_spaced [59; 61]%N l) as [l1 key]. cbn [fst] in SL.
  destruct l1 as [|c l1]; [now right; left|]. cbn [r_look tl length] in *. destruct (N.eqb c 59); [right; right; lia|]. destruct (N.eqb c 61); [|left; discriminate].
  pose proof (value_le l1) as VL. destruct (r_value l1) as [[l2 v] e]. cbn [fst] in VL. destruct l2 as [|c2 l2]; [now right; left|]. cbn [r_look tl length] in *.
  destruct (N.eqb c2 59); [right; right; lia|]. left. discriminate.
Qed.

Section Fold.
Variable casefold : str -> str.
Notation parameter_loop := (parameter_loop casefold).
Notation parse_content_type := (parse_content_type casefold).
Notation add_item := (add_item casefold).

Fixpoint r_parameters (fuel : nat) (l : str) (ps : list (str * str)) : option (str * list (str * str) * option str) :=
  match fuel with
  | 0 => None
  | S fuel => let '(l', k, v, e) := r_parameter l in let ps := add_item k v ps in
      match e with Some _ => Some (l', ps, e) | None => match l' with [] => Some (l', ps, None) | _ => r_parameters fuel l' ps end end
  end.

Lemma parameters_is s : forall fuel l ps, suffix l s -> parameter_loop fuel s (idx s l) (length s) ps = match r_parameters fuel l ps with None => None | Some (l', q, e) => Some (idx s l', q, e) end.
Proof.
  induction fuel as [|fuel IH]; intros l ps S0; [reflexivity|]. cbn [ContentTypeModel.parameter_loop r_parameters]. destruct (parameter_is s l S0) as [-> S1].
  destruct (r_parameter l) as [[[l1 k] v] e]. cbn [fst] in S1. destruct e; [reflexivity|]. rewrite (idx_end _ _ S1). destruct l1; [reflexivity|]. now apply IH.
Qed.

Lemma parameters_some : forall fuel l ps, l <> [] -> length l < fuel -> r_parameters fuel l ps <> None.
Proof.
  induction fuel as [|fuel IH]; intros l ps NE L; [lia|]. cbn [r_parameters]. pose proof (parameter_lt l NE) as P. destruct (r_parameter l) as [[[l1 k] v] e].
  destruct e; [discriminate|]. destruct l1 as [|c l1]; [discriminate|]. destruct P as [P|[P|P]]; [congruence|discriminate|]. apply IH; [discriminate|lia].
Qed.

Lemma parameters_more : forall fuel fuel' l ps r, r_parameters fuel l ps = Some r -> fuel <= fuel' -> r_parameters fuel' l ps = Some r.
Proof.
  induction fuel as [|fuel IH]; intros fuel' l ps r; [discriminate|]. destruct fuel' as [|fuel']; [lia|]. cbn [r_parameters]. destruct (r_parameter l) as [[[l1 k] v] e].
  destruct e; [auto|]. destruct l1; [auto|]. intros E L. apply (IH fuel'); [exact E|lia].
Qed.

(** The whole parser on what is left *)
Lemma parse_is s : s <> [] -> exists l ty sub suf e, r_head s = (l, ty, sub, suf, e) /\ suffix l s /\
  let sub' := match option_map casefold ty, option_map casefold sub with Some [42%N], None => Some [42%N] | _, _ => option_map casefold sub end in
  exists l' ps e', parse_content_type s = Some {| c_type := option_map casefold ty; c_sub := sub'; c_suffix := option_map casefold suf; c_parameters := ps; c_error := option_map (fun x => (idx s l', x)) e' |} /\
    suffix l' s /\
    match e, l with
    | Some _, _ | None, [] => l' = l /\ ps = [] /\ e' = e
    | None, _ => r_parameters (S (length s)) l [] = Some (l', ps, e')
    end.
Proof.
  intros NE. destruct (head_is s s (suffix_refl s)) as [HE S1]. replace (idx s s) with 0 in HE by (unfold idx; lia). destruct (r_head s) as [[[[l ty] sub] suf] e]. cbn [fst] in S1.
  exists l, ty, sub, suf, e. split; [reflexivity|]. split; [exact S1|]. cbv zeta. unfold ContentTypeModel.parse_content_type. destruct s as [|c0 s0]; [congruence|]. set (s := c0 :: s0) in *. rewrite HE. cbv zeta.
  destruct e as [e|].
  - exists l, [], (Some e). repeat split; auto.
  - rewrite (idx_more _ _ S1). destruct l as [|c l1]; [exists [], [], None; repeat split; auto|]. set (l := c :: l1) in *. rewrite parameters_is by exact S1.
    destruct (r_parameters (S (length s)) l []) as [[[l' ps] e']|] eqn:R.
    + exists l', ps, e'. split; [reflexivity|]. split; [|reflexivity]. clear - R S1. revert R S1. generalize (S (length s)) l (@nil (str * str)). clear l.
      induction n as [|n IH]; intros l q; [discriminate|]. cbn [r_parameters]. intros R S1. destruct (parameter_is s l S1) as [_ S2]. destruct (r_parameter l) as [[[l2 k] v] e]. cbn [fst] in S2.
      destruct e; [injection R as <- <- <-; exact S2|]. destruct l2; [injection R as <- <- <-; exact S2|]. now apply (IH _ _ R).
    + exfalso. revert R. apply parameters_some; [discriminate|]. apply suffix_length in S1. lia.
Qed.
End Fold.

(** * Where an error is *)
Definition located (l : str) (x : option str) : Prop := match x with None => True | Some x => (l = [] /\ x = [34%N]) \/ exists c r, l = c :: r /\ ~ In c x end.

Lemma quoted_located : forall l acc esc, let '(l', _, e) := r_quoted l acc esc in e <> None -> l' = [] /\ e = Some [34%N].
Proof.
  induction l as [|c l IH]; intros acc esc; cbn [r_quoted]; [auto|]. destruct esc; [apply IH|]. destruct (N.eqb c 34); [congruence|]. destruct (N.eqb c 92); apply IH.
Qed.
Lemma value_located l : let '(l', _, e) := r_value l in e <> None -> l' = [] /\ e = Some [34%N].
Proof.
  unfold r_value. destruct (skip l) as [|c l1]; [cbn; congruence|]. destruct (N.eqb c 34); [|cbn; congruence].
  pose proof (quoted_located l1 None false) as Q. destruct (r_quoted l1 None false) as [[l2 t] e]. intros E. destruct (Q E) as [-> ->]. auto.
Qed.

Lemma not_in2 c a b : N.eqb c a = false -> N.eqb c b = false -> ~ In c [a; b].
Proof. intros A B [<-|[<-|[]]]; [now rewrite N.eqb_refl in A|now rewrite N.eqb_refl in B]. Qed.
Lemma not_in1 c a : N.eqb c a = false -> ~ In c [a].
Proof. intros A [<-|[]]. now rewrite N.eqb_refl in A. Qed.

Lemma parameter_located l : let '(l', _, _, e) := r_parameter l in located l' e.
Proof.
  unfold r_parameter. destruct l as [|c0 l0]; [exact Logic.I|]. set (l := c0 :: l0). destruct (r_spaced [59; 61]%N l) as [l1 key]. destruct l1 as [|c l1]; [exact Logic.I|]. cbn [r_look tl].
  destruct (N.eqb c 59) eqn:E1; [exact Logic.I|]. destruct (N.eqb c 61) eqn:E2; [|right; exists c, l1; split; [reflexivity|now apply not_in2]].
  pose proof (value_located l1) as V. destruct (r_value l1) as [[l2 v] e]. destruct l2 as [|c2 l2]; cbn [r_look tl].
  - destruct e as [e|]; [|exact Logic.I]. destruct V as [_ V]; [discriminate|]. injection V as ->. now left.
  - assert (e = None) as -> by (destruct e as [e|]; [|reflexivity]; destruct V as [V _]; [discriminate|discriminate V]). destruct (N.eqb c2 59) eqn:E3; [exact Logic.I|].
    right. exists c2, l2. split; [reflexivity|now apply not_in1].
Qed.

Lemma head_located l : let '(l', _, _, _, e) := r_head l in located l' e.
Proof.
  unfold r_head. destruct l as [|c0 l0]; [exact Logic.I|]. set (l := c0 :: l0). destruct (r_spaced [59; 47]%N l) as [l1 ty]. destruct l1 as [|c l1]; [exact Logic.I|]. cbn [r_look tl].
  destruct (N.eqb c 59) eqn:E1; [exact Logic.I|]. destruct (N.eqb c 47) eqn:E2; [|right; exists c, l1; split; [reflexivity|now apply not_in2]].
  destruct (r_spaced [59; 43]%N l1) as [l2 sub]. destruct l2 as [|c2 l2]; [exact Logic.I|]. cbn [r_look tl].
  destruct (N.eqb c2 59) eqn:E3; [exact Logic.I|]. destruct (N.eqb c2 43) eqn:E4; [|right; exists c2, l2; split; [reflexivity|now apply not_in2]].
  destruct (r_spaced [59]%N l2) as [l3 suf]. destruct l3 as [|c3 l3]; [exact Logic.I|]. cbn [r_look tl].
  destruct (N.eqb c3 59) eqn:E5; [exact Logic.I|]. right. exists c3, l3. split; [reflexivity|now apply not_in1].
Qed.

Lemma parameters_located cf : forall fuel l ps l' q e, r_parameters cf fuel l ps = Some (l', q, e) -> located l' e.
Proof.
  induction fuel as [|fuel IH]; intros l ps l' q e; [discriminate|]. cbn [r_parameters]. pose proof (parameter_located l) as P. destruct (r_parameter l) as [[[l1 k] v] x].
  destruct x; [intros [= <- <- <-]; exact P|]. destruct l1; [intros [= <- <- <-]; exact Logic.I|]. apply IH.
Qed.

Lemma total cf s : exists r, parse_content_type cf s = Some r.
Proof.
  destruct s as [|c s]; [eexists; reflexivity|]. destruct (parse_is cf (c :: s)) as (l & ty & sub & suf & e & _ & _ & l' & ps & e' & E & _); [discriminate|]. eexists. exact E.
Qed.

Lemma error_located cf s r i x : parse_content_type cf s = Some r -> c_error r = Some (i, x) ->
  (i = length s /\ x = [34%N]) \/ exists c, nth_error s i = Some c /\ ~ In c x.
Proof.
  destruct s as [|c0 s0]; [intros [= <-]; discriminate|]. set (s := c0 :: s0). destruct (parse_is cf s) as (l & ty & sub & suf & e & HR & SL & l' & ps & e' & E & SF & M); [discriminate|].
  rewrite E. intros [= <-]. cbn [c_error]. destruct e' as [x'|]; [|discriminate]. intros [= <- <-].
  assert (L : located l' (Some x')).
  { pose proof (head_located s) as HL. rewrite HR in HL. destruct e as [e|]; [destruct M as (-> & _ & ->); exact HL|]. destruct l; [destruct M as (_ & _ & M); discriminate|].
    exact (parameters_located cf _ _ _ _ _ _ M). }
  destruct L as [[-> ->]|(c & r0 & -> & NI)]; [left; split; [unfold idx; cbn; lia|reflexivity]|]. right. exists c. split; [now apply idx_at|exact NI].
Qed.

(** * Round trip *)
Lemma contains_In c l : contains c l = true <-> In c l.
Proof. unfold contains. rewrite existsb_exists. split; [intros (x & A & B); apply N.eqb_eq in B; now subst|intros J; exists c; split; [exact J|apply N.eqb_refl]]. Qed.
Lemma contains_not c l : contains c l = false <-> ~ In c l.
Proof. rewrite <- contains_In. destruct (contains c l); split; congruence. Qed.

Lemma token_char_ok dis c : ContentTypeSpec.token_char c -> ~ In c dis -> ok dis c = true.
Proof.
  intros (A & B & C) D. unfold ok. apply contains_not in D. rewrite D. assert (contains c white_space = false) as -> by (apply contains_not; cbn; intuition congruence).
  assert (contains c delimiters = false) as -> by (apply contains_not; intros J; apply C; cbn in *; tauto). reflexivity.
Qed.
Lemma token_char_ws c : ContentTypeSpec.token_char c -> ws c = false.
Proof. intros (A & B & C). apply contains_not. cbn. intuition congruence. Qed.
Lemma ok_ws dis c : ws c = true -> ok dis c = false.
Proof. unfold ws, ok. intros ->. now rewrite orb_true_r. Qed.

(** The next character ends a token. *)
Definition stops (dis l : str) : Prop := match l with [] => True | c :: _ => ws c = false /\ ok dis c = false end.

Lemma skip_blank w l : ContentTypeSpec.blank w -> match l with [] => True | c :: _ => ws c = false end -> skip (w ++ l) = l.
Proof. intros B H. apply drop_while_app; [|exact H]. eapply Forall_impl; [|exact B]. intros c [-> | ->]; reflexivity. Qed.

Lemma token_then dis t b l : ContentTypeSpec.token t -> (forall c, In c dis -> ~ In c t) -> ContentTypeSpec.blank b -> stops dis l -> r_token dis (t ++ b ++ l) = (b ++ l, Some t).
Proof.
  intros [NE TC] D B S0. assert (F : Forall (fun c => ok dis c = true) t).
  { rewrite Forall_forall in *. intros c J. apply token_char_ok; [now apply TC|]. intros K. now apply (D c). }
  assert (H : match b ++ l with [] => True | c :: _ => ok dis c = false end).
  { destruct b as [|c b]; [destruct l; [exact Logic.I|apply S0]|]. inversion B; subst. cbn. apply ok_ws. destruct H1 as [-> | ->]; reflexivity. }
  unfold r_token. rewrite (drop_while_app _ _ _ F H), (take_while_app _ _ _ F H). destruct t; [congruence|reflexivity].
Qed.

Lemma spaced_then dis a t b l : ContentTypeSpec.blank a -> ContentTypeSpec.token t -> (forall c, In c dis -> ~ In c t) -> ContentTypeSpec.blank b -> stops dis l -> r_spaced dis (a ++ t ++ b ++ l) = (l, Some t).
Proof.
  intros A T D B S0. unfold r_spaced. rewrite skip_blank; [|exact A|].
  - rewrite token_then by assumption. f_equal. apply skip_blank; [exact B|]. destruct l; [exact Logic.I|apply S0].
  - destruct T as [NE TC]. destruct t as [|c t]; [congruence|]. inversion TC; subst. now apply token_char_ws.
Qed.

Definition extend (acc : option str) (v : str) : option str := match acc, v with None, [] => None | None, _ => Some v | Some a, _ => Some (a ++ v) end.
Lemma extend_push acc c v : extend (push acc c) v = extend acc (c :: v).
Proof. destruct acc as [a|]; cbn; [now rewrite <- app_assoc|reflexivity]. Qed.

Lemma quoted_then : forall v acc l, r_quoted (flat_map ContentTypeSpec.escape v ++ 34%N :: l) acc false = (l, extend acc v, None).
Proof.
  induction v as [|c v IH]; intros acc l; [destruct acc; cbn; [now rewrite app_nil_r|reflexivity]|]. cbn [flat_map]. rewrite <- app_assoc, <- extend_push. unfold ContentTypeSpec.escape at 1.
  destruct (N.eqb c 34) eqn:E1; [apply N.eqb_eq in E1 as ->; cbn; apply IH|]. destruct (N.eqb c 92) eqn:E2; [apply N.eqb_eq in E2 as ->; cbn; apply IH|].
  cbn [orb app r_quoted]. rewrite E1, E2. apply IH.
Qed.

Lemma value_then v t c d l : ContentTypeSpec.value_text v t -> ContentTypeSpec.blank c -> ContentTypeSpec.blank d -> stops [] l -> exists o, r_value (c ++ t ++ d ++ l) = (l, o, None) /\ match o with None => [] | Some x => x end = v.
Proof.
  intros V C D S0. assert (LW : match l with [] => True | c :: _ => ws c = false end) by (destruct l; [exact Logic.I|apply S0]). unfold r_value. destruct V as [v T|v].
  - rewrite skip_blank; [|exact C|]. 2:{ destruct T as [NE TC]. destruct v; [congruence|]. inversion TC; subst. now apply token_char_ws. }
    pose proof (token_then [] v d l T (fun _ F => match F with end) D S0) as R. destruct v as [|x v]; [now destruct T|]. cbn [app] in *.
    assert (N.eqb x 34 = false) as ->.
    { apply N.eqb_neq. intros ->. destruct T as [_ TC]. inversion TC; subst. destruct H1 as (_ & _ & H1). apply H1. cbn. tauto. }
    rewrite R. exists (Some (x :: v)). split; [|reflexivity]. now rewrite skip_blank.
  - rewrite skip_blank; [|exact C|reflexivity]. unfold ContentTypeSpec.quoted. cbn [app]. rewrite <- app_assoc. cbn [app N.eqb Pos.eqb]. rewrite quoted_then. exists (extend None v).
    split; [now rewrite skip_blank|]. now destruct v.
Qed.

(** What comes after a parameter *)
Definition next (ts : str) : Prop := match ts with [] => True | c :: _ => c = 59%N end.
Lemma next_stops dis ts : next ts -> stops dis ts.
Proof. destruct ts as [|c ts]; [auto|]. intros ->. split; [reflexivity|]. unfold ok. cbn. now rewrite orb_true_r. Qed.

Lemma mark_not_in c t : ContentTypeSpec.token t -> In c ContentTypeSpec.marks -> ~ In c t.
Proof. intros [_ TC] M J. rewrite Forall_forall in TC. destruct (TC c J) as (_ & _ & X). now apply X. Qed.
Lemma marks_not_in dis t : ContentTypeSpec.token t -> (forall c, In c dis -> In c ContentTypeSpec.marks) -> forall c, In c dis -> ~ In c t.
Proof. intros T M c J. apply mark_not_in; auto. Qed.

Lemma parameter_then k v t ts : ContentTypeSpec.parameter_text (k, v) t -> next ts -> t ++ ts <> [] /\ exists o, r_parameter (t ++ ts) = (tl ts, Some k, o, None) /\ match o with None => [] | Some x => x end = v.
Proof.
  intros P NX. inversion P as [k' v' t' a b c d TK VT A B C D EK ET]; subst. repeat rewrite <- app_assoc.
  destruct (value_then v t' c d ts VT C D (next_stops _ _ NX)) as (o & RV & OV).
  assert (NE : a ++ k ++ b ++ [61%N] ++ c ++ t' ++ d ++ ts <> []) by (destruct a; [|discriminate]; destruct TK as [NE _]; destruct k; [congruence|discriminate]).
  split; [exact NE|]. exists o. split; [|exact OV]. unfold r_parameter. destruct (a ++ k ++ b ++ [61%N] ++ c ++ t' ++ d ++ ts) as [|c0 l0] eqn:EL; [congruence|]. rewrite <- EL. clear NE EL c0 l0.
  rewrite (spaced_then [59; 61]%N a k b ([61%N] ++ c ++ t' ++ d ++ ts) A TK); [|apply marks_not_in; [exact TK|]; intros x [<-|[<-|[]]]; cbn; tauto|exact B|split; reflexivity].
  cbn [app r_look N.eqb Pos.eqb tl]. rewrite RV. destruct ts as [|x ts]; [reflexivity|]. cbn in NX. subst x. reflexivity.
Qed.

Lemma add_item_some cf k o ps : add_item cf (Some k) o ps = ps ++ [(cf k, match o with None => [] | Some v => v end)].
Proof. now destruct o. Qed.

Lemma parameters_next ps ts : ContentTypeSpec.parameters_text ps ts -> next ts.
Proof. now destruct 1. Qed.

Lemma parameters_then cf : forall ps ts, ContentTypeSpec.parameters_text ps ts -> forall k v t acc, ContentTypeSpec.parameter_text (k, v) t -> exists fuel,
  r_parameters cf fuel (t ++ ts) acc = Some ([], acc ++ map (fun q => (cf (fst q), snd q)) ((k, v) :: ps), None).
Proof.
  induction 1 as [|[k' v'] t' ps ts P PS IH]; intros k v t acc PT.
  - destruct (parameter_then k v t [] PT Logic.I) as (_ & o & R & O). exists 1. cbn [r_parameters]. rewrite R. cbn [tl map fst snd]. now rewrite add_item_some, O.
  - destruct (parameter_then k v t (59%N :: t' ++ ts) PT eq_refl) as (_ & o & R & O). destruct (IH k' v' t' (acc ++ [(cf k, v)]) P) as [fuel F].
    exists (S fuel). cbn [r_parameters]. rewrite R. cbn [tl]. rewrite add_item_some, O. destruct (parameter_then k' v' t' ts P (parameters_next _ _ PS)) as [NE _].
    destruct (t' ++ ts) as [|x l] eqn:E; [congruence|]. refine (eq_trans F _). cbn [map]. now rewrite <- app_assoc.
Qed.

Lemma head_then ty sub suf t ts : ContentTypeSpec.head_text ty sub suf t -> next ts -> t ++ ts <> [] /\ r_head (t ++ ts) = (tl ts, Some ty, Some sub, suf, None).
Proof.
  intros HT NX. destruct HT as [ty sub a b c d T1 T2 NP A B C D|ty sub suf a b c d e f T1 T2 T3 NP A B C D E F].
  - repeat rewrite <- app_assoc.
    assert (NE : a ++ ty ++ b ++ [47%N] ++ c ++ sub ++ d ++ ts <> []) by (destruct a; [|discriminate]; destruct T1 as [NE _]; destruct ty; [congruence|discriminate]).
    split; [exact NE|]. unfold r_head. destruct (a ++ ty ++ b ++ [47%N] ++ c ++ sub ++ d ++ ts) as [|c0 l0] eqn:EL; [congruence|]. rewrite <- EL. clear NE EL c0 l0.
    rewrite (spaced_then [59; 47]%N a ty b ([47%N] ++ c ++ sub ++ d ++ ts) A T1); [|apply marks_not_in; [exact T1|]; intros x [<-|[<-|[]]]; cbn; tauto|exact B|split; reflexivity].
    cbn [app r_look N.eqb Pos.eqb tl]. rewrite (spaced_then [59; 43]%N c sub d ts C T2); [| |exact D|now apply next_stops].
    2:{ intros x [<-|[<-|[]]]; [apply mark_not_in; [exact T2|cbn; tauto]|exact NP]. }
    destruct ts as [|x ts]; [reflexivity|]. cbn in NX. subst x. reflexivity.
  - repeat rewrite <- app_assoc.
    assert (NE : a ++ ty ++ b ++ [47%N] ++ c ++ sub ++ d ++ [43%N] ++ e ++ suf ++ f ++ ts <> []) by (destruct a; [|discriminate]; destruct T1 as [NE _]; destruct ty; [congruence|discriminate]).
    split; [exact NE|]. unfold r_head. destruct (a ++ ty ++ b ++ [47%N] ++ c ++ sub ++ d ++ [43%N] ++ e ++ suf ++ f ++ ts) as [|c0 l0] eqn:EL; [congruence|]. rewrite <- EL. clear NE EL c0 l0.
    rewrite (spaced_then [59; 47]%N a ty b ([47%N] ++ c ++ sub ++ d ++ [43%N] ++ e ++ suf ++ f ++ ts) A T1);
      [|apply marks_not_in; [exact T1|]; intros x [<-|[<-|[]]]; cbn; tauto|exact B|split; reflexivity].
    cbn [app r_look N.eqb Pos.eqb tl]. rewrite (spaced_then [59; 43]%N c sub d (43%N :: e ++ suf ++ f ++ ts) C T2); [| |exact D|split; reflexivity].
    2:{ intros x [<-|[<-|[]]]; [apply mark_not_in; [exact T2|cbn; tauto]|exact NP]. }
    cbn [app r_look N.eqb Pos.eqb tl]. rewrite (spaced_then [59]%N e suf f ts E T3); [| |exact F|now apply next_stops].
    2:{ intros x [<-|[]]. apply mark_not_in; [exact T3|cbn; tauto]. }
    destruct ts as [|x ts]; [reflexivity|]. cbn in NX. subst x. reflexivity.
Qed.

Lemma round_trip cf ty sub suf t ps ts : ContentTypeSpec.head_text ty sub suf t -> ContentTypeSpec.parameters_text ps ts ->
  parse_content_type cf (t ++ ts) = Some {| c_type := Some (cf ty); c_sub := Some (cf sub); c_suffix := option_map cf suf; c_parameters := map (fun q => (cf (fst q), snd q)) ps; c_error := None |}.
Proof.
  intros HT PT. destruct (head_then ty sub suf t ts HT (parameters_next _ _ PT)) as [NE HE].
  destruct (parse_is cf (t ++ ts) NE) as (l & ty' & sub' & suf' & e & HR & SL & l' & qs & e' & E & _ & M). rewrite HE in HR. injection HR as <- <- <- <- <-. rewrite E. cbn [option_map].
  replace (match cf ty with [42%N] => Some (cf sub) | _ => Some (cf sub) end) with (Some (cf sub)).
  2:{ destruct (cf ty) as [|[|p] r]; [reflexivity|reflexivity|]. repeat (destruct p as [p|p|]; try reflexivity). now destruct r. }
  destruct PT as [|[k v] t1 ps ts P PS]; cbn [tl] in M.
  - destruct M as (_ & -> & ->). reflexivity.
  - destruct (parameter_then k v t1 ts P (parameters_next _ _ PS)) as [NE1 _]. destruct (t1 ++ ts) as [|x r] eqn:ET; [congruence|]. rewrite <- ET in M.
    destruct (parameters_then cf ps ts PS k v t1 [] P) as [fuel F].
    assert (EQ : Some ([] : str, [] ++ map (fun q => (cf (fst q), snd q)) ((k, v) :: ps), @None str) = Some (l', qs, e')).
    { refine (eq_trans (eq_sym (parameters_more cf _ (Nat.max fuel (S (length (t ++ 59%N :: t1 ++ ts)))) _ _ _ F (Nat.le_max_l _ _))) _).
      apply (parameters_more cf (S (length (t ++ 59%N :: t1 ++ ts)))); [|apply Nat.le_max_r]. rewrite ET in *. exact M. }
    injection EQ as <- <- <-. reflexivity.
Qed.
