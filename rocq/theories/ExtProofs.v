From Coq Require Import String List Arith Bool NArith Lia.
From Verif Require Import Bytes Text HeadSpec ExtModel ExtSpec.
Import ListNotations.

Definition st (p : N -> bool) (l : list N) : Prop := match l with [] => True | c :: _ => p c = false end.

Lemma tokenb_iff c : tokenb c = true <-> token_char c.
Proof.
  unfold tokenb, token_char. rewrite orb_true_iff, !orb_true_iff, !andb_true_iff, !N.leb_le, existsb_exists.
  split.
  - intros [H|(x & Hx & E)]; [left; lia|]. apply N.eqb_eq in E. subst. right. cbn in *. tauto.
  - intros [H|H]; [left; lia|]. right. exists c. split; [cbn in *; tauto|apply N.eqb_refl].
Qed.
Lemma token_all k : token k -> k <> [] /\ Forall (fun c => tokenb c = true) k.
Proof. intros [H1 H2]. split; [exact H1|]. eapply Forall_impl; [|exact H2]. intros c. apply tokenb_iff. Qed.

Lemma blanks_all w : blanks w -> Forall (fun c => spaceb c = true) w.
Proof. apply Forall_impl. intros c [-> | ->]; reflexivity. Qed.
Lemma lead_all w : lead w -> Forall (fun c => list_start c = true) w.
Proof. apply Forall_impl. intros c [-> |[-> | ->]]; reflexivity. Qed.

Lemma spaces_off w l : blanks w -> st spaceb l -> drop_while spaceb (w ++ l) = l.
Proof. intros Hw Hl. apply drop_while_app; [apply blanks_all; exact Hw|exact Hl]. Qed.
Lemma lead_off w l : lead w -> st list_start l -> drop_while list_start (w ++ l) = l.
Proof. intros Hw Hl. apply drop_while_app; [apply lead_all; exact Hw|exact Hl]. Qed.

Lemma match_token_ok k l : token k -> st tokenb l -> match_token (k ++ l) = Some (k, l).
Proof.
  intros Hk Hl. apply token_all in Hk. destruct Hk as [Hn Hk]. unfold match_token.
  rewrite take_while_app, drop_while_app by assumption. destruct k; [congruence|reflexivity].
Qed.

Lemma tokenb_range c : tokenb c = true -> (32 < c)%N /\ c <> 44%N /\ c <> 34%N /\ c <> 47%N.
Proof.
  intros H. apply tokenb_iff in H. unfold token_char in H. cbn in H.
  intuition (subst; (lia || discriminate)).
Qed.
Lemma token_st_space k l : token k -> st spaceb (k ++ l).
Proof.
  intros Hk. apply token_all in Hk. destruct Hk as [Hn Hk]. destruct k as [|c k]; [congruence|]. inversion Hk as [|? ? Hc _]. subst.
  apply tokenb_range in Hc. cbn [app st spaceb existsb].
  rewrite (proj2 (N.eqb_neq c 9)) by lia. rewrite (proj2 (N.eqb_neq c 32)) by lia. reflexivity.
Qed.
Lemma token_st_lead k l : token k -> st list_start (k ++ l).
Proof.
  intros Hk. apply token_all in Hk. destruct Hk as [Hn Hk]. destruct k as [|c k]; [congruence|]. inversion Hk as [|? ? Hc _]. subst.
  apply tokenb_range in Hc. cbn [app st list_start existsb].
  rewrite (proj2 (N.eqb_neq c 9)) by lia. rewrite (proj2 (N.eqb_neq c 32)) by lia. rewrite (proj2 (N.eqb_neq c 44)) by lia. reflexivity.
Qed.
Lemma blanks_st_token w l : blanks w -> st tokenb l -> st tokenb (w ++ l).
Proof. intros Hw Hl. destruct w as [|c w]; [exact Hl|]. inversion Hw as [|? ? Hc _]. subst. cbn. destruct Hc as [-> | ->]; reflexivity. Qed.

Lemma token_cons k l : token k -> exists c r, k ++ l = c :: r /\ (32 < c)%N /\ c <> 44%N /\ c <> 34%N.
Proof.
  intros Hk. apply token_all in Hk. destruct Hk as [Hn Hk]. destruct k as [|c k]; [congruence|]. inversion Hk as [|? ? Hc _]. subst.
  apply tokenb_range in Hc. exists c, (k ++ l). split; [reflexivity|]. lia.
Qed.

(** A match on a list which does not start with the given character. *)
Lemma match34 {A} c (l : list N) (a : list N -> A) (b : A) : c <> 34%N -> match c with 34%N => a l | _ => b end = b.
Proof.
  intros H. destruct c as [|p]; [reflexivity|].
  do 6 (destruct p as [p|p|]; try reflexivity). congruence.
Qed.

Definition tail (l : list N) : Prop := match l with [] => True | c :: _ => c = 44%N end.
Lemma tail_st l : tail l -> st spaceb l /\ st tokenb l.
Proof. destruct l as [|c l]; [split; exact I|]. cbn. intros ->. split; reflexivity. Qed.

(** What parse_parameters gives before a tail. *)
Definition leave (check : bool) (l : list N) : option (list N) :=
  match l with [] => if check then None else Some [] | _ :: l' => Some l' end.

Lemma params_st ps r t : parameters_text ps r -> tail t -> st tokenb (r ++ t).
Proof.
  intros H Ht. destruct H.
  - apply blanks_st_token; [assumption|apply tail_st; assumption].
  - rewrite <- app_assoc. apply blanks_st_token; [assumption|reflexivity].
Qed.

Lemma params_length ps r : parameters_text ps r -> List.length ps <= List.length r.
Proof.
  induction 1 as [|p ps w1 w2 t r _ _ _ _ IH]; cbn [List.length]; [lia|]. rewrite !app_length. cbn [List.length]. lia.
Qed.

Lemma parse_value_plain w v l : blanks w -> token v -> st tokenb l -> parse_value (w ++ v ++ l) = Some (v, l).
Proof.
  intros Hw Hv Hl. unfold parse_value. rewrite spaces_off by (assumption || apply token_st_space; assumption).
  destruct (token_cons v l Hv) as (c & r & E & H1 & H2 & H3). rewrite <- (match_token_ok v l Hv Hl). rewrite E.
  destruct c as [|p]; [reflexivity|]. do 6 (destruct p as [p|p|]; try reflexivity). congruence.
Qed.
Lemma parse_value_quoted w v l : blanks w -> token v -> parse_value (w ++ [34%N] ++ v ++ [34%N] ++ l) = Some (v, l).
Proof.
  intros Hw Hv. unfold parse_value. rewrite spaces_off by (assumption || reflexivity). cbn [app].
  rewrite match_token_ok by (assumption || reflexivity). reflexivity.
Qed.

Lemma parse_parameters_ok : forall ps r, parameters_text ps r -> forall t fuel, tail t -> List.length ps < fuel ->
  exists o, parse_parameters fuel true (r ++ t) = Some (ps, o) /\
            match t with [] => o = None \/ o = Some [] | _ :: t' => o = Some t' end.
Proof.
  intros ps. remember (List.length ps) as n eqn:En. revert ps En.
  induction n as [n IHn] using lt_wf_ind. intros ps -> r H t fuel Ht Hf.
  destruct fuel as [|fuel]; [lia|]. destruct H as [w Hw|p ps w1 w2 tx r Hw1 Hw2 Hp Hr].
  - cbn [parse_parameters]. cbv zeta. rewrite spaces_off by (assumption || apply tail_st; assumption).
    destruct t as [|c t]; [exists None; auto|]. cbn in Ht. subst c. eexists. split; [reflexivity|reflexivity].
  - cbn [parse_parameters]. cbv zeta. rewrite <- !app_assoc. rewrite spaces_off by (assumption || reflexivity). cbn [app].
    assert (Hrec : forall fuel', List.length ps < fuel' -> exists o, parse_parameters fuel' true (r ++ t) = Some (ps, o) /\
               match t with [] => o = None \/ o = Some [] | _ :: t' => o = Some t' end).
    { intros fuel' Hf'. apply (IHn (List.length ps)); [cbn [List.length]; lia|reflexivity|assumption|assumption|assumption]. }
    inversion Hp as [k Hk|k v v1 v2 Hk Hv Hv1 Hv2|k v v1 v2 Hk Hv Hv1 Hv2]; subst.
    + rewrite spaces_off by (assumption || apply token_st_space; assumption).
      destruct (token_cons tx (r ++ t) Hk) as (c & q & E & _). rewrite E. rewrite <- E. clear c q E.
      rewrite match_token_ok by (assumption || eapply params_st; eassumption).
      destruct Hr as [w Hw|p' ps' w1' w2' tx' r' Hw1' Hw2' Hp' Hr'].
      * rewrite spaces_off by (assumption || apply tail_st; assumption).
        destruct t as [|c t]; [eexists; split; [reflexivity|auto]|]. cbn in Ht. subst c. eexists. split; reflexivity.
      * rewrite <- !app_assoc. rewrite spaces_off by (assumption || reflexivity). cbn [app].
        (* check_start = False is the same as starting at the ';' *)
        destruct (Hrec fuel) as (o & Eo & Ho); [cbn [List.length] in *; lia|].
        exists o. split; [|exact Ho]. destruct fuel as [|fuel]; [cbn [List.length] in *; lia|].
        rewrite <- !app_assoc in Eo. cbn [parse_parameters] in Eo. cbv zeta in Eo. rewrite spaces_off in Eo by (assumption || reflexivity).
        cbn [app] in Eo. cbn [parse_parameters]. cbv zeta. rewrite Eo. reflexivity.
    + rewrite <- !app_assoc. rewrite spaces_off by (assumption || apply token_st_space; assumption).
      destruct (token_cons k (v1 ++ [61%N] ++ v2 ++ v ++ r ++ t) Hk) as (c & q & E & _). rewrite E. rewrite <- E. clear c q E.
      rewrite match_token_ok by (assumption || (apply blanks_st_token; [assumption|reflexivity])).
      rewrite spaces_off by (assumption || reflexivity). cbn [app].
      rewrite parse_value_plain by (assumption || eapply params_st; eassumption).
      destruct (Hrec fuel) as (o & Eo & Ho); [cbn [List.length] in *; lia|]. rewrite Eo. exists o. split; [reflexivity|exact Ho].
    + rewrite <- !app_assoc. rewrite spaces_off by (assumption || apply token_st_space; assumption).
      destruct (token_cons k (v1 ++ [61%N] ++ v2 ++ [34%N] ++ v ++ [34%N] ++ r ++ t) Hk) as (c & q & E & _). rewrite E. rewrite <- E. clear c q E.
      rewrite match_token_ok by (assumption || (apply blanks_st_token; [assumption|reflexivity])).
      rewrite spaces_off by (assumption || reflexivity). change ([61%N] ++ v2 ++ [34%N] ++ v ++ [34%N] ++ r ++ t) with (61%N :: v2 ++ [34%N] ++ v ++ [34%N] ++ r ++ t).
      cbv iota beta. rewrite parse_value_quoted by assumption.
      destruct (Hrec fuel) as (o & Eo & Ho); [cbn [List.length] in *; lia|]. rewrite Eo. exists o. split; [reflexivity|exact Ho].
Qed.

Theorem parse_extensions_ok : forall es s, extensions_text es s -> forall fuel, List.length s < fuel -> parse_extensions fuel s = Some es.
Proof.
  induction 1 as [w Hw|w name ps r Hw Hn Hr|w name ps r es s Hw Hn Hr _ IH]; intros fuel Hf; (destruct fuel as [|fuel]; [lia|]); cbn [parse_extensions].
  - rewrite <- (app_nil_r w), lead_off by (assumption || exact I). reflexivity.
  - rewrite lead_off by (assumption || apply token_st_lead; assumption).
    destruct (token_cons name r Hn) as (c & q & E & _). rewrite E. rewrite <- E.
    rewrite match_token_ok; [|assumption|rewrite <- (app_nil_r r); eapply params_st; [eassumption|exact I]].
    destruct (parse_parameters_ok ps r Hr [] (S (List.length r)) I) as (o & Eo & Ho).
    { apply params_length in Hr. lia. }
    rewrite app_nil_r in Eo. rewrite Eo. destruct Ho as [-> | ->]; [reflexivity|].
    rewrite app_length, E in Hf. cbn [List.length] in Hf. destruct fuel as [|fuel]; [lia|]. reflexivity.
  - rewrite lead_off by (assumption || apply token_st_lead; assumption).
    destruct (token_cons name (r ++ [44%N] ++ s) Hn) as (c & q & E & _). rewrite E. rewrite <- E.
    rewrite match_token_ok; [|assumption|eapply params_st; [eassumption|reflexivity]].
    destruct (parse_parameters_ok ps r Hr ([44%N] ++ s) (S (List.length (r ++ [44%N] ++ s)))) as (o & Eo & Ho); [reflexivity| |].
    { apply params_length in Hr. rewrite app_length. lia. }
    rewrite Eo. cbn [app] in Ho. subst o. rewrite IH; [reflexivity|]. rewrite !app_length in Hf. cbn [List.length] in Hf. lia.
Qed.

(** * Lists of names *)

Theorem parse_list_ok item (ok : list N -> Prop) :
  (forall k l, ok k -> match l with [] => True | c :: _ => c = 9%N \/ c = 32%N \/ c = 44%N end -> item (k ++ l) = Some (k, l)) ->
  (forall k l, ok k -> st list_start (k ++ l)) -> (forall k, ok k -> k <> []) ->
  forall es s, names_text ok es s -> forall fuel, List.length s < fuel -> parse_list item fuel s = Some es.
Proof.
  intros Hitem Hst Hne.
  assert (Hb : forall b l, blanks b -> match l with [] => True | c :: _ => c = 44%N end ->
             match b ++ l with [] => True | c :: _ => c = 9%N \/ c = 32%N \/ c = 44%N end).
  { intros b l Hb Hl. destruct b as [|c b]; [destruct l; [exact I|cbn; auto]|]. inversion Hb as [|? ? Hc _]. subst. cbn. tauto. }
  induction 1 as [w Hw|w name b Hw Hn Hr|w name b es s Hw Hn Hr _ IH]; intros fuel Hf; (destruct fuel as [|fuel]; [lia|]); cbn [parse_list].
  - rewrite <- (app_nil_r w), lead_off by (assumption || exact I). reflexivity.
  - rewrite lead_off by (assumption || apply Hst; assumption). pose proof (Hne _ Hn). destruct name as [|c name]; [congruence|].
    change ((c :: name) ++ b) with (c :: name ++ b). cbv iota. change (c :: name ++ b) with ((c :: name) ++ b).
    rewrite Hitem; [|assumption|rewrite <- (app_nil_r b); apply Hb; [assumption|exact I]].
    rewrite <- (app_nil_r b), spaces_off by (assumption || exact I). reflexivity.
  - rewrite lead_off by (assumption || apply Hst; assumption). pose proof (Hne _ Hn). destruct name as [|c name]; [congruence|].
    change ((c :: name) ++ b ++ [44%N] ++ s) with (c :: name ++ b ++ [44%N] ++ s). cbv iota. change (c :: name ++ b ++ [44%N] ++ s) with ((c :: name) ++ b ++ [44%N] ++ s).
    rewrite Hitem; [|assumption|apply Hb; [assumption|reflexivity]].
    rewrite spaces_off by (assumption || reflexivity). cbn [app]. rewrite IH; [reflexivity|].
    rewrite !app_length in Hf. cbn [List.length] in Hf. lia.
Qed.

Lemma sep_st l : match l with [] => True | c :: _ => c = 9%N \/ c = 32%N \/ c = 44%N end -> st tokenb l.
Proof. destruct l as [|c l]; [auto|]. cbn. intros [-> |[-> | ->]]; reflexivity. Qed.

Theorem subprotocols_ok es s : names_text token es s -> parse_subprotocols s = Some es.
Proof.
  intros H. unfold parse_subprotocols. eapply (parse_list_ok match_token token); [| | |exact H|lia].
  - intros k l Hk Hl. apply match_token_ok; [assumption|apply sep_st; assumption].
  - intros. apply token_st_lead. assumption.
  - intros k [Hk _]. exact Hk.
Qed.

Theorem upgrades_ok es s : names_text protocol es s -> parse_upgrades s = Some es.
Proof.
  intros H. unfold parse_upgrades. eapply (parse_list_ok match_protocol protocol); [| | |exact H|lia].
  - intros k l Hk Hl. pose proof (sep_st _ Hl) as Hs. unfold match_protocol. destruct Hk as [Hk|(a & b & Ha & Hb & ->)].
    + rewrite match_token_ok by assumption. destruct l as [|c l]; [reflexivity|]. destruct Hl as [-> |[-> | ->]]; reflexivity.
    + rewrite <- !app_assoc. rewrite match_token_ok by (assumption || reflexivity). cbn [app].
      rewrite match_token_ok by assumption. reflexivity.
  - intros k l [Hk|(a & b & Ha & Hb & ->)]; [apply token_st_lead; assumption|]. rewrite <- !app_assoc. apply token_st_lead. assumption.
  - intros k [[Hk _]|(a & b & [Ha _] & _ & ->)]; [exact Hk|]. destruct a; [congruence|discriminate].
Qed.

(** * What is built is such a text *)

Lemma build_parameter_text p : token_parameter p -> parameter_text p (build_parameter p).
Proof.
  destruct p as [k [v|]]; intros [Hk Hv]; cbn [fst snd] in *; unfold build_parameter; cbn [fst snd].
  - apply (P_value k v [] []); try assumption; constructor.
  - constructor. assumption.
Qed.

Lemma build_parameters_text ps : Forall token_parameter ps ->
  parameters_text ps (flat_map (fun p => text "; " ++ build_parameter p) ps).
Proof.
  induction 1 as [|p ps Hp _ IH]; [constructor; constructor|]. cbn [flat_map].
  change (text "; ") with ([59%N] ++ [32%N]). rewrite <- !app_assoc.
  apply (PS_cons p ps [] [32%N]); [constructor|constructor; [right; reflexivity|constructor]|apply build_parameter_text; assumption|exact IH].
Qed.

Lemma sjoin_flat sep x parts : sjoin sep (x :: parts) = x ++ flat_map (fun p => sep ++ p) parts.
Proof.
  revert x. induction parts as [|y parts IH]; intros x; [cbn; rewrite app_nil_r; reflexivity|].
  change (sjoin sep (x :: y :: parts)) with (x ++ sep ++ sjoin sep (y :: parts)). rewrite IH. cbn [flat_map]. rewrite <- !app_assoc. reflexivity.
Qed.

Lemma build_extensions_text es : Forall token_extension es -> extensions_text es (build_extensions es).
Proof.
  unfold build_extensions.
  assert (G : forall es w, lead w -> Forall token_extension es -> extensions_text es
            (w ++ sjoin (text ", ") (map (fun e => sjoin (text "; ") (fst e :: map build_parameter (snd e))) es))).
  { clear es. induction es as [|[name ps] es IH]; intros w Hw H.
    - cbn. rewrite app_nil_r. constructor. assumption.
    - inversion H as [|? ? [Hn Hp] Hr]. subst. cbn [fst snd] in *. cbn [map fst snd]. destruct es as [|e es].
      + cbn [map]. change (sjoin (text ", ") [?a]) with a. rewrite sjoin_flat. rewrite flat_map_concat_map, map_map, <- flat_map_concat_map.
        apply E_last; [assumption|assumption|apply build_parameters_text; assumption].
      + change (map (fun e => sjoin (text "; ") (fst e :: map build_parameter (snd e))) (e :: es))
          with (sjoin (text "; ") (fst e :: map build_parameter (snd e)) :: map (fun e => sjoin (text "; ") (fst e :: map build_parameter (snd e))) es).
        change (sjoin (text ", ") (?a :: ?b :: ?c)) with (a ++ text ", " ++ sjoin (text ", ") (b :: c)).
        rewrite sjoin_flat. rewrite flat_map_concat_map, map_map, <- flat_map_concat_map.
        rewrite <- !app_assoc. change (text ", ") with ([44%N] ++ [32%N]) at 1. rewrite <- !app_assoc.
        apply E_cons; [assumption|assumption|apply build_parameters_text; assumption|].
        apply (IH [32%N]); [constructor; [right; left; reflexivity|constructor]|assumption]. }
  intros H. apply (G es []); [constructor|assumption].
Qed.

Lemma build_names_text ok es : Forall ok es -> names_text ok es (build_subprotocols es).
Proof.
  unfold build_subprotocols.
  assert (G : forall es w, lead w -> Forall ok es -> names_text ok es (w ++ sjoin (text ", ") es)).
  { clear es. induction es as [|x es IH]; intros w Hw H.
    - cbn. rewrite app_nil_r. constructor. assumption.
    - inversion H as [|? ? Hx Hr]. subst. destruct es as [|e es].
      + cbn [sjoin]. replace (w ++ x) with (w ++ x ++ []) by (rewrite app_nil_r; reflexivity). apply N_last; [assumption|assumption|constructor].
      + change (sjoin (text ", ") (x :: e :: es)) with (x ++ [44%N] ++ [32%N] ++ sjoin (text ", ") (e :: es)).
        apply (N_cons ok w x []); [assumption|assumption|constructor|]. apply (IH [32%N]); [constructor; [right; left; reflexivity|constructor]|assumption]. }
  intros H. apply (G es []); [constructor|assumption].
Qed.

Theorem extensions_round_trip es : Forall token_extension es ->
  parse_extensions (S (List.length (build_extensions es))) (build_extensions es) = Some es.
Proof. intros H. apply parse_extensions_ok; [apply build_extensions_text; assumption|lia]. Qed.
Theorem subprotocols_round_trip es : Forall token es -> parse_subprotocols (build_subprotocols es) = Some es.
Proof. intros H. apply subprotocols_ok, build_names_text. assumption. Qed.
Theorem extensions_any es s : extensions_text es s -> parse_extensions (S (List.length s)) s = Some es.
Proof. intros H. apply parse_extensions_ok; [assumption|lia]. Qed.

(** * What the parsers of names accept *)

Lemma take_forall p l : Forall (fun c => p c = true) (take_while p l).
Proof. induction l as [|c l IH]; [constructor|]. cbn [take_while]. destruct (p c) eqn:E; [constructor; assumption|constructor]. Qed.
Lemma drop_st p l : st p (drop_while p l).
Proof. induction l as [|c l IH]; [exact I|]. cbn [drop_while]. destruct (p c) eqn:E; [exact IH|exact E]. Qed.

Lemma spaceb_iff c : spaceb c = true -> c = 9%N \/ c = 32%N.
Proof. unfold spaceb. cbn [existsb]. rewrite !orb_true_iff, !N.eqb_eq. intuition discriminate. Qed.
Lemma list_start_iff c : list_start c = true -> c = 9%N \/ c = 32%N \/ c = 44%N.
Proof. unfold list_start. cbn [existsb]. rewrite !orb_true_iff, !N.eqb_eq. intuition discriminate. Qed.

Lemma split_spaces l : exists w, blanks w /\ l = w ++ drop_while spaceb l.
Proof.
  exists (take_while spaceb l). split; [|symmetry; apply take_drop].
  eapply Forall_impl; [|apply take_forall]. intros c. apply spaceb_iff.
Qed.
Lemma split_lead l : exists w, lead w /\ l = w ++ drop_while list_start l.
Proof.
  exists (take_while list_start l). split; [|symmetry; apply take_drop].
  eapply Forall_impl; [|apply take_forall]. intros c. apply list_start_iff.
Qed.

Lemma match_token_sound l k r : match_token l = Some (k, r) -> token k /\ l = k ++ r /\ st tokenb r.
Proof.
  unfold match_token. intros H.
  assert (E : k = take_while tokenb l /\ r = drop_while tokenb l /\ k <> []).
  { destruct (take_while tokenb l) as [|c t]; [discriminate|]. injection H as <- <-. repeat split. discriminate. }
  destruct E as (-> & -> & E). repeat split; [exact E| |symmetry; apply take_drop|apply drop_st].
  eapply Forall_impl; [|apply take_forall]. intros c. apply tokenb_iff.
Qed.

Lemma match44 {A} (l : list N) (a : list N -> option A) e :
  match l with [] => e | 44%N :: l => a l | _ => None end =
  match l with [] => e | c :: l => if (c =? 44)%N then a l else None end.
Proof. destruct l as [|c l]; [reflexivity|]. destruct c as [|p]; [reflexivity|]. do 6 (destruct p as [p|p|]; try reflexivity). Qed.

Lemma parse_list_sound item (ok : list N -> Prop) :
  (forall l k r, item l = Some (k, r) -> match drop_while spaceb r with [] => True | c :: _ => c = 44%N end -> ok k /\ l = k ++ r) ->
  forall fuel s es, parse_list item fuel s = Some es -> names_text ok es s.
Proof.
  intros Hitem. induction fuel as [|fuel IH]; intros s es H; [discriminate|]. cbn [parse_list] in H.
  destruct (split_lead s) as (w & Hw & E). destruct (drop_while list_start s) as [|c r] eqn:Er.
  - injection H as <-. rewrite E, app_nil_r. constructor. exact Hw.
  - destruct (item (c :: r)) as [[k q]|] eqn:Ei; [|discriminate]. rewrite match44 in H.
    destruct (split_spaces q) as (b & Hb & Eq). destruct (drop_while spaceb q) as [|d t] eqn:Et.
    + injection H as <-. destruct (Hitem _ _ _ Ei) as [Hk Ek]; [rewrite Et; exact I|].
      rewrite E, Ek, Eq, app_nil_r. constructor; assumption.
    + destruct (N.eqb_spec d 44) as [->|]; [|discriminate]. destruct (parse_list item fuel t) as [l|] eqn:El; [|discriminate].
      injection H as <-. destruct (Hitem _ _ _ Ei) as [Hk Ek]; [rewrite Et; reflexivity|].
      rewrite E, Ek, Eq. apply (N_cons ok w k b l t); auto.
Qed.

Theorem subprotocols_sound s es : parse_subprotocols s = Some es -> names_text token es s.
Proof.
  unfold parse_subprotocols. apply (parse_list_sound match_token token).
  intros l k r H _. apply match_token_sound in H. tauto.
Qed.

Lemma match_protocol_eq l : match_protocol l =
  match match_token l with
  | Some (a, c :: l') =>
      if (c =? 47)%N then match match_token l' with Some (b, l'') => Some (a ++ 47%N :: b, l'') | None => Some (a, c :: l') end
      else Some (a, c :: l')
  | r => r
  end.
Proof.
  unfold match_protocol. destruct (match_token l) as [[a [|c l']]|]; try reflexivity.
  destruct c as [|p]; [reflexivity|]. do 6 (destruct p as [p|p|]; try reflexivity).
Qed.

Theorem upgrades_sound s es : parse_upgrades s = Some es -> names_text protocol es s.
Proof.
  unfold parse_upgrades. apply (parse_list_sound match_protocol protocol).
  intros l k r H Hr. rewrite match_protocol_eq in H. destruct (match_token l) as [[a [|c l']]|] eqn:E; [| |discriminate].
  - injection H as <- <-. apply match_token_sound in E. destruct E as (H1 & H2 & _). split; [left; exact H1|exact H2].
  - apply match_token_sound in E. destruct E as (H1 & H2 & H3). destruct (N.eqb_spec c 47) as [->|].
    + destruct (match_token l') as [[b l'']|] eqn:E2.
      * injection H as <- <-. apply match_token_sound in E2. destruct E2 as (G1 & G2 & G3). split.
        { right. exists a, b. auto. }
        rewrite H2, G2, <- app_assoc. reflexivity.
      * injection H as <- <-. discriminate.
    + injection H as <- <-. split; [left; exact H1|exact H2].
Qed.
