(** References written out by hand: preparation with the dictionary and without it give the same rule. *)
From Coq Require Import List String Ascii Bool Arith ZArith Lia.
From Verif Require Import Base GoStr GoStr_facts Types StrUtils Spec_Tree Spec_Leaf Spec_Validate Validate Prepare Lifecycle Eval Check Spec_Copy Spec_Meaning
  Parse Spec_Grammar Grammar_proofs Leaf_proofs Tree_proofs Load_proofs Match_proofs Validate_proofs Prepare_proofs Check_proofs Copy_proofs Relevant_proofs Spec_Written.
Import ListNotations.
Open Scope string_scope.

Section WithLib.
Variable L : Lib.
Variable v w : predef.

Lemma no_reference (c : cond L) : ~ starts "#" (c_value c) -> replace_in_condition L w c = Ok c.
Proof.
  intro H. unfold replace_in_condition, replaceable_list, replaceable_string. apply starts_false in H. rewrite H. reflexivity.
Qed.

Lemma bad_expression (c : cond L) : is_any (c_method c) ["RE"; "NRE"] = true -> is_some (re_compile L (c_value c)) = false -> validate_condition L c = Err.
Proof.
  intros HM HR. pose proof (validate_total L c) as HT. unfold validate_condition in *. destruct (validate_attribute _ _ _); [|reflexivity|destruct HT; reflexivity].
  cbn [rbind] in *. destruct (validate_method _ _ _); [|reflexivity|destruct HT; reflexivity]. cbn [rbind] in *. unfold validate_numerical in *.
  destruct (negb _ && contains_string number_methods _); [reflexivity|]. rewrite HR.
  assert (E : contains_string regex_methods (c_method c) = true).
  { apply is_any_iff in HM. simpl in HM. destruct HM as [<-|[<-|[]]]; reflexivity. }
  rewrite E. reflexivity.
Qed.

Lemma written_value (c : cond L) x : replaced v (c_method c) (c_value c) x ->
  replace_in_condition L v c = Ok (set_value L c x) \/
  replace_in_condition L v c = Err /\ is_any (c_method c) ["RE"; "NRE"] = true /\ is_some (re_compile L x) = false.
Proof.
  intro H. unfold replace_in_condition, replaceable_list, replaceable_string. destruct H as [HN|name l E A|name y E A B].
  - left. apply starts_false in HN. rewrite HN. f_equal. destruct c; reflexivity.
  - rewrite E. change ("#" ++ name) with (String "#" name). replace (has_prefix (String "#" name) "#") with true by (symmetry; apply has_prefix_iff; exists name; reflexivity).
    rewrite replace_first_head. cbn [append]. rewrite A. destruct (is_any (c_method c) ["RE"; "NRE"]) eqn:EM.
    + rewrite join_concat. destruct (is_some (re_compile L (String.concat "|" l))) eqn:ER; auto.
    + rewrite join_concat. left. reflexivity.
  - rewrite E. change ("#" ++ name) with (String "#" name). replace (has_prefix (String "#" name) "#") with true by (symmetry; apply has_prefix_iff; exists name; reflexivity).
    rewrite replace_first_head. cbn [append]. rewrite A, B. left. reflexivity.
Qed.

Hypothesis HN : NumberSpec L.
Lemma stored_fields att method value ret (c : cond L) : condition_stored L att method value ret c ->
  c = mkCond att method value (mkNum (or_else (parse_int value) None) (or_else (float_with_units L value) None) None None) no_lab no_obj no_jp (c_ret (condition_from_node L (mkCondnode att method value ret))) no_orig.
Proof.
  intro H. apply (stored_iff L (mkCondnode att method value ret)) in H. apply validate_ok in H. destruct H as [-> _]. reflexivity.
Qed.
Lemma written_condition att method value ret value' (c c' : cond L) :
  condition_stored L att method value ret c -> condition_stored L att method value' ret c' -> replaced v method value value' -> ~ starts "#" value' ->
  prepare_condition L w c' = prepare_condition L v c.
Proof.
  intros HC HC' HR HS. apply stored_fields in HC, HC'. subst c c'. set (r0 := c_ret (condition_from_node L (mkCondnode att method value ret))). change (c_ret (condition_from_node L (mkCondnode att method value' ret))) with r0. unfold prepare_condition. rewrite no_reference by exact HS. cbn [rbind].
  set (c := mkCond att method value _ _ _ _ _ _). set (c' := mkCond att method value' _ _ _ _ _ _).
  assert (EV : validate_condition L (set_value L c value') = validate_condition L c').
  { unfold validate_condition, validate_numerical. cbn [c c' set_value c_attr c_method c_value c_num c_lab c_obj c_jp c_ret c_orig n_int n_float n_regex n_string_regex].
    destruct (kept_float L v method value value' HN HR) as [E1 E2]. rewrite E1, E2, !or_else_none, !or_else_idem. reflexivity. }
  destruct (written_value c value' HR) as [E|(E & HM & HB)]; rewrite E; cbn [rbind]; [rewrite EV; reflexivity|].
  rewrite (bad_expression c'); [reflexivity|exact HM|exact HB].
Qed.

Lemma written_node n : forall n', written_tree L v n n' -> prepare_node L w n' = prepare_node L v n.
Proof.
  assert (HL : forall ns, Forall (fun n => forall n', written_tree L v n n' -> prepare_node L w n' = prepare_node L v n) ns -> forall ns', Forall2 (written_tree L v) ns ns' ->
    map (prepare_node L w) ns' = map (prepare_node L v) ns).
  { intros ns HF ns' H2. induction H2 as [|a b l l' H H2 IH]; [reflexivity|]. inversion HF; subst. cbn [map]. f_equal; auto. }
  induction n as [ns IH|ns IH|n IH|q a n IH| | |c|] using node_ind'; intros n' H; inversion H; subst; cbn [prepare_node].
  - rewrite (HL ns IH) by assumption. reflexivity.
  - rewrite (HL ns IH) by assumption. reflexivity.
  - f_equal. auto.
  - rewrite IH by assumption. reflexivity.
  - reflexivity.
  - reflexivity.
  - f_equal. eapply written_condition; eassumption.
Qed.

Lemma names_prepare s s' : replaced_name v s s' -> ~ starts "#" s' -> replace_name v s = Ok s' /\ replace_name w s' = Ok s'.
Proof. intros H HS. split; apply replace_name_iff; [exact H|apply rn_plain; exact HS]. Qed.

Theorem written_prepare r r' : written_rule L v r r' -> prepare_rule L w r' = prepare_rule L v r.
Proof.
  intros ((E1 & E2 & E3 & E4 & E5 & E6 & E7 & E8 & E9 & E10 & E11 & E12 & E13 & E14 & E15) & HS & NS & HR & NR & HT).
  destruct (names_prepare _ _ HS NS) as [S1 S2]. destruct (names_prepare _ _ HR NR) as [R1 R2].
  destruct r as [id sn st sl rn rt rl pr rty rna rre op tr de me ha ore co], r' as [id' sn' st' sl' rn' rt' rl' pr' rty' rna' rre' op' tr' de' me' ha' ore' co'].
  cbn in *. subst. unfold prepare_rule, replace_in_rule, set_tree. cbn.
  destruct tr as [n|], tr' as [n'|]; try contradiction HT.
  - rewrite (written_node n n' HT). destruct (prepare_node L v n) as [m| |]; cbn; [|reflexivity|reflexivity]. rewrite S1, S2. cbn. rewrite R1, R2. reflexivity.
  - cbn. rewrite S1, S2. cbn. rewrite R1, R2. reflexivity.
Qed.

(** ** Made ready *)
Lemma set_fresh p ord r t : fair ord -> fresh L r -> exists t', set_predefined L ord p (load_rule L r) t =
  match prepare_rule L p r with
  | Ok c => (Ok tt, mkRstate r p true (Some c), t')
  | Err => (Err, mkRstate r p false None, t')
  | Panic => (Panic, mkRstate r p false None, t')
  end.
Proof.
  intros HF HR. destruct (fresh_copied L ord r t HF HR) as [t' E]. exists t'. unfold set_predefined. cbn [load_rule rs_rule rs_prepared rs_lists]. rewrite E.
  destruct (prepare_rule L p r); reflexivity.
Qed.

Theorem written_set ord ord' r r' t t' : fair ord -> fair ord' -> fresh L r -> fresh L r' -> written_rule L v r r' ->
  let a := set_predefined L ord v (load_rule L r) t in
  let b := set_predefined L ord' w (load_rule L r') t' in
  fst (fst a) = fst (fst b) /\ rs_ready (snd (fst a)) = rs_ready (snd (fst b)) /\ rs_prepared (snd (fst a)) = rs_prepared (snd (fst b)).
Proof.
  intros HF HF' HR HR' HW. destruct (set_fresh v ord r t HF HR) as [u E]. destruct (set_fresh w ord' r' t' HF' HR') as [u' E'].
  cbv zeta. rewrite E, E', (written_prepare r r' HW). destruct (prepare_rule L v r); auto.
Qed.

Lemma ready_one ord g g' s s' e : same_ready L s s' ->
  match check_one_rule L ord g s e, check_one_rule L ord g' s' e with
  | (Some (x, _), e1), (Some (y, _), e2) => x = y /\ e1 = e2
  | (None, e1), (None, e2) => e1 = e2
  | _, _ => False
  end.
Proof.
  intros (H1 & H2 & H3 & _). unfold check_one_rule, ensure_prepared, mbind. rewrite H1, H2. cbv beta iota. rewrite H3.
  destruct (rs_prepared s) as [c|]; [|reflexivity]. destruct (check_prepared L ord c e) as [[x|] e1]; cbv beta iota; unfold mret; auto.
Qed.
Lemma ready_run ord g g' ss ss' : Forall2 (same_ready L) ss ss' -> forall e, run_rules L ord g ss e = run_rules L ord g' ss' e.
Proof.
  induction 1 as [|s s' ss ss' H HS IH]; intro e; cbn [run_rules]; [reflexivity|]. pose proof (ready_one ord g g' s s' e H) as HO. unfold mbind at 1 3.
  destruct (check_one_rule L ord g s e) as [[[x u]|] e1], (check_one_rule L ord g' s' e) as [[[y u']|] e2]; try contradiction.
  - destruct HO as [-> ->]. unfold mbind. rewrite IH. reflexivity.
  - rewrite HO. reflexivity.
Qed.
Lemma ready_summary ss ss' xs : Forall2 (same_ready L) ss ss' -> summarise L ss xs = summarise L ss' xs.
Proof.
  intro H. unfold summarise. assert (E : map (description L) ss = map (description L) ss').
  { induction H as [|s s' ss ss' (_ & _ & _ & _ & E) H IH]; [reflexivity|]. cbn [map]. f_equal; [|exact IH]. unfold description. rewrite E. reflexivity. }
  rewrite E. reflexivity.
Qed.
Lemma ready_check ord g g' ss ss' e : Forall2 (same_ready L) ss ss' -> check L ord g ss e = check L ord g' ss' e.
Proof.
  intro H. unfold check, mbind. rewrite (ready_run ord g g' ss ss' H). destruct (run_rules L ord g' ss' e) as [[xs|] e1]; [|reflexivity].
  unfold mret. rewrite (ready_summary ss ss' xs H). reflexivity.
Qed.
Lemma ready_coverage ord g g' ss ss' ms t : Forall2 (same_ready L) ss ss' -> coverage L ord g ss ms t = coverage L ord g' ss' ms t.
Proof.
  intro H. unfold coverage. assert (E : forall rc : list (string * list string), fold_left (fun rc s => upsert (ru_id (rs_rule s)) [] rc) ss rc = fold_left (fun rc s => upsert (ru_id (rs_rule s)) [] rc) ss' rc).
  { induction H as [|s s' l l' (_ & _ & _ & E & _) H IH]; intro rc; [reflexivity|]. cbn [fold_left]. rewrite E. apply IH. }
  rewrite E. generalize (@nil (string * msg_coverage)). intro mc. generalize (fold_left (fun rc s => upsert (ru_id (rs_rule s)) [] rc) ss' ([] : list (string * list string))). intro rc.
  assert (EI : forall i, rule_id_at L ss i = rule_id_at L ss' i).
  { clear - H. induction H as [|s s' l l' (_ & _ & _ & E & _) H IH]; intro i; [reflexivity|]. destruct i; unfold rule_id_at; cbn [nth_error]; [symmetry; exact E|apply IH]. }
  revert t mc rc. induction ms as [|m ms IH]; intros t mc rc; cbn [coverage_loop]; [reflexivity|].
  rewrite (ready_check ord g g' ss ss' (mkEst m t) H). destruct (check L ord g' ss' (mkEst m t)) as [[o|] e]; [|reflexivity].
  rewrite (map_ext _ _ EI). apply IH.
Qed.

Lemma load_fresh p ord rules : fair ord -> Forall (fresh L) rules -> forall t, exists t', load_with_predefined L ord p rules t =
  (rmap (map (fun rc => mkRstate (fst rc) p true (Some (snd rc)))) (rseq (map (fun r => rmap (pair r) (prepare_rule L p r)) rules)), t').
Proof.
  intros HF HR. induction HR as [|r rules H HR IH]; intro t; cbn [load_with_predefined map rseq]; [eexists; reflexivity|].
  destruct (set_fresh p ord r t HF H) as [t1 E]. rewrite E. destruct (prepare_rule L p r) as [c| |]; cbn [rmap rbind]; [|eexists; reflexivity|eexists; reflexivity].
  destruct (IH t1) as [t2 E2]. rewrite E2. destruct (rseq _) as [l| |]; cbn; eexists; reflexivity.
Qed.
Lemma same_loaded rules rules' : Forall2 (written_rule L v) rules rules' ->
  match rseq (map (fun r => rmap (pair r) (prepare_rule L v r)) rules), rseq (map (fun r => rmap (pair r) (prepare_rule L w r)) rules') with
  | Ok l, Ok l' => Forall2 (fun a b => snd b = snd a /\ written_rule L v (fst a) (fst b)) l l'
  | Err, Err => True
  | Panic, Panic => True
  | _, _ => False
  end.
Proof.
  induction 1 as [|r r' rules rules' H HS IH]; cbn [map rseq]; [constructor|]. rewrite (written_prepare r r' H).
  destruct (prepare_rule L v r) as [c| |]; cbn [rmap rbind]; auto. destruct (rseq _) as [l| |], (rseq _) as [l'| |]; try contradiction IH; cbn [rbind]; auto.
Qed.

(** LoadRulesFromStringWithPredefinedStrings accepts both or neither *)
Theorem written_loads ord ord' rules rules' t t' : fair ord -> fair ord' -> Forall (fresh L) rules -> Forall (fresh L) rules' -> Forall2 (written_rule L v) rules rules' ->
  match fst (load_with_predefined L ord v rules t), fst (load_with_predefined L ord' w rules' t') with
  | Ok ss, Ok ss' => Forall2 (same_ready L) ss ss'
  | Err, Err => True
  | Panic, Panic => True
  | _, _ => False
  end.
Proof.
  intros HF HF' HR HR' HW. destruct (load_fresh v ord rules HF HR t) as [u E]. destruct (load_fresh w ord' rules' HF' HR' t') as [u' E'].
  rewrite E, E'. cbn [fst]. pose proof (same_loaded rules rules' HW) as HS. destruct (rseq _) as [l| |], (rseq _) as [l'| |]; try contradiction HS; cbn [rmap rbind]; auto.
  clear - HS. induction HS as [|a b l l' [E (H & _)] HS IH]; cbn [map]; constructor; auto. unfold same_ready. cbn. rewrite E. destruct H as (H1 & _ & _ & _ & _ & _ & _ & _ & _ & _ & _ & H2 & _). auto.
Qed.

Theorem written_check ord ord' rules rules' t t' u u' ss ss' : fair ord -> fair ord' -> Forall (fresh L) rules -> Forall (fresh L) rules' -> Forall2 (written_rule L v) rules rules' ->
  load_with_predefined L ord v rules t = (Ok ss, u) -> load_with_predefined L ord' w rules' t' = (Ok ss', u') ->
  forall o g g', (forall e, check L o g ss e = check L o g' ss' e) /\ (forall ms k, coverage L o g ss ms k = coverage L o g' ss' ms k).
Proof.
  intros HF HF' HR HR' HW E E' o g g'. pose proof (written_loads ord ord' rules rules' t t' HF HF' HR HR' HW) as HS. rewrite E, E' in HS. cbn in HS.
  split; intros; [apply ready_check|apply ready_coverage]; exact HS.
Qed.

(** ** Prepared on first use *)
Lemma first_use p g ord r m t x s e : fair ord -> fresh L r -> check_one_rule L ord p (load_rule L r) (mkEst m t) = (Some (x, s), e) ->
  forall s0, rs_ready s0 = true -> (exists c, prepare_rule L p r = Ok c /\ rs_prepared s0 = Some c) -> possible_result L g m s0 (fst x).
Proof.
  intros HF HR H s0 HS (c & HC & HP). unfold check_one_rule, ensure_prepared, mbind in H. cbn [load_rule rs_ready e_tick e_msg] in H.
  destruct (set_fresh p ord r t HF HR) as [t1 E]. change (mkRstate r (mkPredef [] [] []) false None) with (load_rule L r) in H. rewrite E, HC in H. cbn [rs_prepared] in H.
  destruct (check_prepared L ord c (mkEst m t1)) as [[y|] e1] eqn:EC; [|discriminate]. unfold mret in H. injection H as <- _ _.
  exists ord, t1, (snd y), s0, e1. split; [exact HF|]. unfold check_one_rule, ensure_prepared, mbind. rewrite HS. cbv beta iota. rewrite HP, EC. destruct y; reflexivity.
Qed.

Lemma ready_state p ord r t s u : fair ord -> fresh L r -> set_predefined L ord p (load_rule L r) t = (Ok tt, s, u) ->
  rs_ready s = true /\ exists c, prepare_rule L p r = Ok c /\ rs_prepared s = Some c.
Proof.
  intros HF HR H. destruct (set_fresh p ord r t HF HR) as [u' E]. rewrite E in H. destruct (prepare_rule L p r) as [c| |]; [|discriminate|discriminate].
  injection H as <- _. cbn. eauto.
Qed.
Lemma loaded_state p ord rules : fair ord -> Forall (fresh L) rules -> forall t ss u, load_with_predefined L ord p rules t = (Ok ss, u) ->
  Forall2 (fun r s => rs_ready s = true /\ exists c, prepare_rule L p r = Ok c /\ rs_prepared s = Some c) rules ss.
Proof.
  intros HF HR. induction HR as [|r rules H HR IH]; intros t ss u HL; cbn [load_with_predefined] in HL; [injection HL as <- _; constructor|].
  destruct (set_predefined L ord p (load_rule L r) t) as [[[[]| |] s] t1] eqn:ES; [|discriminate|discriminate].
  destruct (load_with_predefined L ord p rules t1) as [[l| |] t2] eqn:EL; [|discriminate|discriminate]. injection HL as <- _.
  constructor; [eapply ready_state; eassumption|eapply IH; eassumption].
Qed.
Lemma first_results p g ord rules m t o e ss : fair ord -> Forall (fresh L) rules -> check L ord p (map (load_rule L) rules) (mkEst m t) = (Some o, e) ->
  Forall2 (fun r s => rs_ready s = true /\ exists c, prepare_rule L p r = Ok c /\ rs_prepared s = Some c) rules ss ->
  Forall2 (possible_result L g m) ss (out_results o).
Proof.
  intros HF HR H HS. apply check_inv in H. destruct H as (xs & HX & _ & _ & ->). cbn [out_results summarise]. revert xs HX HR.
  induction HS as [|r s rules ss [H1 H2] HS IH]; intros xs HX HR; cbn [map] in HX; inversion HX as [|a x l xs' HA HX' Ea Ex]; subst; [constructor|].
  inversion HR; subst. cbn [map]. constructor; [|apply IH; assumption].
  destruct HA as (t1 & s' & e' & HA). eapply first_use; eassumption.
Qed.

Theorem written_first_use ord ord1 ord2 rules rules' m t t1 t2 u ss o o' e e' : fair ord -> fair ord1 -> fair ord2 ->
  Forall (fresh L) rules -> Forall (fresh L) rules' -> Forall2 (written_rule L v) rules rules' ->
  load_with_predefined L ord v rules t = (Ok ss, u) -> (forall s, In s ss -> determined L v m s) ->
  check L ord1 v (map (load_rule L) rules) (mkEst m t1) = (Some o, e) -> check L ord2 w (map (load_rule L) rules') (mkEst m t2) = (Some o', e') ->
  out_decision o' = out_decision o /\ out_string o' = out_string o /\ out_index o' = out_index o /\
  out_results o' = out_results o /\ out_applied o' = out_applied o /\ out_desc o' = out_desc o.
Proof.
  intros HF HF1 HF2 HR HR' HW HL HD H H'. pose proof (loaded_state v ord rules HF HR t ss u HL) as HS.
  assert (HS' : Forall2 (fun r s => rs_ready s = true /\ exists c, prepare_rule L w r = Ok c /\ rs_prepared s = Some c) rules' ss).
  { clear - HN HS HW. revert ss HS. induction HW as [|r r' rules rules' H HW IH]; intros ss HS; inversion HS as [|? s ? ss' [H1 H2] HS']; subst; constructor; auto.
    rewrite (written_prepare r r' H). auto. }
  assert (E : out_results o' = out_results o).
  { apply (determined_results L v m ss); [exact HD| |]; [exact (first_results w v ord2 rules' m t2 o' e' ss HF2 HR' H' HS')|exact (first_results v v ord1 rules m t1 o e ss HF1 HR H HS)]. }
  destruct (check_inv L _ _ _ _ _ _ _ H) as (xs & _ & _ & _ & ->). destruct (check_inv L _ _ _ _ _ _ _ H') as (xs' & _ & _ & _ & ->).
  assert (ED : map (description L) (map (load_rule L) rules') = map (description L) (map (load_rule L) rules)).
  { clear - HW. induction HW as [|r r' l l' ((_ & _ & _ & _ & _ & _ & _ & _ & _ & _ & _ & E & _) & _) HW IH]; [reflexivity|]. cbn [map]. f_equal; [|exact IH].
    unfold description. cbn [load_rule rs_rule]. rewrite E. reflexivity. }
  unfold summarise in *. cbn in E |- *. rewrite E, ED. repeat split; reflexivity.
Qed.
End WithLib.
