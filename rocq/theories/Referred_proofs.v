(** Dictionaries that agree on the entries a rule refers to prepare it alike. *)
From Coq Require Import List String Ascii Bool Arith ZArith Lia.
From Verif Require Import Base GoStr GoStr_facts GoFloat Types Json StrUtils Validate Prepare Parse Marshal Lifecycle Eval Check Spec_Tree Tree_proofs
  Match_proofs Spec_Leaf Leaf_proofs Spec_Validate Validate_proofs Spec_Lifecycle Lifecycle_proofs Spec_Load Spec_Copy Copy_proofs Spec_Grammar Spec_Meaning Meaning_rules Relevant_proofs Spec_Referred.
Import ListNotations.
Open Scope string_scope.
Local Arguments String.prefix : simpl never.

Lemma same_item strings strings' s : (forall y, s = "#" ++ y -> assoc y strings = assoc y strings') -> item strings s = item strings' s.
Proof.
  intro H. unfold item. destruct (has_prefix s "#") eqn:E; auto. apply has_prefix_iff in E. destruct E as [x E]. rewrite E.
  change ("#" ++ x) with (String "#" x). rewrite (replace_first_head "#" x ""). apply H. exact E.
Qed.
Lemma same_items strings strings' l : (forall y, In ("#" ++ y) l -> assoc y strings = assoc y strings') -> resolve_list strings l = resolve_list strings' l.
Proof.
  induction l as [|s l IH]; intro H; cbn [resolve_list]; auto. fold (item strings s). fold (item strings' s).
  rewrite (same_item strings strings' s), IH; auto; intros y HY; apply H; [right; exact HY|left; exact HY].
Qed.

(** the resolved dictionaries say the same *)
Definition says_alike (v v' : predef) (x : string) : Prop :=
  assoc x (p_resolved v) = assoc x (p_resolved v') /\ (assoc x (p_resolved v) = None -> assoc x (p_strings v) = assoc x (p_strings v')).
Lemma resolved_entry strings ls r x : resolve_lists strings ls = Some r -> assoc x r = match assoc x ls with Some l => resolve_list strings l | None => None end.
Proof.
  revert r. induction ls as [|(k, l) ls IH]; intros r H; cbn [resolve_lists] in H.
  - injection H as <-. reflexivity.
  - destruct (resolve_list strings l) as [y|] eqn:E; [|discriminate]. destruct (resolve_lists strings ls) as [r'|] eqn:E2; [|discriminate].
    injection H as <-. cbn [assoc]. destruct (String.eqb x k); auto.
Qed.
Lemma entry_says d d' v v' x : validate_predef d = Ok v -> validate_predef d' = Ok v' -> same_entry d d' x -> says_alike v v' x.
Proof.
  unfold validate_predef. destruct (resolve_lists (p_strings d) (p_lists d)) as [r|] eqn:E; [|discriminate]. destruct (resolve_lists (p_strings d') (p_lists d')) as [r'|] eqn:E'; [|discriminate].
  intros H H'. injection H as <-. injection H' as <-. intros [HL HS]. unfold says_alike. cbn [p_resolved p_strings].
  rewrite (resolved_entry _ _ _ x E), (resolved_entry _ _ _ x E'), <- HL.
  destruct (assoc x (p_lists d)) as [l|] eqn:EL; [|auto].
  rewrite <- (same_items _ _ _ HS). split; auto. intro HN. pose proof (resolve_lists_some _ _ _ E x) as HR. rewrite EL in HR.
  rewrite (resolved_entry _ _ _ x E), EL, HN in HR. destruct HR.
Qed.

Lemma same_list v v' s : (forall x, s = "#" ++ x -> says_alike v v' x) -> replaceable_list s v = replaceable_list s v'.
Proof.
  intro H. unfold replaceable_list. destruct (has_prefix s "#") eqn:E; auto. apply has_prefix_iff in E. destruct E as [x E]. rewrite E.
  change ("#" ++ x) with (String "#" x). rewrite (replace_first_head "#" x ""). f_equal. apply (H x E).
Qed.
Lemma same_string v v' s : (forall x, s = "#" ++ x -> says_alike v v' x) -> fst (replaceable_list s v) = None -> replaceable_string s v = replaceable_string s v'.
Proof.
  intros H. unfold replaceable_list, replaceable_string. destruct (has_prefix s "#") eqn:E; auto. apply has_prefix_iff in E. destruct E as [x E]. rewrite E.
  change ("#" ++ x) with (String "#" x). rewrite (replace_first_head "#" x ""). cbn [fst]. intro HN. exact (proj2 (H x E) HN).
Qed.

Section WithLib.
Variable L : Lib.

Lemma same_replacement v v' c : (forall x, c_value c = "#" ++ x -> says_alike v v' x) -> replace_in_condition L v c = replace_in_condition L v' c.
Proof.
  intro H. unfold replace_in_condition. pose proof (same_string v v' _ H) as HS. rewrite <- (same_list v v' _ H).
  destruct (replaceable_list (c_value c) v) as [[l|] isref]; auto. rewrite HS; auto.
Qed.
Lemma same_name v v' s : (forall x, s = "#" ++ x -> says_alike v v' x) -> replace_name v s = replace_name v' s.
Proof.
  intro H. unfold replace_name. pose proof (same_string v v' _ H) as HS. rewrite <- (same_list v v' _ H).
  destruct (replaceable_list s v) as [[l|] isref]; auto. rewrite HS; auto.
Qed.
Lemma same_node v v' n : (forall x, tree_refers L x n -> says_alike v v' x) -> prepare_node L v n = prepare_node L v' n.
Proof.
  induction n as [ns IH|ns IH|n IH|q a n IH| | |c|] using node_ind'; intro H; cbn [prepare_node]; auto.
  1,2: f_equal; f_equal; apply map_ext_in; intros n HI; rewrite Forall_forall in IH; apply IH; auto; intros x HX; apply H; econstructor; eauto.
  - f_equal. apply IH. intros x HX. apply H. constructor. exact HX.
  - rewrite IH; auto. intros x HX. apply H. constructor. exact HX.
  - f_equal. unfold prepare_condition. rewrite (same_replacement v v'); auto. intros x HX. apply H. constructor. exact HX.
Qed.
Theorem same_preparation v v' r : (forall x, refers L r x -> says_alike v v' x) -> prepare_rule L v r = prepare_rule L v' r.
Proof.
  intro H. unfold prepare_rule.
  assert (ET : match ru_tree r with None => Ok r | Some t => do t' <- prepare_node L v t; Ok (set_tree L r (Some t')) end =
               match ru_tree r with None => Ok r | Some t => do t' <- prepare_node L v' t; Ok (set_tree L r (Some t')) end).
  { destruct (ru_tree r) as [n|] eqn:EN; auto. rewrite (same_node v v'); auto. intros x HX. apply H. right. right. eauto. }
  rewrite <- ET.
  assert (EN : forall q, match ru_tree r with None => Ok r | Some t => do t' <- prepare_node L v t; Ok (set_tree L r (Some t')) end = Ok q ->
               ru_sender_name q = ru_sender_name r /\ ru_receiver_name q = ru_receiver_name r).
  { intro q. destruct (ru_tree r) as [n|]; [|intro E; injection E as <-; auto]. destruct (prepare_node L v n); cbn; try discriminate. intro E. injection E as <-. cbn. auto. }
  destruct (match ru_tree r with None => Ok r | Some t => do t' <- prepare_node L v t; Ok (set_tree L r (Some t')) end) as [q| |]; cbn; auto.
  destruct (EN q eq_refl) as [ES ER]. f_equal. unfold replace_in_rule. rewrite ES, ER, (same_name v v' (ru_sender_name r)), (same_name v v' (ru_receiver_name r)); auto; intros x HX; apply H; [right; left|left]; exact HX.
Qed.

(** what a rule object is apart from the dictionary it keeps *)
Definition same_state (s s' : rstate L) : Prop := rs_rule s = rs_rule s' /\ rs_ready s = rs_ready s' /\ rs_prepared s = rs_prepared s'.
Lemma same_setting ord v v' r t : fair ord -> fresh L r -> (forall x, refers L r x -> says_alike v v' x) ->
  let '(o, s, t1) := set_predefined L ord v (load_rule L r) t in let '(o', s', t1') := set_predefined L ord v' (load_rule L r) t in
  o = o' /\ t1 = t1' /\ same_state s s'.
Proof.
  intros HF HR H. unfold set_predefined. cbn [load_rule rs_rule rs_prepared]. destruct (fresh_copied L ord r t HF HR) as [t' EC]. rewrite EC, <- (same_preparation v v' r H).
  destruct (prepare_rule L v r); repeat split.
Qed.

(** rules as loaded or as prepared *)
Lemma same_ensured ord v v' r e : fair ord -> fresh L r -> (forall x, refers L r x -> says_alike v v' x) ->
  snd (ensure_prepared L ord v (load_rule L r) e) = snd (ensure_prepared L ord v' (load_rule L r) e) /\
  match fst (ensure_prepared L ord v (load_rule L r) e), fst (ensure_prepared L ord v' (load_rule L r) e) with
  | Some s, Some s' => same_state s s'
  | None, None => True
  | _, _ => False
  end.
Proof.
  intros HF HR H. unfold ensure_prepared. cbn [load_rule rs_ready]. fold (load_rule L r). pose proof (same_setting ord v v' r (e_tick e) HF HR H) as HS.
  destruct (set_predefined L ord v (load_rule L r) (e_tick e)) as [[o s] t1], (set_predefined L ord v' (load_rule L r) (e_tick e)) as [[o' s'] t1'].
  destruct HS as (<- & <- & HS). destruct o; cbn; auto.
Qed.
Lemma same_one ord v v' r e : fair ord -> fresh L r -> (forall x, refers L r x -> says_alike v v' x) ->
  snd (check_one_rule L ord v (load_rule L r) e) = snd (check_one_rule L ord v' (load_rule L r) e) /\
  option_map fst (fst (check_one_rule L ord v (load_rule L r) e)) = option_map fst (fst (check_one_rule L ord v' (load_rule L r) e)).
Proof.
  intros HF HR H. destruct (same_ensured ord v v' r e HF HR H) as [E1 E2]. unfold check_one_rule, mbind.
  destruct (ensure_prepared L ord v (load_rule L r) e) as [[s|] e1], (ensure_prepared L ord v' (load_rule L r) e) as [[s'|] e1']; cbn [fst snd] in *; try contradiction; subst e1'; auto.
  destruct E2 as (_ & _ & <-). destruct (rs_prepared s) as [c|]; [|cbn; auto]. destruct (check_prepared L ord c e1) as [[x|] e2]; cbn; auto.
Qed.
Lemma same_run ord v v' rules e : fair ord -> Forall (fresh L) rules -> (forall r x, In r rules -> refers L r x -> says_alike v v' x) ->
  run_rules L ord v (map (load_rule L) rules) e = run_rules L ord v' (map (load_rule L) rules) e.
Proof.
  intros HF. revert e. induction rules as [|r rules IH]; intros e HR H; cbn [run_rules map]; auto. inversion HR; subst.
  destruct (same_one ord v v' r e HF) as [E1 E2]; auto; [intros x HX; apply (H r x); auto; left; reflexivity|]. unfold mbind.
  destruct (check_one_rule L ord v (load_rule L r) e) as [[[x s]|] e1], (check_one_rule L ord v' (load_rule L r) e) as [[[x' s']|] e1']; cbn [fst snd option_map] in *; try discriminate; subst e1'; auto.
  injection E2 as <-. rewrite IH; auto. intros r' y HI. apply H. right. exact HI.
Qed.
Theorem same_checks ord v v' rules e : fair ord -> Forall (fresh L) rules -> (forall r x, In r rules -> refers L r x -> says_alike v v' x) ->
  check L ord v (map (load_rule L) rules) e = check L ord v' (map (load_rule L) rules) e.
Proof. intros HF HR H. unfold check, mbind. rewrite (same_run ord v v'); auto. Qed.
Theorem same_tested ord v v' r e : fair ord -> fresh L r -> (forall x, refers L r x -> says_alike v v' x) ->
  option_map fst (fst (test_conditions L ord v (load_rule L r) e)) = option_map fst (fst (test_conditions L ord v' (load_rule L r) e)).
Proof.
  intros HF HR H. destruct (same_ensured ord v v' r e HF HR H) as [E1 E2]. unfold test_conditions, mbind.
  destruct (ensure_prepared L ord v (load_rule L r) e) as [[s|] e1], (ensure_prepared L ord v' (load_rule L r) e) as [[s'|] e1']; cbn [fst snd] in *; try contradiction; subst e1'; auto.
  destruct E2 as (_ & _ & <-). destruct (rs_prepared s) as [c|]; [|cbn; auto]. destruct (ru_tree c) as [n|]; [|reflexivity]. destruct (eval L ord n e1) as [[x|] e2]; reflexivity.
Qed.
Theorem same_loading ord v v' rules t : fair ord -> Forall (fresh L) rules -> (forall r x, In r rules -> refers L r x -> says_alike v v' x) ->
  snd (load_with_predefined L ord v rules t) = snd (load_with_predefined L ord v' rules t) /\
  match fst (load_with_predefined L ord v rules t), fst (load_with_predefined L ord v' rules t) with
  | Ok ss, Ok ss' => Forall2 same_state ss ss'
  | Err, Err | Panic, Panic => True
  | _, _ => False
  end.
Proof.
  intros HF. revert t. induction rules as [|r rules IH]; intros t HR H; cbn [load_with_predefined]; [cbn; auto|]. inversion HR; subst.
  pose proof (same_setting ord v v' r t HF) as HS.
  destruct (set_predefined L ord v (load_rule L r) t) as [[o s] t1], (set_predefined L ord v' (load_rule L r) t) as [[o' s'] t1'].
  destruct HS as (<- & <- & HS); auto; [intros x HX; apply (H r x); auto; left; reflexivity|]. destruct o; cbn; auto.
  destruct (IH t1) as [E1 E2]; auto; [intros r' x HI; apply H; right; exact HI|].
  destruct (load_with_predefined L ord v rules t1) as [[ss| |] t2], (load_with_predefined L ord v' rules t1) as [[ss'| |] t2']; cbn [fst snd] in *; try contradiction; auto.
Qed.
Theorem same_coverages ord v v' rules ms t : fair ord -> Forall (fresh L) rules -> (forall r x, In r rules -> refers L r x -> says_alike v v' x) ->
  coverage L ord v (map (load_rule L) rules) ms t = coverage L ord v' (map (load_rule L) rules) ms t.
Proof.
  intros HF HR H. unfold coverage. generalize (fold_left (fun rc (s : rstate L) => upsert (ru_id (rs_rule s)) (@nil string) rc) (map (load_rule L) rules) []).
  generalize (@nil (string * msg_coverage)). revert t. induction ms as [|m ms IH]; intros t mc rc; cbn [coverage_loop]; auto.
  rewrite (same_checks ord v v'); auto. destruct (check L ord v' (map (load_rule L) rules) (mkEst m t)) as [[o|] e]; auto.
Qed.
End WithLib.
