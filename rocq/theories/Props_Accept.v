(** C58: which rules can be prepared, loaded and validated. *)
From Coq Require Import List String Ascii Bool Arith ZArith.
From Verif Require Import Base GoStr GoFloat Types Json StrUtils GoStr_facts Validate Prepare Parse Marshal Lifecycle Eval Check
  Spec_Tree Tree_truth Spec_Decision Spec_Regex Spec_Glob Spec_Match Spec_Leaf Number_proofs Leaf_proofs Leaf_laws Leaf_samples Spec_Validate Validate_proofs Prepare_proofs Spec_Load Load_proofs Decode_proofs
  Spec_Copy Spec_Grammar Grammar_proofs Grammar_tree Spec_Raw Spec_Meaning Meaning_proofs Meaning_rules Spec_Accept Accept_proofs Accept_rules
  RefLib RefLib_facts RefLib_numbers Samples Props_Match Props_Copy Props_Strings Props_Text Props_InPlace Props_Meaning.
Import ListNotations.
Open Scope string_scope.

(** [preparable], [preparable_tree], [preparable_rule], [valid_rule]: from the texts of the rule and the dictionary
    (Spec_Accept); [ordinary]: a rule as loaded, whose names and operations are patterns and whose paths have matching
    quotation marks. *)
Theorem C58_condition : forall L p att method value ret, well_quoted att ->
  ((exists c, prepares L p att method value ret c) <-> acceptable L att method value /\ preparable L p att method value).
Proof. exact prepares_iff. Qed.
Print Assumptions C58_condition.

Theorem C58_tree : forall L p v n, go_value v -> reads L "" v n -> well_quoted_tree L n ->
  ((exists n', prepare_node L p n = Ok n') <-> preparable_tree L p n).
Proof. exact read_preparable. Qed.
Print Assumptions C58_tree.

(** SetPredefinedStringsAndLists *)
Theorem C58_rule : forall L p (r : rule L) ord t, RegexSpec L -> fair ord -> ordinary L p r ->
  ((exists s t', set_predefined L ord p (load_rule L r) t = (Ok tt, s, t')) <-> preparable_rule L p r) /\
  (complete L r -> ~ preparable_rule L p r -> exists s t', set_predefined L ord p (load_rule L r) t = (Err, s, t')).
Proof. intros L p r ord t HR. exact (set_outcome L p HR r ord t). Qed.
Print Assumptions C58_rule.

(** loading a list of rules with a dictionary *)
Theorem C58_load : forall L p ord (rs : list (rule L)) t, RegexSpec L -> fair ord -> Forall (ordinary L p) rs ->
  ((exists ss t', load_with_predefined L ord p rs t = (Ok ss, t')) <-> Forall (preparable_rule L p) rs) /\
  (Forall (complete L) rs -> ~ Forall (preparable_rule L p) rs -> exists t', load_with_predefined L ord p rs t = (Err, t')) /\
  (forall ss t', load_with_predefined L ord p rs t = (Ok ss, t') ->
     Forall2 (fun r s => forall ord' u, fair ord' -> exists u', set_predefined L ord' p (load_rule L r) u = (Ok tt, s, u')) rs ss).
Proof. intros L p ord rs t HR HF HO. exact (list_loads L p HR ord rs HF HO t). Qed.
Print Assumptions C58_load.

(** GetPreparedRule after a call of SetPredefinedStringsAndLists, whatever happened before it *)
Theorem C58_get_prepared : forall L p (s : rstate L) ord t, fair ord -> ordinary L p (rs_rule s) ->
  match set_predefined L ord p s t with
  | (Ok _, s', _) => exists c, get_prepared L s' = Some c /\ prepared_from L p (rs_rule s) c
  | (_, s', _) => get_prepared L s' = Some (empty_rule L)
  end.
Proof. intros L p s ord t HF HO. exact (prepared_get L p (rs_rule s) s ord t HF HO eq_refl). Qed.
Print Assumptions C58_get_prepared.

(** PrepareRulesWithPredefinedStrings *)
Theorem C58_in_place : forall L p (rs : list (rule L)), RegexSpec L -> Forall (ordinary L p) rs ->
  ((exists rs', prepare_rules L p rs = Ok rs') <-> Forall (preparable_rule L p) rs) /\
  (Forall (complete L) rs -> ~ Forall (preparable_rule L p) rs -> prepare_rules L p rs = Err) /\
  (forall rs', prepare_rules L p rs = Ok rs' -> Forall2 (prepared_from L p) rs rs').
Proof. intros L p rs HR. exact (prepares_list L p HR rs). Qed.
Print Assumptions C58_in_place.

(** ValidateRule *)
Theorem C58_validate : forall L (r : rule L) ord t, RegexSpec L -> fair ord -> underived L r ->
  (forall n, ru_tree r = Some n -> loaded_tree L n /\ well_quoted_tree L n) ->
  Forall pattern_ok [ru_sender_name r; ru_receiver_name r; ru_operation r; ru_resource_name r] ->
  ((exists t', validate_rule L ord r t = (Ok tt, t')) <-> valid_rule L r).
Proof. intros L r ord t HR. exact (validation L HR r ord t). Qed.
Print Assumptions C58_validate.

Theorem C58_validate_agrees : forall L (r : rule L), ~ starts "#" (ru_sender_name r) -> ~ starts "#" (ru_receiver_name r) ->
  (valid_rule L r <-> preparable_rule L empty_predef r).
Proof. exact validation_preparation. Qed.
Print Assumptions C58_validate_agrees.

(** Check on rules as written: nothing is assumed of the engine's own preparation *)
Theorem C58_check : forall L p ord rules m t, RegexSpec L -> CidrSpec L -> NumberSpec L -> jp_prepare L "$.*" <> None ->
  (forall rest, jp_prepare L ("$RELATIVE" ++ rest) = None) -> fair ord -> ascii_message m ->
  (forall r, In r rules -> ordinary L p r /\ preparable_rule L p r /\ rule_covered L p r m) ->
  exists o e, check L ord p (map (load_rule L) rules) (mkEst m t) = (Some o, e) /\
    Forall2 (fun r d => verdict L p r m d) rules (out_results o) /\ decision_is_strictest (out_results o) (out_decision o).
Proof. exact check_written. Qed.
Print Assumptions C58_check.

(** and on rules loaded with a dictionary, whatever the global dictionary is *)
Theorem C58_loaded_check : forall L p ord ord' g rules m t u, RegexSpec L -> CidrSpec L -> NumberSpec L -> jp_prepare L "$.*" <> None ->
  (forall rest, jp_prepare L ("$RELATIVE" ++ rest) = None) -> fair ord -> fair ord' -> ascii_message m ->
  Forall (ordinary L p) rules -> Forall (preparable_rule L p) rules -> Forall (fun r => rule_covered L p r m) rules ->
  exists ss t' o e, load_with_predefined L ord' p rules u = (Ok ss, t') /\ check L ord g ss (mkEst m t) = (Some o, e) /\
    Forall2 (fun r d => verdict L p r m d) rules (out_results o) /\ decision_is_strictest (out_results o) (out_decision o).
Proof. exact loaded_check_written. Qed.
Print Assumptions C58_loaded_check.

(** values without special characters need no check of expressions *)
Theorem C58_plain : forall L att method value k p, RegexSpec L -> method_is method k -> k <> KIn -> k <> KNin -> ~ starts "jsonpath:" att ->
  all_chars plain_char value -> ~ starts "#" value -> acceptable L att method value -> preparable L p att method value.
Proof. intros L att method value k p HR HM N1 N2 HJ HC HS HA. exact (plain_preparable L att method value k HR HM N1 N2 HJ HC HS HA p). Qed.
Print Assumptions C58_plain.

(** ** Examples *)
Fixpoint conds (n : node RefLib) : list (cond RefLib) :=
  match n with
  | NCond c => [c]
  | NAnd ns | NOr ns => flat_map conds ns
  | NNot n => conds n
  | NQuant _ _ n => conds n
  | _ => []
  end.
Lemma conds_ok n c : has_condition RefLib n c -> In c (conds n).
Proof.
  induction 1; cbn [conds]; [left; reflexivity| | |exact IHhas_condition|exact IHhas_condition];
    apply in_flat_map; exists n; split; assumption.
Qed.
Definition unmarkedb (att : string) : bool :=
  forallb (fun c => negb (Ascii.eqb c sq) && negb (Ascii.eqb c dq)) (list_ascii_of_string att) && negb (String.prefix "jsonpath:$KEY" att) && negb (String.prefix "jsonpath:$VALUE" att).
Lemma unmarkedb_ok att : unmarkedb att = true -> well_quoted att.
Proof.
  unfold unmarkedb. rewrite !andb_true_iff, !negb_true_iff. intros [[H1 H2] H3]. apply unmarked_well_quoted.
  - revert H1. clear. induction att as [|c s IH]; [intros _; exact I|]. cbn [list_ascii_of_string forallb]. rewrite andb_true_iff. intros [H1 H2]. split; [|auto].
    rewrite andb_true_iff, !negb_true_iff, !Ascii.eqb_neq in H1. intros [E|E]; tauto.
  - intros rest -> _. apply not_true_iff_false in H2. apply H2. apply prefix_iff. exists rest. reflexivity.
  - intros rest -> _. apply not_true_iff_false in H3. apply H3. apply prefix_iff. exists rest. reflexivity.
Qed.
Definition quotedb (t : option (node RefLib)) : bool := match t with Some n => forallb (fun c => unmarkedb (c_attr c)) (conds n) | None => true end.
Lemma quotedb_ok n : quotedb (Some n) = true -> well_quoted_tree RefLib n.
Proof. intros H c HC. cbn [quotedb] in H. rewrite forallb_forall in H. apply unmarkedb_ok. apply H. apply conds_ok. exact HC. Qed.
Lemma c58_names p name : (forall v, replace_name p name = Ok v -> pattern_ok v) -> forall v, replaced_name p name v -> pattern_ok v.
Proof. intros H v HV. apply H. apply replace_name_iff. exact HV. Qed.
Lemma c58_tree text n : load_sample text = Some n -> copyableb n = true -> quotedb (Some n) = true -> loaded_tree RefLib n /\ well_quoted_tree RefLib n.
Proof.
  intros HL HC HQ. split; [|apply quotedb_ok; exact HQ]. split; [apply copyableb_ok; exact HC|].
  destruct (load_sample_ok _ _ HL) as (ord & v & t & t' & HF & HG & HP). exists v. split; [exact HG|]. exact (grammar_sound RefLib ord v t n t' HF HG HP).
Qed.
(** rules with a condition on the user agent *)
Definition c58_rule (who type att method v : string) : rule RefLib :=
  sample_rule who type "*" "workload" "*" "*" "*" "*" (load_sample (cond_text att method v)) "block".
Definition textb (s : string) : bool :=
  forallb (fun c => (nat_of_ascii c <? 128)%nat && negb (existsb (Ascii.eqb c) ["\"; "+"; "("; ")"; "|"; "["; "]"; "{"; "}"]%char)) (list_ascii_of_string s).
Definition c58_okb (p : predef) (who att method v : string) : bool :=
  match load_sample (cond_text att method v) with Some n => copyableb n && quotedb (Some n) | None => false end &&
  match replace_name p who with Ok v => textb v | _ => true end.
Lemma c58_ordinary p who type att method v : c58_okb p who att method v = true -> ordinary RefLib p (c58_rule who type att method v).
Proof.
  unfold c58_okb. rewrite andb_true_iff. intros [H1 H2]. constructor.
  - repeat split.
  - cbn [c58_rule sample_rule ru_tree]. intros n HN. rewrite HN in H1. apply andb_true_iff in H1. destruct H1 as [H1 H3]. exact (c58_tree _ _ HN H1 H3).
  - constructor; cbn [c58_rule sample_rule ru_sender_name ru_receiver_name ru_operation ru_resource_name].
    + apply c58_names. intros x E. rewrite E in H2. apply pattern_okb. exact H2.
    + apply c58_names. intros x E. injection E as <-. apply pattern_okb. reflexivity.
    + apply pattern_okb. reflexivity.
    + apply pattern_okb. reflexivity.
Qed.
Definition sets (p : predef) (r : rule RefLib) : bool := match set_predefined RefLib in_order p (load_rule RefLib r) 0 with (Ok tt, _, _) => true | _ => false end.
Lemma sets_ok p r : ordinary RefLib p r -> (sets p r = true <-> preparable_rule RefLib p r).
Proof.
  intro HO. rewrite <- (proj1 (set_outcome RefLib p RefLib_regex r in_order 0 in_order_fair HO)). unfold sets.
  destruct (set_predefined RefLib in_order p (load_rule RefLib r) 0) as [[[[]| |] s] t]; split; intro H; try discriminate H; eauto; destruct H as (? & ? & H); discriminate H.
Qed.
Definition validates (r : rule RefLib) : bool := match validate_rule RefLib in_order r 0 with (Ok tt, _) => true | _ => false end.
Definition loads_all (p : predef) (rs : list (rule RefLib)) : option nat := match load_with_predefined RefLib in_order p rs 0 with (Ok ss, _) => Some (List.length ss) | _ => None end.

Lemma c54_ordinary : ordinary RefLib c54_predef c54_rule.
Proof.
  constructor.
  - repeat split.
  - intros n HN. change (c54_tree = Some n) in HN. split; [apply c54_loaded; exact HN|].
    assert (H : quotedb c54_tree = true) by (vm_compute; reflexivity). rewrite HN in H. apply quotedb_ok. exact H.
  - constructor.
    + apply c58_names. intros x E. injection E as <-. apply pattern_okb. vm_compute. reflexivity.
    + apply c58_names. intros x E. change (Ok "back.*,cache" = Ok x) in E. injection E as <-. apply pattern_okb. vm_compute. reflexivity.
    + apply pattern_okb. vm_compute. reflexivity.
    + apply pattern_okb. vm_compute. reflexivity.
Qed.
Definition c58_dict : predef := mkPredef [("nets", "10.0.0.0/8,1.2.3.4"); ("bad", "1.2.3"); ("ua", "curl/*")] [("agents", ["curl"; "wget"])] [("agents", ["curl"; "wget"])].
Definition c58_rules : list (rule RefLib * bool) :=
  [(c58_rule "#nets" "subnet" "requestUseragent" "EQ" "#ua", true); (c58_rule "#bad" "subnet" "requestUseragent" "EQ" "#ua", false);
   (c58_rule "#bad" "workload" "requestUseragent" "EQ" "#ua", true); (c58_rule "#none" "workload" "requestUseragent" "EQ" "#ua", false);
   (c58_rule "*" "workload" "requestUseragent" "IN" "#agents", true); (c58_rule "*" "workload" "requestUseragent" "IS" "(", false)].
Definition got (p : predef) (r : rule RefLib) : option (rule RefLib) := let '(_, s, _) := set_predefined RefLib in_order p (load_rule RefLib r) 0 in get_prepared RefLib s.
Example C58_case : RegexSpec RefLib /\ ordinary RefLib c54_predef c54_rule /\ preparable_rule RefLib c54_predef c54_rule /\
  (forall x, In x c58_rules -> ordinary RefLib c58_dict (fst x) /\ (preparable_rule RefLib c58_dict (fst x) <-> snd x = true)) /\
  (forall x, In x c58_rules -> get_prepared RefLib (load_rule RefLib (fst x)) = Some (empty_rule RefLib)) /\
  option_map ru_sender_name (got c58_dict (c58_rule "#nets" "subnet" "requestUseragent" "EQ" "#ua")) = Some "10.0.0.0/8,1.2.3.4" /\
  option_map ru_sender_name (got c58_dict (c58_rule "#bad" "subnet" "requestUseragent" "EQ" "#ua")) = Some "" /\
  loads_all c58_dict (map fst (filter snd c58_rules)) = Some 3 /\ loads_all c58_dict (map fst c58_rules) = None /\
  map (fun x => validates (fst x)) c58_rules = [false; false; false; false; false; false] /\
  map (fun s => validates (c58_rule s "subnet" "requestUseragent" "EQ" "curl")) ["10.0.0.0/8, 1.2.3.4"; "10.0.0.0/8,1.2.3.4"; "*"; "1.2.3"] = [false; true; true; false].
Proof.
  split; [exact RefLib_regex|]. split; [exact c54_ordinary|]. split; [apply (sets_ok _ _ c54_ordinary); vm_compute; reflexivity|].
  split; [|split; [intros x _; reflexivity|repeat split; vm_compute; reflexivity]].
  assert (A : forall who type att method v b, c58_okb c58_dict who att method v = true -> sets c58_dict (c58_rule who type att method v) = b ->
     ordinary RefLib c58_dict (c58_rule who type att method v) /\ (preparable_rule RefLib c58_dict (c58_rule who type att method v) <-> b = true)).
  { intros who type att method v b H1 <-. apply (c58_ordinary _ _ type) in H1. split; [exact H1|]. symmetry. apply sets_ok. exact H1. }
  intros x HX. repeat (destruct HX as [<-|HX]; [apply A; vm_compute; reflexivity|]). destruct HX.
Qed.

(** a path with a quoted name, one in brackets, and one in double quotation marks *)
Example C58_query_case : query_of "$.'a.b'.c" false "$.a.b.c" /\ query_of ".x.['a b']" false (quotes "$.x['a b']") /\
  query_of (quotes "$RELATIVE.'a'") true "$.a" /\ query_of "$KEY" true "$KEY" /\ ~ well_quoted "jsonpath:$.'a.'.b".
Proof.
  assert (Q : forall c : ascii, forallb (fun q => negb (Ascii.eqb c q)) [sq; dq] = true -> ~ quote_mark c).
  { intros c H [->| ->]; discriminate H. }
  split; [|split; [|split; [|split]]].
  - apply (qo_absolute ".'a.b'.c" "$.a.b.c"); [exists "'a.b'.c"; reflexivity|]. apply uq_char; [discriminate|].
    apply (uq_name sq "a.b" ".c" ".c"); [left; reflexivity|repeat split; apply Q; reflexivity| |].
    + intros a E. destruct a as [|? [|? [|? [|]]]]; discriminate E.
    + apply unmarked. repeat split; apply Q; reflexivity.
  - apply (qo_short ".x.['a b']" "$.x.['a b']"); [exists "x.['a b']"; reflexivity|].
    repeat (apply uq_char; [intros ? ? ? HQ E; injection E as E _; try (discriminate); revert HQ; rewrite <- E; apply Q; reflexivity|]).
    repeat (apply uq_char; [discriminate|]). constructor.
  - apply (qo_relative (quotes ".'a'") "$.a"); [exists (quotes "'a'"); reflexivity|]. apply uq_char; [discriminate|].
    apply (uq_name dq "a" "" ""); [right; reflexivity|repeat split; apply Q; reflexivity| |constructor].
    intros x E. destruct x as [|? [|? x]]; discriminate E.
  - apply (qo_key "" "$KEY"); [intros [r E]; discriminate E|intros (a & b & E); destruct a; discriminate E|]. apply unmarked. repeat split; apply Q; reflexivity.
  - intro H. destruct (H "$.'a.'.b" eq_refl) as (rel & q & HQ); [right; left; exists "'a.'.b"; reflexivity|].
    assert (HU : forall u, ~ unquoted "$.'a.'.b" u).
    { assert (HX : forall s u, unquoted s u -> s = ".'a.'.b" -> False).
      { intros s u [|q1 name rest r2 HM HN HE _|c rest r2 HC _] E; [discriminate E| |].
        - destruct name as [|n1 [|n2 [|n3 name]]]; cbn [append] in E; try discriminate E.
          + injection E as -> E. discriminate E.
          + injection E as -> -> E. discriminate E.
          + injection E as _ -> -> _ . apply (HE "a"). reflexivity.
          + injection E as _ _ _ -> _. destruct HN as (_ & _ & HN & _). apply HN. left. reflexivity.
        - injection E as -> ->. apply (HC eq_refl sq "a.'.b"); [left; reflexivity|reflexivity]. }
      assert (HY : forall s u, unquoted s u -> s = "$.'a.'.b" -> False).
      { intros s u [|q1 name rest r2 HM HN HE _|c rest r2 HC HR] E; try discriminate E. injection E as _ ->. exact (HX _ _ HR eq_refl). }
      intros u HU. exact (HY _ _ HU eq_refl). }
    inversion HQ; subst; try (eapply HU; eassumption); match goal with H : starts _ _ |- _ => destruct H as [? H]; discriminate H end.
Qed.

(** *** What does not hold *)
(** ValidateRule does not look up names: it accepts a rule that no dictionary without that name can prepare *)
Theorem C58_validate_refuted : exists r : rule RefLib, (exists t, validate_rule RefLib in_order r 0 = (Ok tt, t)) /\
  exists s t, set_predefined RefLib in_order empty_predef (load_rule RefLib r) 0 = (Err, s, t).
Proof.
  exists (c58_rule "#x" "workload" "requestUseragent" "EQ" "curl"). split.
  - assert (H : validates (c58_rule "#x" "workload" "requestUseragent" "EQ" "curl") = true) by (vm_compute; reflexivity). unfold validates in H.
    destruct (validate_rule _ _ _ _) as [[[]| |] t]; try discriminate H. exists t. reflexivity.
  - assert (H : match set_predefined RefLib in_order empty_predef (load_rule RefLib (c58_rule "#x" "workload" "requestUseragent" "EQ" "curl")) 0 with (Err, _, _) => true | _ => false end = true) by (vm_compute; reflexivity).
    destruct (set_predefined _ _ _ _ _) as [[[| |] s] t]; try discriminate H. exists s, t. reflexivity.
Qed.
Print Assumptions C58_validate_refuted.

(** conditions that are accepted when loaded can fail with every dictionary *)
Theorem C58_accepted_refuted : exists att method value, acceptable RefLib att method value /\ well_quoted att /\
  forall p ret c, ~ prepares RefLib p att method value ret c.
Proof.
  exists "requestUseragent", "EQ", "(". split; [|split].
  - apply (condition_accepted RefLib _ _ _ no_ret). assert (H : match validate_condition RefLib (written RefLib "requestUseragent" "EQ" "(" no_ret) with Ok _ => true | _ => false end = true) by (vm_compute; reflexivity).
    destruct (validate_condition _ _) as [c| |]; try discriminate H. eauto.
  - apply unmarkedb_ok. vm_compute. reflexivity.
  - intros p ret c HP. assert (HA : exists c, prepares RefLib p "requestUseragent" "EQ" "(" ret c) by eauto. clear c HP.
    apply prepares_iff in HA; [|apply unmarkedb_ok; vm_compute; reflexivity]. destruct HA as (_ & v & HR & _ & _ & HC & _).
    assert (EV : v = "(") by (inversion HR; subst; try reflexivity; discriminate). subst v. apply HC; [intros [r E]; discriminate E|vm_compute; reflexivity].
Qed.
Print Assumptions C58_accepted_refuted.
