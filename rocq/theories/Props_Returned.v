(** C74: the extra data of a check is what the return values of the satisfied parts of the rules find. *)
From Coq Require Import List String Ascii Bool Arith ZArith Permutation.
From Verif Require Import Base GoStr GoFloat Types Json StrUtils Validate Prepare Parse Marshal Lifecycle Eval Check RefLib RefLib_facts Samples Spec_Tree Tree_truth Spec_Extra
  Spec_Regex Spec_Glob Spec_Match Spec_Leaf Spec_Validate Spec_Load Load_proofs Json_proofs Spec_Copy Copy_proofs Spec_Grammar Grammar_proofs Grammar_tree Spec_Raw Raw_proofs Spec_Decision
  Spec_Meaning Meaning_proofs Meaning_rules Decode_proofs Props_Copy Props_Meaning Spec_Returned Returned_proofs.
Import ListNotations.
Open Scope string_scope.

Theorem C74_tree : forall L p n0 n ord m t, NumberSpec L -> jp_prepare L "$.*" <> None -> (forall rest, jp_prepare L ("$RELATIVE" ++ rest) = None) ->
  loaded_tree L n0 -> prepare_node L p n0 = Ok n -> covered L p n0 m -> fair ord ->
  exists b x e, eval L ord n (mkEst m t) = (Some (b, x), e) /\ returned L p n0 m b x.
Proof. intros L p n0 n ord m t HN HS HX HL HP HC HF. eapply tree_evaluated; eauto. Qed.
Print Assumptions C74_tree.

Theorem C74_unique : forall L p n0 n m b x b' x', jp_prepare L "$.*" <> None -> loaded_tree L n0 -> prepare_node L p n0 = Ok n -> covered L p n0 m ->
  returned L p n0 m b x -> returned L p n0 m b' x' -> b = b' /\ Permutation x x' /\ (b = true <-> means L p n0 m).
Proof.
  intros L p n0 n m b x b' x' HS HL HP HC H H'. apply loaded_made in HL.
  destruct (returned_unique L HS p n0 HL n m b x b' x' HP HC H H') as [H1 H2]. split; [exact H1|]. split; [exact H2|]. eapply returned_means; eauto.
Qed.
Print Assumptions C74_unique.

Theorem C74_check : forall L p ord rules m t, RegexSpec L -> CidrSpec L -> NumberSpec L -> jp_prepare L "$.*" <> None ->
  (forall rest, jp_prepare L ("$RELATIVE" ++ rest) = None) -> fair ord -> ascii_message m ->
  (forall r, In r rules -> rule_covered L p r m /\ exists ord' t' s t'', fair ord' /\ set_predefined L ord' p (load_rule L r) t' = (Ok tt, s, t'')) ->
  exists o e, check L ord p (map (load_rule L) rules) (mkEst m t) = (Some o, e) /\
    Forall2 (fun r x => rule_returned L p r m x) rules (out_extra o).
Proof.
  intros L p ord rules m t H1 H2 H3 H4 H5 HF HA HG. apply check_extra; auto.
  intros r HR. destruct (HG r HR) as [HC (ord' & t' & s & t'' & HF' & HS)]. eapply set_prepares; eauto.
Qed.
Print Assumptions C74_check.

(** TestConditions looks at nothing but the conditions; a rule without conditions fails it, although CheckOneRule lets it decide *)
Theorem C74_test : forall L p ord r m t, NumberSpec L -> jp_prepare L "$.*" <> None -> (forall rest, jp_prepare L ("$RELATIVE" ++ rest) = None) -> fair ord ->
  rule_covered L p r m -> (exists ord' t' s t'', fair ord' /\ set_predefined L ord' p (load_rule L r) t' = (Ok tt, s, t'')) ->
  exists b x s e, test_conditions L ord p (load_rule L r) (mkEst m t) = (Some ((b, x), s), e) /\
    match ru_tree r with None => b = false /\ x = [] | Some n => returned L p n m b x end.
Proof.
  intros L p ord r m t HN HS HX HF HC (ord' & t' & s & t'' & HF' & HP). apply tested_extra; auto. eapply set_prepares; eauto.
Qed.
Print Assumptions C74_test.

(** ** The tree of C54 with return values: two that are found and one that is not *)
Definition c74_text : string :=
  "{'AND':[{'ANY':{'parentJsonpathAttribute':'jsonpath:$.x[:]','returnValueJsonpath':{'all':'jsonpath:$RELATIVE','got':'jsonpath:$RELATIVE.a','lost':'jsonpath:$RELATIVE.b'},'condition':{'attribute':'jsonpath:$RELATIVE.a','method':'GT','value':'4'}}},{'attribute':'senderLabel[app]','method':'EQ','value':'#app'}]}".
Definition c74_tree : option (node RefLib) :=
  match json_parse RefLib (quotes c74_text) with
  | Some v => match parse_conditions_tree RefLib in_order v 0 with (Ok n, _) => Some n | _ => None end
  | None => None
  end.
Definition c74_rule : rule RefLib := sample_rule "front*, ?x" "workload" "#back" "workload" "*" "*" "*" "read" c74_tree "alert".
Definition c74_extra (raw : bool) (x : string) : option (list extra) :=
  option_map out_extra (fst (check RefLib in_order c54_predef [load_rule RefLib c74_rule] (mkEst (c54_msg raw x) 0))).
Lemma c74_covered raw x : In x ["5"; "3"] -> rule_covered RefLib c54_predef c74_rule (c54_msg raw x).
Proof.
  intro HX. destruct (c54_covered raw x HX) as [H1 H2 H3 H4 H5 _]. constructor; [exact H1|exact H2|exact H3|exact H4|exact H5|].
  intros n HN. change (c74_tree = Some n) in HN. split.
  - split.
    + assert (HB : match c74_tree with Some n => copyableb n | None => false end = true) by (vm_compute; reflexivity). rewrite HN in HB. apply copyableb_ok. exact HB.
    + unfold c74_tree in HN. destruct (json_parse RefLib (quotes c74_text)) as [v|] eqn:HJ; [|discriminate].
      destruct (parse_conditions_tree RefLib in_order v 0) as [[n'| |] t'] eqn:HL; try discriminate HN. injection HN as ->.
      exists v. pose proof (parsed_go_value RefLib _ _ HJ) as HG. split; [exact HG|]. exact (grammar_sound RefLib in_order v 0 n t' in_order_fair HG HL).
  - apply c54_shape_meaning; [rewrite <- HN; vm_compute; reflexivity|exact HX].
Qed.
Definition c74_five : iface := GMapS [("a", GStr "5")].
Example C74_case :
  (forall raw x, In x ["5"; "3"] -> ascii_message (c54_msg raw x) /\ rule_covered RefLib c54_predef c74_rule (c54_msg raw x)) /\
  (exists s t, set_predefined RefLib in_order c54_predef (load_rule RefLib c74_rule) 0 = (Ok tt, s, t)) /\
  c74_extra false "5" = Some [[[("all", c74_five); ("got", GStr "5"); ("lost", GNil)]]] /\
  c74_extra true "5" = Some [[[("all", c74_five); ("got", GStr "5")]]] /\
  c74_extra false "3" = Some [[]] /\ c74_extra true "3" = Some [[]] /\
  option_map fst (fst (test_conditions RefLib in_order c54_predef (load_rule RefLib c74_rule) (mkEst (c54_msg true "5") 0))) = Some (true, [[("all", c74_five); ("got", GStr "5")]]).
Proof.
  split; [|split; [|repeat split; vm_compute; reflexivity]].
  - intros raw x HX. split; [|apply c74_covered; exact HX]. apply ascii_messageb_ok. destruct raw, HX as [<-|[<-|[]]]; vm_compute; reflexivity.
  - assert (H : match set_predefined RefLib in_order c54_predef (load_rule RefLib c74_rule) 0 with (Ok tt, _, _) => true | _ => false end = true) by (vm_compute; reflexivity).
    destruct (set_predefined RefLib in_order c54_predef (load_rule RefLib c74_rule) 0) as [[[[]| |] s] t]; try discriminate H. exists s, t. reflexivity.
Qed.

(** ** A condition that returns a value of the current element: null on parsed documents, whatever the element *)
Theorem C74_relative : forall L m rest v, (forall rest, jp_prepare L ("$RELATIVE" ++ rest) = None) -> m_raw m <> None ->
  condition_value L ("jsonpath:$RELATIVE" ++ rest) m v -> v = Some GNil.
Proof. intros L m rest v HR. exact (relative_null L HR m rest v). Qed.
Print Assumptions C74_relative.
Example C74_relative_case : exists v, condition_value RefLib "jsonpath:$RELATIVE.a" (c54_at false (c54_msg false "5") "5") v.
Proof.
  exists (Some GNil), true, "$RELATIVE.a". split; [split; auto; intros _; exists ".a"; reflexivity|]. split; [apply first_swapped_iff; reflexivity|].
  apply vf_no_query; [discriminate|discriminate|reflexivity].
Qed.
