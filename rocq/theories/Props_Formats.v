(** C75: the same rules written in JSON and in YAML are the same rules. *)
From Coq Require Import List String Ascii Bool Arith ZArith.
From Verif Require Import Base GoStr GoFloat Types Json StrUtils Validate Prepare Parse Marshal Lifecycle Eval Check JsonDoc Yaml
  Spec_Tree Spec_Leaf Spec_Load Spec_Grammar Spec_Meaning Spec_Formats Formats_proofs RefLib RefLib_facts Samples Props_Meaning.
From Verif Require Spec_Json Spec_JsonDoc JsonDoc_proofs JsonDoc_structs Spec_Yaml Props_JsonDoc Props_Yaml.
Import ListNotations.
Open Scope string_scope.

(** ** C75 *)
(** [same_document L j y] (Spec_Formats): the JSON document [j] and the YAML document [y] are the same entry by entry.  What is read
    from the JSON text is then also read from the YAML document, and the other way round if texts are written as texts. *)
Theorem C75_rules : forall L ord ord' re_text exp_in re_text' s j y t u rs, fair ord -> fair ord' -> Spec_JsonDoc.is_document j s -> same_document L j y ->
  Spec_JsonDoc.distinct_rules j -> Spec_JsonDoc.plain_document j -> Spec_JsonDoc.single_trees L j -> exact_keys j -> plain_values j -> conditions_written j -> Spec_Yaml.clean y ->
  ((exists t', json_rules L ord re_text exp_in s t = (Ok rs, t')) -> exists u', read_rules L ord' re_text' y u = (Ok rs, u')) /\
  (quoted_texts j -> (exists u', read_rules L ord' re_text' y u = (Ok rs, u')) -> exists t', json_rules L ord re_text exp_in s t = (Ok rs, t')).
Proof. exact same_rules. Qed.
Print Assumptions C75_rules.
(** what the documents say, even where the order of visiting maps matters *)
Theorem C75_says : forall L s j y rs, Spec_JsonDoc.is_document j s -> same_document L j y -> exact_keys j -> plain_values j -> conditions_written j -> Spec_Yaml.clean y ->
  (Spec_JsonDoc.says_rules L j rs -> Spec_Yaml.rules_text L y rs) /\ (quoted_texts j -> Spec_Yaml.rules_text L y rs -> Spec_JsonDoc.says_rules L j rs).
Proof. intros L s j y rs (w1 & s0 & w2 & _ & _ & HS & _) HD HX HV HW HC. split; [eapply says_over; eauto|eapply says_back; eauto]. Qed.
Print Assumptions C75_says.

(** ** A concrete document *)
Fixpoint twin (j : json) : yaml :=
  match j with
  | JNull => YScalar "null" GNil
  | JBool b => YScalar (if b then "true" else "false") (GBool b)
  | JNum s => YScalar s (match parse_int s with Some z => GInt z | None => match parse_float RefLib s with Some f => GFloat f | None => GNil end end)
  | JStr _ s => YScalar s (GStr s)
  | JArr _ l => YSeq (map twin l)
  | JObj _ m => YMap (map (fun e => (YScalar (fst e) (GStr (fst e)), twin (snd e))) m)
  end.
Fixpoint numbersb (j : json) : bool :=
  match j with
  | JNum s => match parse_float RefLib s with
              | Some f => match parse_int s with Some z => String.eqb (fmt_int z) (fmt_float RefLib f) | None => true end
              | None => false
              end
  | JArr _ l => forallb numbersb l
  | JObj _ m => forallb (fun e => numbersb (snd e)) m
  | _ => true
  end.
Lemma twin_same : forall j, numbersb j = true -> same_document RefLib j (twin j).
Proof.
  fix IH 1. intros [|b|s|raw s|raw l|raw m] H; cbn [numbersb twin] in *.
  - constructor.
  - constructor.
  - destruct (parse_float RefLib s) as [f|] eqn:EF; [|discriminate H]. destruct (parse_int s) as [z|].
    + apply (sd_number RefLib s f); auto; [left; eauto|]. apply String.eqb_eq in H. exact H.
    + apply (sd_number RefLib s f); auto. right. eauto.
  - constructor.
  - constructor. induction l as [|a l IHl]; constructor; cbn in H; apply andb_true_iff in H; destruct H as [H1 H2]; auto.
  - constructor. induction m as [|[k a] m IHm]; constructor; cbn in H; apply andb_true_iff in H; destruct H as [H1 H2]; [split; [reflexivity|apply IH; exact H1]|apply IHm; exact H2].
Qed.
Definition all_keys : list string := ("rules" :: rule_keys ++ side_keys)%list.
Definition exact_key (key : string) : bool := forallb (fun k => implb (String.eqb (fold_text key) (fold_text k)) (String.eqb key k)) all_keys.
Fixpoint exactb (j : json) : bool :=
  match j with
  | JArr _ l => forallb exactb l
  | JObj _ m => forallb (fun e => exact_key (fst e) && exactb (snd e)) m
  | _ => true
  end.
Lemma exactb_obj raw m : exactb (JObj raw m) = true -> (forall ks, incl ks all_keys -> exact m ks) /\ forall k j, Spec_JsonDoc.at_key m k j -> exactb j = true.
Proof.
  cbn [exactb]. rewrite forallb_forall. intro H. split.
  - intros ks HK k key j HI HM HS. specialize (H _ HM). cbn [fst] in H. apply andb_true_iff in H. destruct H as [H _]. unfold exact_key in H. rewrite forallb_forall in H.
    specialize (H k (HK k HI)). apply JsonDoc_structs.same_key_iff in HS. rewrite HS, String.eqb_refl in H. cbn in H. apply String.eqb_eq in H. exact H.
  - intros k j (key & _ & HI). specialize (H _ HI). apply andb_true_iff in H. tauto.
Qed.
Lemma incl_rules : incl ["rules"] all_keys. Proof. intros k [<-|[]]. left. reflexivity. Qed.
Lemma incl_rule : incl rule_keys all_keys. Proof. intros k H. right. apply in_or_app. auto. Qed.
Lemma incl_side : incl side_keys all_keys. Proof. intros k H. right. apply in_or_app. auto. Qed.
Lemma exactb_ok j : exactb j = true -> exact_keys j.
Proof.
  intro H. split.
  - intros raw m ->. apply (proj1 (exactb_obj _ _ H)). exact incl_rules.
  - intros m (raw & d & raw' & l & raw'' & -> & HK & HI). apply exactb_obj in H. destruct H as [_ H]. apply H in HK. cbn [exactb] in HK. rewrite forallb_forall in HK.
    apply HK in HI. apply exactb_obj in HI. destruct HI as [H1 H2]. split; [apply H1; exact incl_rule|]. intros k r s _ HS. apply H2 in HS. apply (proj1 (exactb_obj _ _ HS)). exact incl_side.
Qed.
Fixpoint no_objectb (j : json) : bool :=
  match j with JArr _ l => forallb no_objectb l | JObj _ _ => false | _ => true end.
Lemma no_objectb_ok : forall j, no_objectb j = true -> no_object j.
Proof.
  fix IH 1. intros [|b|s|raw s|raw l|raw m] H; cbn [no_objectb] in H; try (constructor; fail); [|discriminate H].
  constructor. induction l as [|a l IHl]; constructor; cbn in H; apply andb_true_iff in H; destruct H as [H1 H2]; auto.
Qed.
Fixpoint valuesb (j : json) : bool :=
  match j with
  | JArr _ l => forallb valuesb l
  | JObj _ m => forallb (fun e => (if existsb (String.eqb (fst e)) ["value"; "Value"] then no_objectb (snd e) else true) && valuesb (snd e)) m
  | _ => true
  end.
Lemma valuesb_ok : forall j, valuesb j = true -> plain_values j.
Proof.
  fix IH 1. intros [|b|s|raw s|raw l|raw m] H; cbn [valuesb] in H; try (constructor; fail).
  - constructor. induction l as [|a l IHl]; constructor; cbn in H; apply andb_true_iff in H; destruct H as [H1 H2]; auto.
  - constructor. induction m as [|[k a] m IHm]; constructor; cbn [forallb fst snd] in *; apply andb_true_iff in H; destruct H as [H1 H2]; auto.
    apply andb_true_iff in H1. destruct H1 as [H0 H1]. split; auto. intro HI.
    replace (existsb (String.eqb k) ["value"; "Value"]) with true in H0 by (symmetry; apply existsb_exists; exists k; rewrite String.eqb_refl; auto). apply no_objectb_ok. exact H0.
Qed.
Definition written_conditions (c : json) : bool := negb (existsb (String.eqb (raw_of c)) ["null"; "{}"; "[]"]).
Lemma writtenb_ok j : Props_JsonDoc.conditionsb written_conditions j = true -> conditions_written j.
Proof.
  intros H c HC HI. pose proof (Props_JsonDoc.conditionsb_ok _ _ _ H HC) as HX. apply negb_true_iff in HX. apply not_true_iff_false in HX. apply HX.
  apply existsb_exists. exists (raw_of c). rewrite String.eqb_refl. auto.
Qed.
Definition a_textb (j : json) : bool := match j with JNull | JStr _ _ => true | _ => false end.
Lemma a_textb_ok j : a_textb j = true -> a_text j.
Proof. destruct j; intro H; try discriminate H; [left; reflexivity|right; eauto]. Qed.
Definition quoted_key (e : string * json) : bool :=
  (if existsb (String.eqb (fold_text (fst e))) (map fold_text (text_keys ++ side_keys)) then a_textb (snd e) else true) &&
  (if String.eqb (fold_text (fst e)) "metadata" then match snd e with JObj _ s => forallb (fun x => a_textb (snd x)) s | _ => true end else true).
Fixpoint quotedb (j : json) : bool :=
  match j with
  | JArr _ l => forallb quotedb l
  | JObj _ m => forallb (fun e => quoted_key e && quotedb (snd e)) m
  | _ => true
  end.
Lemma quotedb_obj raw m : quotedb (JObj raw m) = true ->
  (forall k x, In k (text_keys ++ side_keys)%list -> Spec_JsonDoc.at_key m k x -> a_text x) /\
  (forall r s e, Spec_JsonDoc.at_key m "metadata" (JObj r s) -> In e s -> a_text (snd e)) /\
  forall k j, Spec_JsonDoc.at_key m k j -> quotedb j = true.
Proof.
  cbn [quotedb]. rewrite forallb_forall. intro H. split; [|split].
  - intros k x HK (key & HS & HI). apply JsonDoc_structs.same_key_iff in HS. specialize (H _ HI). apply andb_true_iff in H. destruct H as [H _]. apply andb_true_iff in H. destruct H as [H _].
    cbn [fst snd] in H. replace (existsb _ _) with true in H; [apply a_textb_ok; exact H|]. symmetry. apply existsb_exists. exists (fold_text k). rewrite HS, String.eqb_refl. split; auto. apply in_map. exact HK.
  - intros r s e (key & HS & HI) HE. apply JsonDoc_structs.same_key_iff in HS. specialize (H _ HI). apply andb_true_iff in H. destruct H as [H _]. apply andb_true_iff in H. destruct H as [_ H].
    cbn [fst snd] in H. rewrite HS in H. change (fold_text "metadata") with "metadata" in H. rewrite String.eqb_refl in H. rewrite forallb_forall in H. apply a_textb_ok. apply H. exact HE.
  - intros k j (key & _ & HI). specialize (H _ HI). apply andb_true_iff in H. tauto.
Qed.
Lemma quotedb_ok j : quotedb j = true -> quoted_texts j.
Proof.
  intros H m (raw & d & raw' & l & raw'' & -> & HK & HI). apply quotedb_obj in H. destruct H as (_ & _ & H). apply H in HK. cbn [quotedb] in HK. rewrite forallb_forall in HK.
  apply HK in HI. apply quotedb_obj in HI. destruct HI as (H1 & H2 & H3). split; [|split].
  - intros k x HX. apply H1. apply in_or_app. auto.
  - intros k r s k' x _ HS HX. apply H3 in HS. apply quotedb_obj in HS. apply (proj1 HS). apply in_or_app. auto.
  - exact H2.
Qed.
Definition json_of (s : string) : json := match json_read s with Some j => j | None => JNull end.
Definition readable (s : string) : bool := match json_read s with Some _ => true | None => false end.
Lemma json_of_is s : readable s = true -> Spec_JsonDoc.is_document (json_of s) s.
Proof. intro H. apply JsonDoc_proofs.read_iff. unfold json_of, readable in *. destruct (json_read s); [reflexivity|discriminate H]. Qed.

(** everything C75 asks of a text, but for what the arguments leave out *)
Definition accepted_pair (exact_ values_ written_ quoted_ : bool) (s : string) : bool :=
  let j := json_of s in
  readable s && Props_JsonDoc.distinctb j && Props_JsonDoc.plainb j && Props_JsonDoc.conditionsb Props_JsonDoc.single_text j && numbersb j && Props_Yaml.cleanb (twin j) &&
  (negb exact_ || exactb j) && (negb values_ || valuesb j) && (negb written_ || Props_JsonDoc.conditionsb written_conditions j) && (negb quoted_ || quotedb j).
Lemma accepted_pair_ok e v w q s : accepted_pair e v w q s = true -> let j := json_of s in
  Spec_JsonDoc.is_document j s /\ same_document RefLib j (twin j) /\ Spec_JsonDoc.distinct_rules j /\ Spec_JsonDoc.plain_document j /\ Spec_JsonDoc.single_trees RefLib j /\
  Spec_Yaml.clean (twin j) /\ (e = true -> exact_keys j) /\ (v = true -> plain_values j) /\ (w = true -> conditions_written j) /\ (q = true -> quoted_texts j).
Proof.
  unfold accepted_pair. cbv zeta. set (j := json_of s). rewrite !andb_true_iff. intros (((((((((H1 & H2) & H3) & H4) & H5) & H6) & H7) & H8) & H9) & H10).
  split; [apply json_of_is; exact H1|]. split; [apply twin_same; exact H5|]. split; [apply Props_JsonDoc.distinctb_ok; exact H2|]. split; [apply Props_JsonDoc.plainb_ok; exact H3|].
  split; [apply Props_JsonDoc.single_treesb; exact H4|]. split; [apply Props_Yaml.cleanb_ok; exact H6|].
  split; [intros ->; apply exactb_ok; exact H7|]. split; [intros ->; apply valuesb_ok; exact H8|]. split; [intros ->; apply writtenb_ok; exact H9|intros ->; apply quotedb_ok; exact H10].
Qed.
Definition json_names (s : string) : option (option (list string)) :=
  match fst (json_rules RefLib in_order None Props_JsonDoc.no_lists s 0) with Ok rs => Some (Some (map ru_id rs)) | Err => Some None | Panic => None end.
Definition yaml_names (y : yaml) : option (option (list string)) :=
  match fst (read_rules RefLib in_order None y 0) with Ok rs => Some (Some (map ru_id rs)) | Err => Some None | Panic => None end.

(** a rule with the conditions of C54, a comment with a number and one without conditions *)
Definition c75_text : string := quotes ("{'rules': [ {'ruleID': 'r', 'sender': {'senderName': 'front*, ?x', 'senderType': 'workload'},
   'receiver': {'receiverType':'workload', 'receiverName' :'#back'}, 'protocol': '*', 'resource': {'resourceType': '*', 'resourceName': '*'},
   'operation': 'read', 'conditions': " ++ c54_text ++ " , 'decision': 'alert', 'comment': [1000, 2.5, true, null, {}], 'hash': null, 'metadata': {'description': 'about alert'}},
   {'ruleID': 'second', 'conditions': {'attribute': 'payloadSize', 'method': 'GE', 'value': 4096}}, null ]}").
Example C75_case : accepted_pair true true true true c75_text = true /\
  json_names c75_text = Some (Some ["r"; "second"; ""]) /\ yaml_names (twin (json_of c75_text)) = Some (Some ["r"; "second"; ""]).
Proof. split; [vm_compute; reflexivity|]. split; vm_compute; reflexivity. Qed.

(** *** What does not hold *)
(** without [conditions_written]: empty conditions are no conditions in JSON and an error in YAML *)
Theorem C75_empty_refuted : exists s j y, Spec_JsonDoc.is_document j s /\ same_document RefLib j y /\ Spec_JsonDoc.distinct_rules j /\ Spec_JsonDoc.plain_document j /\ Spec_JsonDoc.single_trees RefLib j /\
  exact_keys j /\ plain_values j /\ quoted_texts j /\ Spec_Yaml.clean y /\ json_names s = Some (Some ["a"]) /\ yaml_names y = Some None.
Proof.
  set (s := quotes "{'rules':[{'ruleID':'a','conditions':{}}]}"). exists s, (json_of s), (twin (json_of s)).
  assert (H : accepted_pair true true false true s = true) by (vm_compute; reflexivity). apply accepted_pair_ok in H. destruct H as (H1 & H2 & H3 & H4 & H5 & H6 & H7 & H8 & _ & H10).
  repeat (split; [auto|]). split; vm_compute; reflexivity.
Qed.
Print Assumptions C75_empty_refuted.
(** without [exact_keys]: a key in another case is read from JSON only, so that the rule loses its conditions in YAML *)
Theorem C75_letters_refuted : exists s j y, Spec_JsonDoc.is_document j s /\ same_document RefLib j y /\ Spec_JsonDoc.distinct_rules j /\ Spec_JsonDoc.plain_document j /\ Spec_JsonDoc.single_trees RefLib j /\
  plain_values j /\ conditions_written j /\ quoted_texts j /\ Spec_Yaml.clean y /\ json_names s = Some (Some ["a"]) /\ yaml_names y = Some (Some [""]).
Proof.
  set (s := quotes "{'rules':[{'ruleId':'a'}]}"). exists s, (json_of s), (twin (json_of s)).
  assert (H : accepted_pair false true true true s = true) by (vm_compute; reflexivity). apply accepted_pair_ok in H. destruct H as (H1 & H2 & H3 & H4 & H5 & H6 & _ & H8 & H9 & H10).
  repeat (split; [auto|]). split; vm_compute; reflexivity.
Qed.
Print Assumptions C75_letters_refuted.
(** without [quoted_texts]: a number is a text in YAML and an error in JSON *)
Theorem C75_unquoted_refuted : exists s j y, Spec_JsonDoc.is_document j s /\ same_document RefLib j y /\ Spec_JsonDoc.distinct_rules j /\ Spec_JsonDoc.plain_document j /\ Spec_JsonDoc.single_trees RefLib j /\
  exact_keys j /\ plain_values j /\ conditions_written j /\ Spec_Yaml.clean y /\ json_names s = Some None /\ yaml_names y = Some (Some ["7"]).
Proof.
  set (s := quotes "{'rules':[{'ruleID':7}]}"). exists s, (json_of s), (twin (json_of s)).
  assert (H : accepted_pair true true true false s = true) by (vm_compute; reflexivity). apply accepted_pair_ok in H. destruct H as (H1 & H2 & H3 & H4 & H5 & H6 & H7 & H8 & H9 & _).
  repeat (split; [auto|]). split; vm_compute; reflexivity.
Qed.
Print Assumptions C75_unquoted_refuted.
(** "A whole number means the same in both" is false from a million on: JSON turns it into a floating-point number, which is printed
    with an exponent, and the printed text is no integer any more.  Checking a message against the rule then panics. *)
Definition limit_text (n : string) : string := Props_JsonDoc.block_text (quotes (",'conditions':{'attribute':'payloadSize','method':'LT','value':" ++ n ++ "}")).
Definition json_decides (s : string) : option (option nat) :=
  match json_rules RefLib in_order None Props_JsonDoc.no_lists s 0 with
  | (Ok rs, _) => match fst (load_with_predefined RefLib in_order empty_predef rs 0) with Ok ss => Some (option_map out_decision (fst (check RefLib in_order empty_predef ss (mkEst msg0 0)))) | _ => None end
  | _ => None
  end.
Definition yaml_decides (y : yaml) : option (option nat) :=
  match read_rules RefLib in_order None y 0 with
  | (Ok rs, _) => match fst (load_with_predefined RefLib in_order empty_predef rs 0) with Ok ss => Some (option_map out_decision (fst (check RefLib in_order empty_predef ss (mkEst msg0 0)))) | _ => None end
  | _ => None
  end.
Theorem C75_numbers_refuted :
  (forall n, In n ["4096"; "999999"] -> json_decides (limit_text n) = Some (Some BLOCK) /\ yaml_decides (twin (json_of (limit_text n))) = Some (Some BLOCK)) /\
  (forall n, In n ["1000000"; "10000000"] -> json_decides (limit_text n) = Some None /\ yaml_decides (twin (json_of (limit_text n))) = Some (Some BLOCK)) /\
  numbersb (json_of (limit_text "999999")) = true /\ numbersb (json_of (limit_text "1000000")) = false.
Proof.
  split; [|split; [|split; vm_compute; reflexivity]]; intros n HN; cbn in HN; repeat (destruct HN as [<-|HN]; [split; vm_compute; reflexivity|]); destruct HN.
Qed.
Print Assumptions C75_numbers_refuted.
