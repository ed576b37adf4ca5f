(** C64: queries on the entries of objects are aggregation pipelines that select the documents the engine accepts. *)
From Coq Require Import List String Ascii Bool Arith ZArith Lia.
From Verif Require Import Base GoStr GoStr_facts GoFloat Types Json StrUtils Validate Prepare Parse Eval Lifecycle Check Mongo Spec_Tree Spec_Glob Spec_Leaf Tree_laws
  Spec_MongoMatch MongoMatch_proofs Spec_Pipeline Pipeline_proofs RefLib RefLib_facts RefLib_numbers RefLib_paths Number_proofs Glob_proofs Leaf_laws Samples Props_Strings Props_Mongo Props_MongoMatch.
Import ListNotations.
Open Scope string_scope.

(** [selected_by]: the server returns the document or does not, without an error; [wide_spelled]: the tree as written in a rule;
    [in_wide], [not_nested]: the trees considered; [wide_suits]: the documents considered (Spec_Pipeline) *)
Theorem C64_tree : forall L ord u u' p bs t n n', PathSpec L -> EntriesSpec L -> NumberSpec L -> fair ord -> Forall field_name bs -> bs <> [] -> hd "" bs <> "addedField" ->
  in_wide t -> not_nested t -> parse_conditions_tree L ord (wide_spelled t) u = (Ok n, u') -> prepare_node L p n = Ok n' ->
  exists q ss, to_mongo L (dotted bs) "" 0 n' = Ok (q, ss) /\ (ss = [] <-> objects t = []) /\
    forall d D m b, wide_suits L p t d -> at_path bs D (Some d) -> at_path ["addedField"] D None -> m_raw m = Some d -> may_return L n' m b ->
      selected_by L (match ss with [] => Simple q | _ => Aggregate (ss ++ [BDoc [("$match", q)]]) end) D b.
Proof. exact pipeline_agrees. Qed.
Print Assumptions C64_tree.

Theorem C64_rule : forall L ord g p bs t n n' u u' s k r, PathSpec L -> EntriesSpec L -> NumberSpec L -> fair ord -> Forall field_name bs -> bs <> [] -> hd "" bs <> "addedField" ->
  in_wide t -> not_nested t -> parse_conditions_tree L ord (wide_spelled t) u = (Ok n, u') -> prepare_node L p n = Ok n' ->
  rs_ready s = true -> rs_prepared s = Some r -> ru_tree r = Some n' ->
  exists res, rule_to_mongo L ord g (dotted bs) s k = (Ok res, s, k) /\
    forall d D m e b x s' e', wide_suits L p t d -> at_path bs D (Some d) -> at_path ["addedField"] D None -> m_raw m = Some d ->
      test_conditions L ord g s (mkEst m e) = (Some ((b, x), s'), e') -> selected_by L res D b.
Proof. exact rule_pipeline_agrees. Qed.
Print Assumptions C64_rule.

(** the hypothesis on the JSON-path library can be met *)
Theorem C64_library : EntriesSpec RefLib.
Proof. exact RefLib_entries. Qed.
Print Assumptions C64_library.

(** a tree and a document of the fragment *)
Definition labels : wide := WAnd [WEntry ["meta"; "labels"] Key "RE" "^app"; WOr [WEntry ["meta"; "labels"] Value "EQ" "web"; WEntry ["limits"] Value "GT" "4"]; WTree (TCond ["name"] "EQ" "a")].
Definition labels_text : string := "{'AND':[{'ANY':{'parentJsonpathAttribute':'jsonpath:$.meta.labels','condition':{'attribute':'jsonpath:$KEY','method':'RE','value':'^app'}}},
  {'OR':[{'ANY':{'parentJsonpathAttribute':'jsonpath:$.meta.labels','condition':{'attribute':'jsonpath:$VALUE','method':'EQ','value':'web'}}},
         {'ANY':{'parentJsonpathAttribute':'jsonpath:$.limits','condition':{'attribute':'jsonpath:$VALUE','method':'GT','value':'4'}}}]},
  {'attribute':'jsonpath:$.name','method':'EQ','value':'a'}]}".
Definition labelled : string := "{'name':'a','meta':{'labels':{'app.kubernetes.io/name':'db','tier':'web'}},'limits':{'cpu':2,'memory':3}}".

Example C64_text : json_parse RefLib (quotes labels_text) = Some (wide_spelled labels).
Proof. vm_compute. reflexivity. Qed.
Example C64_fragment : in_wide labels /\ not_nested labels /\ objects labels <> [].
Proof.
  split; [|split; [|discriminate]].
  - repeat (constructor; try discriminate; try (names; fail); simpl; auto); try (intros [E|[E|[]]]; discriminate).
  - intros ks k rest HI HJ. cbn [labels objects map List.concat app In] in *.
    repeat (destruct HI as [<-|HI]; [repeat (destruct HJ as [HJ|HJ]; [discriminate HJ|]); destruct HJ|]). destruct HI.
Qed.
Lemma bare_clean t : t <> "" -> forallb (fun c => negb (existsb (Ascii.eqb c) ["["; "]"; dq]%char)) (list_ascii_of_string t) = true -> clean t.
Proof.
  intros N H. assert (HC : forall c a b, In c ["["; "]"; dq]%char -> t <> a ++ String c b).
  { intros c a b HI ->. clear N. induction a as [|x a IH]; cbn [append list_ascii_of_string forallb] in H; apply andb_true_iff in H; destruct H as [H H2]; auto.
    destruct HI as [<-|[<-|[<-|[]]]]; discriminate. }
  repeat split; auto.
  - intros ->. apply (HC "["%char "" "]"); simpl; auto.
  - intros a b E. apply (HC "["%char a (String "[" b)); simpl; auto.
  - intros a b E. apply (HC "]"%char a (String "]" b)); simpl; auto.
  - intros a b E. apply (HC "["%char a (String dq b)); simpl; auto.
  - intros a b E. apply (HC dq a (String "]" b)); simpl; auto.
  - intros [r E]. apply (HC dq "" r); simpl; auto.
  - intros a E. apply (HC dq a ""); simpl; auto.
Qed.
Ltac bare := apply bare_clean; [discriminate|vm_compute; reflexivity].
Example C64_suits : wide_suits RefLib empty_predef labels (doc_of labelled).
Proof.
  set (d := doc_of _). vm_compute in d. subst d.
  apply ws_and. repeat apply Forall_cons; [| | |apply Forall_nil].
  - eapply ws_entry with (k := KRe); [plain|plain|word|simpl; tauto|found|apply en_object; repeat constructor; simpl; intuition discriminate|].
    repeat apply Forall_cons; [| |apply Forall_nil]; cbn [entry_part fst snd]; apply cb_pattern; try discriminate; simpl; try tauto; bare.
  - apply ws_or. repeat apply Forall_cons; [| |apply Forall_nil].
    + eapply ws_entry with (k := KEq); [plain|plain|word|simpl; tauto|found|apply en_object; repeat constructor; simpl; intuition discriminate|].
      repeat apply Forall_cons; [| |apply Forall_nil]; cbn [entry_part fst snd]; (apply cb_texts; [bare|discriminate|split; [vm_compute; reflexivity|apply not_number_iff; vm_compute; reflexivity]|simpl; tauto]).
    + eapply ws_entry with (k := KGt); [plain|plain|word|simpl; tauto|found|apply en_object; repeat constructor; simpl; intuition discriminate|].
      repeat apply Forall_cons; [| |apply Forall_nil]; cbn [entry_part fst snd]; eapply cb_numbers with (x := f64_of_Z 4); [numeric|numeric|simpl; tauto|numeric|numeric|simpl; tauto].
  - apply ws_tree. eapply su_cond with (k := KEq); [plain|plain|word|found|]. apply cb_texts; [bare|discriminate| |simpl; tauto].
    split; [vm_compute; reflexivity|apply not_number_iff; vm_compute; reflexivity].
Qed.

(** result of the engine, and what becomes of the document ([None]: an error) *)
Definition fates (tree doc : string) : option (bool * option bool) :=
  match prepared_tree tree, run_flag in_order tree (parsed_msg doc) with
  | Some n, Some b =>
    match to_mongo RefLib "raw" "" 0 n with
    | Ok (q, ss) => Some (b, match aggregates RefLib (match ss with [] => Simple q | _ => Aggregate (ss ++ [BDoc [("$match", q)]]) end) (GMapS [("raw", doc_of doc)]) with
                             | Kept _ => Some true | Dropped => Some false | Error => None end)
    | _ => None
    end
  | _, _ => None
  end.
Example C64_case : map (fates labels_text)
  [labelled; "{'name':'a','meta':{'labels':{'app':'db','tier':'x'}},'limits':{'cpu':2,'memory':5}}"; "{'name':'a','meta':{'labels':{'app':'db','tier':'x'}},'limits':{'cpu':2}}";
   "{'name':'a','meta':{'labels':{'tier':'web'}}}"; "{'name':'b','meta':{'labels':{'app':'web'}}}"; "{'name':'a','meta':{'labels':{'app':'web'}}}"; "{'name':'a','meta':{'labels':null}}"; "{'name':'a'}"] =
  [Some (true, Some true); Some (true, Some true); Some (false, Some false); Some (false, Some false); Some (false, Some false); Some (true, Some true); Some (false, Some false); Some (false, Some false)].
Proof. vm_compute. reflexivity. Qed.

(** *** Outside the fragment *)
Definition key_is (path v : string) : string := any_of path (cond_text "jsonpath:$KEY" "EQ" v).
(** methods asking for a different value *)
Theorem C64_negative_refuted : map (fun td => fates (fst td) (snd td))
  [(any_of "$.labels" (cond_text "jsonpath:$VALUE" "NEQ" "x"), "{'labels':{'a':'x','b':'y'}}"); (any_of "$.labels" (cond_text "jsonpath:$KEY" "NRE" "^a"), "{'labels':{'a':'x','b':'y'}}")] =
  [Some (true, Some false); Some (true, Some false)].
Proof. vm_compute. reflexivity. Qed.
Print Assumptions C64_negative_refuted.
(** an object and another one inside it: the list of one is stored over the list of the other *)
Theorem C64_nested_refuted :
  fates (two "AND" (key_is "$.a.b" "x") (key_is "$.a" "b")) "{'a':{'b':{'x':'1'}}}" = Some (true, Some false) /\
  fates (two "AND" (key_is "$.a" "b") (key_is "$.a.k" "x")) "{'a':{'b':'1','k':{'x':'1'}}}" = Some (true, Some false) /\
  fates (two "AND" (key_is "$.a" "b") (key_is "$.a.b" "x")) "{'a':{'b':{'x':'1'}}}" = Some (true, Some true).
Proof. vm_compute. auto. Qed.
Print Assumptions C64_nested_refuted.
(** conditions inside AND, OR and NOT in ANY, and an array: the server refuses the pipeline *)
Theorem C64_error_refuted :
  fates (any_of "$.labels" (two "AND" (cond_text "jsonpath:$KEY" "EQ" "a") (cond_text "jsonpath:$VALUE" "EQ" "x"))) "{'labels':{'a':'x'}}" = Some (true, None) /\
  fates (any_of "$.labels" ("{'NOT':" ++ cond_text "jsonpath:$KEY" "EQ" "a" ++ "}")) "{'labels':{'b':'x'}}" = Some (true, None) /\
  fates (key_is "$.items" "a") "{'items':[{'a':'x'}]}" = Some (true, None).
Proof. vm_compute. auto. Qed.
Print Assumptions C64_error_refuted.
(** paths below $VALUE and names beginning with $KEY *)
Theorem C64_value_path_refuted :
  fates (any_of "$.labels" (cond_text "jsonpath:$VALUE.c" "EQ" "x")) "{'labels':{'a':{'c':'x','d':'y'}}}" = Some (false, Some true) /\
  fates (any_of "$.labels" (cond_text "jsonpath:$KEYS" "EQ" "a")) "{'labels':{'a':'b'}}" = Some (false, Some true).
Proof. vm_compute. auto. Qed.
Print Assumptions C64_value_path_refuted.
