(** C42: the Mongo query of a tree selects the documents the engine accepts. *)
From Coq Require Import List String Ascii Bool Arith ZArith Lia.
From Verif Require Import Base GoStr GoStr_facts GoFloat Types Json StrUtils Validate Prepare Parse Eval Lifecycle Check Mongo Spec_Tree Spec_Glob Spec_Leaf Tree_laws
  Spec_MongoMatch MongoMatch_proofs RefLib RefLib_facts RefLib_numbers RefLib_paths Number_proofs Glob_proofs Leaf_laws Samples Props_Strings Props_Mongo.
Import ListNotations.
Open Scope string_scope.

(** [matches]: selection of documents by MongoDB; [spelled]: the tree as written in a rule; [in_fragment]: the trees
    considered; [suits]: the documents considered; [dotted bs]: the field in which documents are stored (Spec_MongoMatch) *)
Theorem C42_tree : forall L ord u u' p based bs t n n', PathSpec L -> NumberSpec L -> fair ord -> Forall field_name bs -> (based = true -> bs <> []) ->
  in_fragment based false t -> parse_conditions_tree L ord (spelled false t) u = (Ok n, u') -> prepare_node L p n = Ok n' ->
  exists q, to_mongo L (dotted bs) "" 0 n' = Ok (q, []) /\
    forall d D m b, suits L p t d -> at_path bs D (Some d) -> m_raw m = Some d -> may_return L n' m b -> (b = true <-> matches L q (Document D) = true).
Proof. exact query_agrees. Qed.
Print Assumptions C42_tree.

Theorem C42_rule : forall L ord g p based bs t n n' u u' s k r, PathSpec L -> NumberSpec L -> fair ord -> Forall field_name bs -> (based = true -> bs <> []) ->
  in_fragment based false t -> parse_conditions_tree L ord (spelled false t) u = (Ok n, u') -> prepare_node L p n = Ok n' ->
  rs_ready s = true -> rs_prepared s = Some r -> ru_tree r = Some n' ->
  exists q, rule_to_mongo L ord g (dotted bs) s k = (Ok (Simple q), s, k) /\
    forall d D m e b x s' e', suits L p t d -> at_path bs D (Some d) -> m_raw m = Some d -> test_conditions L ord g s (mkEst m e) = (Some ((b, x), s'), e') ->
      (b = true <-> matches L q (Document D) = true).
Proof. exact rule_agrees. Qed.
Print Assumptions C42_rule.

Theorem C42_library : PathSpec RefLib /\ NumberSpec RefLib.
Proof. split; [exact RefLib_path|exact RefLib_number]. Qed.
Print Assumptions C42_library.

(** a tree and a document of the fragment *)
Definition ports : tree := TAnd [TCond ["name"] "EQ" "web";
  TQuant QAny ["spec"; "ports"] "[:]" (TOr [TCond ["port"] "GT" "1024"; TCond ["protocol"] "RE" "^udp"]);
  TNot (TCond ["spec"; "host"] "EX" "-")].
Definition ports_text : string := "{'AND':[{'attribute':'jsonpath:$.name','method':'EQ','value':'web'},
  {'ANY':{'parentJsonpathAttribute':'jsonpath:$.spec.ports[:]','condition':{'OR':[
     {'attribute':'jsonpath:$RELATIVE.port','method':'GT','value':'1024'},{'attribute':'jsonpath:$RELATIVE.protocol','method':'RE','value':'^udp'}]}}},
  {'NOT':{'attribute':'jsonpath:$.spec.host','method':'EX','value':'-'}}]}".
Definition service (name ports : string) : string := "{'name':'" ++ name ++ "','spec':{'ports':" ++ ports ++ "}}".
Definition doc_of (s : string) : iface := the GNil (json_parse RefLib (quotes s)).

Example C42_text : json_parse RefLib (quotes ports_text) = Some (spelled false ports).
Proof. vm_compute. reflexivity. Qed.

Lemma plain_name s : forallb (fun c => let n := nat_of_ascii c in ((48 <=? n) && (n <=? 57) || (65 <=? n) && (n <=? 90) || (97 <=? n) && (n <=? 122) || (n =? 95))%nat) (list_ascii_of_string s) = true ->
  s <> "" -> field_name s.
Proof.
  intros H N. split; auto. clear N. induction s as [|c s IH]; [exact I|]. cbn [list_ascii_of_string forallb] in H. apply andb_true_iff in H. destruct H as [H HS]. split; auto.
  unfold Spec_MongoMatch.name_char. cbv zeta in *. rewrite !orb_true_iff, !andb_true_iff, !Nat.leb_le, Nat.eqb_eq in H. lia.
Qed.
Ltac names := repeat (apply Forall_cons; [apply plain_name; [vm_compute; reflexivity|discriminate]|]); apply Forall_nil.
Example C42_fragment : in_fragment true false ports.
Proof.
  repeat (constructor; try discriminate; try (names; fail); simpl; auto); try (intros [E|[E|[]]]; discriminate).
Qed.

Lemma word_clean t : field_name t -> clean t.
Proof.
  intros [N H]. assert (HC : forall c a b, In c ["["; "]"; dq]%char -> t <> a ++ String c b).
  { intros c a b HI ->. apply all_chars_app in H. destruct H as [_ [H _]]. unfold Spec_MongoMatch.name_char in H. destruct HI as [<-|[<-|[<-|[]]]]; vm_compute in H; lia. }
  repeat split; auto.
  - intros ->. apply (HC "["%char "" "]"); simpl; auto.
  - intros a b E. apply (HC "["%char a (String "[" b)); simpl; auto.
  - intros a b E. apply (HC "]"%char a (String "]" b)); simpl; auto.
  - intros a b E. apply (HC "["%char a (String dq b)); simpl; auto.
  - intros a b E. apply (HC dq a (String "]" b)); simpl; auto.
  - intros [r E]. apply (HC dq "" r); simpl; auto.
  - intros a E. apply (HC dq a ""); simpl; auto.
Qed.
Ltac found := repeat (eapply ap_member; [vm_compute; reflexivity|]); first [apply ap_here | apply ap_no_member; vm_compute; reflexivity].
Ltac plain := first [apply rp_plain; intros [? E]; discriminate | split; intros [? E]; discriminate].
Ltac word := unfold method_is, method_words; simpl; auto 30.
Ltac numeric := split; [vm_compute; reflexivity|split; [apply number_iff; vm_compute; reflexivity|discriminate]].
Example C42_suits : suits RefLib empty_predef ports (doc_of (service "web" "[{'port':80,'protocol':'tcp'},{'port':8080,'protocol':'udp'}]")).
Proof.
  set (d := doc_of _). vm_compute in d. subst d.
  assert (HW : forall s, forallb (fun c => let n := nat_of_ascii c in ((48 <=? n) && (n <=? 57) || (65 <=? n) && (n <=? 90) || (97 <=? n) && (n <=? 122) || (n =? 95))%nat) (list_ascii_of_string s) = true ->
    s <> "" -> clean s) by (intros; apply word_clean, plain_name; auto).
  apply su_and. repeat apply Forall_cons; [| | |apply Forall_nil].
  - eapply su_cond with (k := KEq); [plain|plain|word|found|]. apply cb_texts; [apply HW; [vm_compute; reflexivity|discriminate]|discriminate| |simpl; tauto].
    split; [vm_compute; reflexivity|apply not_number_iff; vm_compute; reflexivity].
  - eapply su_quant; [found|apply ea_array; repeat constructor; eauto|]. repeat apply Forall_cons; [| |apply Forall_nil]; apply su_or; repeat apply Forall_cons; try apply Forall_nil.
    + eapply su_cond with (k := KGt); [plain|plain|word|found|]. eapply cb_numbers with (x := f64_of_Z 1024); [numeric|numeric|simpl; tauto].
    + eapply su_cond with (k := KRe); [plain|plain|word|found|]. apply cb_pattern; [apply HW; [vm_compute; reflexivity|discriminate]|discriminate|simpl; tauto].
    + eapply su_cond with (k := KGt); [plain|plain|word|found|]. eapply cb_numbers with (x := f64_of_Z 1024); [numeric|numeric|simpl; tauto].
    + eapply su_cond with (k := KRe); [plain|plain|word|found|]. apply cb_pattern; [apply HW; [vm_compute; reflexivity|discriminate]|discriminate|simpl; tauto].
  - apply su_not. eapply su_cond with (k := KEx); [plain|plain|word|found|]. apply cb_missing. simpl. intuition discriminate.
Qed.

(** results of the engine and of the query *)
Definition both (tree doc : string) : option (bool * bool) :=
  match prepared_tree tree, run_flag in_order tree (parsed_msg doc) with
  | Some n, Some b =>
    match to_mongo RefLib "raw" "" 0 n with
    | Ok (q, []) => Some (b, matches RefLib q (Document (GMapS [("raw", doc_of doc)])))
    | _ => None
    end
  | _, _ => None
  end.

Example C42_case : map (both ports_text)
  [service "web" "[{'port':80,'protocol':'tcp'},{'port':8080,'protocol':'udp'}]"; service "web" "[{'port':80,'protocol':'tcp'},{'port':443}]";
   service "web" "[{'port':80,'protocol':'udplite'}]"; service "web" "null"; service "db" "[{'port':8080}]";
   "{'name':'web','spec':{'ports':[{'port':8080}],'host':'a'}}"; "{'name':'web'}"] =
  [Some (true, true); Some (false, false); Some (true, true); Some (false, false); Some (false, false); Some (false, false); Some (false, false)].
Proof. vm_compute. reflexivity. Qed.

(** Outside the fragment: a missing or null field, an empty text, a unit, a boolean, a text compared
    as a number, a text and a number, a pattern on a number, an array at the end or in the middle of a path, an absolute
    condition in ANY. *)
Theorem C42_outside_refuted : forallb (fun td => match both (fst td) (snd td) with Some (a, b) => negb (Bool.eqb a b) | None => false end)
  [(cond_text "jsonpath:$.a" "NEQ" "x", "{'b':'y'}"); (cond_text "jsonpath:$.a" "NE" "7", "{'b':'y'}");
   (cond_text "jsonpath:$.a" "EX" "-", "{'a':null}"); (cond_text "jsonpath:$.a" "NEX" "-", "{'a':null}"); (cond_text "jsonpath:$.a" "EX" "-", "{'a':''}");
   (cond_text "jsonpath:$.a" "EQ" "5Ki", "{'a':5120}"); (cond_text "jsonpath:$.a" "EQ" "true", "{'a':true}");
   (cond_text "jsonpath:$.a" "NE" "7", "{'a':'x'}"); (cond_text "jsonpath:$.a" "EQ" "7", "{'a':'7'}"); (cond_text "jsonpath:$.a" "RE" "7", "{'a':7}");
   (cond_text "jsonpath:$.a" "EQ" "x", "{'a':['x','y']}"); (cond_text "jsonpath:$.a.b" "EQ" "x", "{'a':[{'b':'x'}]}");
   (any_of "$.items[:]" (cond_text "jsonpath:$.a" "EQ" "x"), "{'a':'x','items':[{}]}")] = true.
Proof. vm_compute. reflexivity. Qed.
Print Assumptions C42_outside_refuted.
