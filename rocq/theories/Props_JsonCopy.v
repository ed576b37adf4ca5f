(** C71: what a rule writes as JSON is read back as the copy of the rule. *)
From Coq Require Import List String Ascii Bool Arith ZArith Permutation.
From Verif Require Import Base GoStr GoFloat Types Json StrUtils Validate Prepare Parse Marshal Lifecycle
  Spec_Tree Spec_Load Load_proofs Spec_Copy Copy_proofs Decode_proofs JsonDoc Spec_JsonDoc Compact_proofs Spec_JsonCopy JsonCopy_proofs JsonCopy_rules RefLib RefLib_facts Samples Props_Meaning Props_Copy.
From Verif Require Spec_Json Json_proofs.
Import ListNotations.
Open Scope string_scope.

(** ** C71 *)
(** compaction: no spaces but in strings, same value, and nothing left to compact *)
Theorem C71_compact : forall L s v, json_parse L s = Some v ->
  json_parse L (compact false s) = Some v /\ Spec_Json.text L v (compact false s) /\ compact false (compact false s) = compact false s.
Proof.
  intros L s v H. split; [exact (compact_value L s v H)|]. split; [exact (compact_spaces L s v H)|]. apply (document_compacts L v s). apply Json_proofs.parse_iff. exact H.
Qed.
Print Assumptions C71_compact.

(** [spliced_tree] (Spec_JsonCopy): parent paths, which are written without escaping, are the inside of JSON strings.
    [derived_returns]: the lists and expressions a prepared rule holds are written as documents that are read back. *)
Theorem C71_copy : forall L ord re_text exp_in exps_out re_out (r : rule L),
  Spec_Json.sorted_keys (ru_metadata r) -> spliced_tree L (ru_tree r) -> derived_returns L re_text exp_in exps_out re_out r ->
  forall t, copy_text L ord re_text exp_in exps_out re_out r t = copy_rule L ord r t.
Proof. exact copy_is. Qed.
Print Assumptions C71_copy.

(** a rule without derived fields whose tree, if any, was loaded and is copyable (Spec_Copy) *)
Theorem C71_rule : forall L ord re_text exp_in exps_out re_out (r : rule L), fair ord -> underived L r ->
  (forall n, ru_tree r = Some n -> copyable L n /\ exists ord' v u u', fair ord' /\ go_value v /\ parse_conditions_tree L ord' v u = (Ok n, u')) ->
  Spec_Json.sorted_keys (ru_metadata r) ->
  forall t, exists t', copy_text L ord re_text exp_in exps_out re_out r t = (Ok r, t').
Proof.
  intros L ord re_text exp_in exps_out re_out r HF HU HT HM. apply loaded_copy; auto. unfold faithful_tree. destruct (ru_tree r); auto.
Qed.
Print Assumptions C71_rule.

(** a file made of the texts of rules is read as these rules *)
Theorem C71_file : forall L ord re_text exp_in exps_out re_out (rs : list (rule L)), fair ord ->
  Forall (fun r => underived L r /\ Spec_Json.sorted_keys (ru_metadata r) /\
    forall n, ru_tree r = Some n -> copyable L n /\ exists ord' v u u', fair ord' /\ go_value v /\ parse_conditions_tree L ord' v u = (Ok n, u')) rs ->
  exists ss, Forall2 (fun r s => rule_out L exps_out re_out r = Ok s) rs ss /\ forall t, exists t', json_rules L ord re_text exp_in (rules_text ss) t = (Ok rs, t').
Proof.
  intros L ord re_text exp_in exps_out re_out rs HF HR. apply loaded_texts; auto. revert HR. apply Forall_impl. intros r (HU & HM & HT). split; [exact HU|]. split; [|exact HM].
  unfold faithful_tree. destruct (ru_tree r); auto.
Qed.
Print Assumptions C71_file.

(** *** Cases *)
(** texts with spaces, characters that are escaped, and quotation marks *)
Example C71_compact_case :
  map (fun s => compact false (quotes s)) ["{ 'a' : [ 1 , 'x < y' ] }"; " 'a \' b' "; "[ ]"] = [quotes "{'a':[1,'x \u003c y']}"; quotes "'a \' b'"; "[]"] /\
  map (fun s => is_some (json_parse RefLib (quotes s))) ["{ 'a' : [ 1 , 'x < y' ] }"; " 'a \' b' "; "[ ]"] = [true; true; true].
Proof. split; vm_compute; reflexivity. Qed.

Definition no_exps (_ : list (expanded RefLib)) : string := "".
Definition no_re (_ : RE RefLib) : string := "".
Definition c71_rule : rule RefLib :=
  mkRule "r <1>" "front*" "workload" [] "a ""b" "workload" [] "" "" "path" None "read" c54_tree "block" [("k", "v & w"); ("l", "")] "" None false.
Lemma c71_tree n : c54_tree = Some n -> copyable RefLib n /\ exists ord' v u u', fair ord' /\ go_value v /\ parse_conditions_tree RefLib ord' v u = (Ok n, u').
Proof.
  intro H. split.
  - apply copyableb_ok. assert (E : match c54_tree with Some m => copyableb m | None => false end = true) by (vm_compute; reflexivity). rewrite H in E. exact E.
  - unfold c54_tree in H. destruct (json_parse RefLib (quotes c54_text)) as [v|] eqn:HJ; [|discriminate H]. destruct (parse_conditions_tree RefLib in_order v 0) as [[n'| |] t'] eqn:HL; try discriminate H.
    injection H as ->. exists in_order, v, 0, t'. split; [exact in_order_fair|]. split; [exact (parsed_go_value RefLib _ _ HJ)|exact HL].
Qed.
(** the rule meets the conditions of C71_rule; its text, in which the quotation marks are written ' *)
Example C71_case :
  underived RefLib c71_rule /\ Spec_Json.sorted_keys (ru_metadata c71_rule) /\
  (forall n, ru_tree c71_rule = Some n -> copyable RefLib n /\ exists ord' v u u', fair ord' /\ go_value v /\ parse_conditions_tree RefLib ord' v u = (Ok n, u')) /\
  rule_out RefLib no_exps no_re c71_rule = Ok (quotes ("{'ruleID':'r \u003c1\u003e','sender':{'senderName':'front*','senderType':'workload'},'receiver':{'receiverName':'a \'b','receiverType':'workload'},'resource':{'resourceName':'path'},'operation':'read','conditions':{'conditionsTree':" ++
     "{'AND':[{'ANY':{'parentJsonpathAttribute':'jsonpath:$.x[:]','condition':{'condition':{'attribute':'jsonpath:$RELATIVE.a','method':'GT','value':'4'}}}},{'condition':{'attribute':'senderLabel[app]','method':'EQ','value':'#app'}}]}" ++
     "},'decision':'block','metadata':{'k':'v \u0026 w','l':''}}")).
Proof.
  split; [repeat split|]. split; [repeat constructor|]. split; [exact c71_tree|]. vm_compute. reflexivity.
Qed.

(** a prepared rule: names in a list *)
Definition named (s : string) : expanded RefLib := mkExp s "workload" None false false (mkIpnet [] []) [].
Definition names_out (l : list (expanded RefLib)) : string := "[" ++ join "," (map (fun x => json_string (x_name x)) l) ++ "]".
Definition name_in (j : json) : P (expanded RefLib * bool) := match j with JStr _ s => pret (Ok (named s, false)) | _ => pret Err end.
Example C71_lists : list_returns RefLib name_in names_out [named "a"; named "b*"] /\ list_returns RefLib name_in names_out [].
Proof.
  split; [|intro H; destruct H; reflexivity]. intros _. exists (quotes "['a','b*']"), [JStr (quotes "'a'") "a"; JStr (quotes "'b*'") "b*"]. split.
  - change (names_out _) with ("[" ++ ("" ++ quotes "'a'" ++ "" ++ "," ++ "" ++ quotes "'b*'" ++ "") ++ "]"). change (quotes "['a','b*']") with ("[" ++ ("" ++ quotes "'a'" ++ "" ++ "," ++ "" ++ quotes "'b*'" ++ "") ++ "]").
    apply sp_array. apply it_cons; [exact I|exact I| |apply it_one; [exact I|exact I|]]; [exact (string_spelled "a")|exact (string_spelled "b*")].
  - intro t. reflexivity.
Qed.

(** "every rule that is read can be written" is false: an empty AND is written as {}, which cannot be read, and a value with a newline not at all *)
Definition rule_of (s : string) : rule RefLib := mkRule "r" "*" "*" [] "*" "*" [] "" "" "" None "*" (load_tree s) "block" [] "" None false.
Definition written (s : string) : option (option string) :=
  match load_tree s with
  | None => None
  | Some _ => Some (match rule_out RefLib no_exps no_re (rule_of s) with Ok _ => Some (match fst (copy_text RefLib in_order None (fun _ => pret Err) no_exps no_re (rule_of s) 0) with Ok _ => "read" | _ => "not read" end) | _ => None end)
  end.
Theorem C71_written_refuted :
  map written ["{'AND':[{'attribute':'domain','method':'EQ','value':'a\\b\'c'}]}"; "{'AND':[]}"; "{'attribute':'domain','method':'EQ','value':'a\nb'}"] = [Some (Some "read"); Some (Some "not read"); Some None].
Proof. vm_compute. reflexivity. Qed.
Print Assumptions C71_written_refuted.
