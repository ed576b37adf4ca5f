(** C70: rules are read from JSON documents as they are written. *)
From Coq Require Import List String Ascii Bool Arith ZArith Permutation.
From Verif Require Import Base GoStr GoFloat Types Json StrUtils GoStr_facts Validate Prepare Parse Marshal Lifecycle Eval Check
  Spec_Tree Spec_Decision Spec_Regex Spec_Match Spec_Leaf Spec_Load Load_proofs Decode_proofs Spec_Copy Spec_Grammar Grammar_proofs Grammar_tree Grammar_loads Spec_Lifecycle Spec_Crash Crash_proofs Spec_Meaning Spec_Accept Accept_rules
  JsonDoc Spec_JsonDoc JsonDoc_proofs JsonDoc_structs JsonDoc_rules JsonDoc_more RefLib RefLib_facts RefLib_numbers Samples Props_Load Props_Meaning Props_Accept.
From Verif Require Spec_Json Json_proofs Props_Yaml.
Import ListNotations.
Open Scope string_scope.

(** ** C70 *)
(** [is_document j s] (Spec_JsonDoc): by the grammar of RFC 8259 the text [s] is the document [j].  Every text is at most one document. *)
Theorem C70_text : forall s j, json_read s = Some j <-> is_document j s.
Proof. exact read_iff. Qed.
Print Assumptions C70_text.
Theorem C70_no_document : forall L ord re_text exp_in s t, (forall j, ~ is_document j s) -> json_rules L ord re_text exp_in s t = (Err, t).
Proof. exact not_a_document. Qed.
Print Assumptions C70_no_document.

(** [distinct_rules]: no key occurs twice, in whatever case.  [says_rules] (Spec_JsonDoc): the rules a document says.
    [re_text] is (Regexp).UnmarshalText, if the version of Go has it; [exp_in] reads the elements of a list under the key "-". *)
Theorem C70_sound : forall L ord re_text exp_in s j t rs t', fair ord -> is_document j s -> distinct_rules j -> json_rules L ord re_text exp_in s t = (Ok rs, t') ->
  says_rules L j rs /\ (plain_document j -> Forall (underived L) rs).
Proof. intros L ord re_text exp_in s j t rs t' HF. exact (rules_sound L ord re_text exp_in HF s j t rs t'). Qed.
Print Assumptions C70_sound.

(** every document that says rules is read, in every order of visiting maps *)
Theorem C70_accepts : forall L ord re_text exp_in s j rs t, fair ord -> is_document j s -> distinct_rules j -> plain_document j -> says_rules L j rs ->
  exists rs' t', json_rules L ord re_text exp_in s t = (Ok rs', t').
Proof. intros L ord re_text exp_in s j rs t HF. exact (rules_accepted L ord re_text exp_in HF s j rs t). Qed.
Print Assumptions C70_accepts.

(** and the result is exactly what it says, unless an ANY or ALL has two inner conditions *)
Theorem C70_exact : forall L ord re_text exp_in s j t rs, fair ord -> is_document j s -> distinct_rules j -> plain_document j -> single_trees L j ->
  (exists t', json_rules L ord re_text exp_in s t = (Ok rs, t')) <-> says_rules L j rs /\ Forall (underived L) rs.
Proof. exact rules_exact. Qed.
Print Assumptions C70_exact.

(** reading panics only where loading the conditions does *)
Theorem C70_panics : forall L ord re_text exp_in s j t, fair ord -> is_document j s -> plain_document j -> fst (json_rules L ord re_text exp_in s t) = Panic ->
  exists c v, conditions_of j c /\ Spec_Json.document L v (raw_of c) /\ crashes L "" v.
Proof. intros L ord re_text exp_in s j t HF. exact (rules_panic L ord re_text exp_in HF s j t). Qed.
Print Assumptions C70_panics.

(** ** From the text to the decision *)
Theorem C70_check : forall L p ord ord' g re_text exp_in s j m t u, RegexSpec L -> CidrSpec L -> NumberSpec L -> jp_prepare L "$.*" <> None ->
  (forall rest, jp_prepare L ("$RELATIVE" ++ rest) = None) -> fair ord -> fair ord' -> ascii_message m ->
  is_document j s -> distinct_rules j -> plain_document j -> (exists rs, says_rules L j rs) ->
  (forall rs, says_rules L j rs -> Forall (underived L) rs -> Forall (ordinary L p) rs /\ Forall (preparable_rule L p) rs /\ Forall (fun r => rule_covered L p r m) rs) ->
  exists rs ss t' o e, says_rules L j rs /\ (pdo rs <- json_rules L ord' re_text exp_in s; load_with_predefined L ord' p rs) u = (Ok ss, t') /\ check L ord g ss (mkEst m t) = (Some o, e) /\
    Forall2 (fun r d => verdict L p r m d) rs (out_results o) /\ decision_is_strictest (out_results o) (out_decision o).
Proof. exact texts_check. Qed.
Print Assumptions C70_check.

(** ** Concrete documents *)
Definition lowered (m : list (string * json)) : list string := map (fun e => fold_text (fst e)) m.
Fixpoint distinctb (j : json) : bool :=
  match j with
  | JArr _ l => forallb distinctb l
  | JObj _ m => Props_Yaml.nodupb (lowered m) && forallb (fun e => distinctb (snd e)) m
  | _ => true
  end.
Lemma lowered_distinct m : Props_Yaml.nodupb (lowered m) = true -> distinct m /\ NoDup (keys m).
Proof.
  intro H. apply Props_Yaml.nodupb_ok in H. split.
  - unfold distinct. induction m as [|e m IH]; constructor; inversion H as [|? ? HX HN]; subst; auto. apply Forall_forall. intros e' HI HS. apply same_key_iff in HS.
    apply HX. unfold lowered. apply in_map_iff. exists e'. auto.
  - assert (E : lowered m = map fold_text (keys m)) by (unfold lowered, keys; rewrite map_map; reflexivity). rewrite E in H. exact (NoDup_map_inv _ _ H).
Qed.
Lemma distinctb_obj raw m : distinctb (JObj raw m) = true -> distinct m /\ NoDup (keys m) /\ forall k j, at_key m k j -> distinctb j = true.
Proof.
  cbn [distinctb]. intro H. apply andb_true_iff in H. destruct H as [H1 H2]. apply lowered_distinct in H1. destruct H1 as [A B]. rewrite forallb_forall in H2.
  split; auto. split; auto. intros k j (key & _ & HI). exact (H2 _ HI).
Qed.
Lemma distinctb_ok j : distinctb j = true -> distinct_rules j.
Proof.
  intro H. split; [intros raw m ->; apply distinctb_obj in H; tauto|]. intros m (raw & d & raw' & l & raw'' & -> & HK & HI). apply distinctb_obj in H. destruct H as (_ & _ & H).
  apply H in HK. cbn [distinctb] in HK. rewrite forallb_forall in HK. apply HK in HI. apply distinctb_obj in HI. destruct HI as (A & B & C).
  split; auto. split; intros; [apply C in H1|apply C in H0]; [apply distinctb_obj in H1|apply distinctb_obj in H0]; tauto.
Qed.
Definition reserved : list string := ["-"; "operationregex"].
Fixpoint plainb (j : json) : bool :=
  match j with
  | JArr _ l => forallb plainb l
  | JObj _ m => forallb (fun e => negb (existsb (String.eqb (fold_text (fst e))) reserved) && plainb (snd e)) m
  | _ => true
  end.
Lemma plainb_obj raw m : plainb (JObj raw m) = true -> no_key m "-" /\ no_key m "operationRegex" /\ forall k j, at_key m k j -> plainb j = true.
Proof.
  cbn [plainb]. rewrite forallb_forall. intro H.
  assert (HX : forall k, In (fold_text k) reserved -> no_key m k).
  { intros k HK j (key & HS & HI). apply same_key_iff in HS. specialize (H _ HI). cbn [fst] in H. apply andb_true_iff in H. destruct H as [H _]. apply negb_true_iff in H.
    apply not_true_iff_false in H. apply H. apply existsb_exists. exists (fold_text k). rewrite HS, String.eqb_refl. auto. }
  split; [apply HX; cbn; auto|]. split; [apply HX; cbn; auto|]. intros k j (key & _ & HI). specialize (H _ HI). apply andb_true_iff in H. tauto.
Qed.
Lemma plainb_ok j : plainb j = true -> plain_document j.
Proof.
  intros H m (raw & d & raw' & l & raw'' & -> & HK & HI). apply plainb_obj in H. destruct H as (_ & _ & H).
  apply H in HK. cbn [plainb] in HK. rewrite forallb_forall in HK. apply HK in HI. apply plainb_obj in HI. destruct HI as (A & B & C).
  split; auto. split; auto. intros k raw0 s _ HS. apply C in HS. apply plainb_obj in HS. tauto.
Qed.
Definition inner_keyb (k : string) : bool := negb (existsb (String.eqb k) ["parentJsonpathAttribute"; "returnValueJsonpath"]).
Definition one_innerb (v : iface) : bool :=
  match v with GMapS m => (List.length (filter inner_keyb (map fst m)) <=? 1)%nat | GMapI _ => false | _ => true end.
Fixpoint singleb (v : iface) : bool :=
  match v with
  | GArr l => forallb singleb l
  | GMapS m => forallb (fun e => singleb (snd e)) m && forallb (fun e => if existsb (String.eqb (fst e)) ["ANY"; "ALL"] then one_innerb (snd e) else true) m
  | GMapI m => false
  | _ => true
  end.
Lemma one_innerb_ok v : one_innerb v = true -> one_inner v.
Proof.
  destruct v; cbn [one_innerb]; intro H; try discriminate H; split; intros mm k1 k2 E; try discriminate E. injection E as <-. apply Nat.leb_le in H. intros I1 I2 K1 K2.
  apply (Props_Yaml.short_filter _ _ _ _ H I1 I2); apply Props_Yaml.inner_key_b; assumption.
Qed.
Lemma singleb_ok v : singleb v = true -> single v.
Proof.
  induction v as [| | | | |l IH|m IH|m IH] using iface_ind'; cbn [singleb]; intro H; try discriminate H; try constructor.
  - rewrite forallb_forall in H. rewrite Forall_forall in *. auto.
  - apply andb_true_iff in H. destruct H as [H1 _]. rewrite forallb_forall in H1. rewrite Forall_forall in *. auto.
  - apply andb_true_iff in H. destruct H as [_ H2]. rewrite forallb_forall in H2. intros k x HI HK. specialize (H2 _ HI). cbn [fst snd] in H2.
    replace (existsb (String.eqb k) ["ANY"; "ALL"]) with true in H2 by (symmetry; apply existsb_exists; exists k; rewrite String.eqb_refl; auto). apply one_innerb_ok. exact H2.
Qed.
(** every value under a key conditions, at any depth *)
Fixpoint conditionsb (f : json -> bool) (j : json) : bool :=
  match j with
  | JArr _ l => forallb (conditionsb f) l
  | JObj _ m => forallb (fun e => (if String.eqb (fold_text (fst e)) "conditions" then f (snd e) else true) && conditionsb f (snd e)) m
  | _ => true
  end.
Lemma conditionsb_ok f j c : conditionsb f j = true -> conditions_of j c -> f c = true.
Proof.
  intros H (m & (raw & d & raw' & l & raw'' & -> & HK & HI) & HC). destruct HK as (key & _ & HK), HC as (key' & HS & HC). apply same_key_iff in HS.
  cbn [conditionsb] in H. rewrite forallb_forall in H. specialize (H _ HK). apply andb_true_iff in H. destruct H as [_ H]. cbn [snd conditionsb] in H. rewrite forallb_forall in H. specialize (H _ HI).
  cbn [conditionsb] in H. rewrite forallb_forall in H. specialize (H _ HC). apply andb_true_iff in H. destruct H as [H _]. cbn [fst snd] in H. rewrite HS, String.eqb_refl in H. exact H.
Qed.
Definition single_text (c : json) : bool := match json_parse RefLib (raw_of c) with Some v => singleb v | None => true end.
Lemma single_treesb j : conditionsb single_text j = true -> single_trees RefLib j.
Proof.
  intros H c v HC HD. pose proof (conditionsb_ok _ _ _ H HC) as HX. unfold single_text in HX. apply Json_proofs.parse_iff in HD. rewrite HD in HX. apply singleb_ok. exact HX.
Qed.

(** the rule of C54 as a text, with spaces, unknown keys and keys of either case (U+017F is a long s) *)
Definition c70_text : string := quotes ("
  {'version': 2, 'Rules': [ {'ruleID': 'r', 'sender': {'senderName': 'front*, ?x', 'senderType': 'workload'},
     'receiver': {'receiverType':'workload', 'receiverName' :'#back'}, 'PROTOCOL': '*', 'resource': {'resourceType': '*', 'resourceName': '*'},
     'operation': 'read', 'conditions': " ++ c54_text ++ " , 'deci\u017fion': 'alert', 'comment': [1e3, null, {}], 'hash': null,
     'metadata': {'description': 'about alert'}} ]}
").
Definition no_lists : json -> P (expanded RefLib * bool) := fun _ => pret Err.
Definition c70_doc : json := match json_read c70_text with Some j => j | None => JNull end.
Lemma c70_is : is_document c70_doc c70_text.
Proof.
  apply read_iff. assert (E : match json_read c70_text with Some _ => true | None => false end = true) by (vm_compute; reflexivity).
  unfold c70_doc. destruct (json_read c70_text); [reflexivity|discriminate E].
Qed.
Lemma c70_distinct : distinct_rules c70_doc.
Proof. apply distinctb_ok. vm_compute. reflexivity. Qed.
Lemma c70_plain : plain_document c70_doc.
Proof. apply plainb_ok. vm_compute. reflexivity. Qed.
Lemma c70_single : single_trees RefLib c70_doc.
Proof. apply single_treesb. vm_compute. reflexivity. Qed.
Lemma c70_read : json_rules RefLib in_order None no_lists c70_text 0 = (Ok [c54_rule], 1).
Proof. vm_cast_no_check (eq_refl (@Ok (list (rule RefLib)) [c54_rule], 1)). Qed.
Lemma c70_says : says_rules RefLib c70_doc [c54_rule].
Proof. exact (proj1 (C70_sound RefLib in_order None no_lists c70_text c70_doc 0 _ _ in_order_fair c70_is c70_distinct c70_read)). Qed.
Lemma c70_only rs : says_rules RefLib c70_doc rs -> Forall (underived RefLib) rs -> rs = [c54_rule].
Proof. intros HR HU. apply (rules_unique RefLib c70_doc); auto using c70_distinct, c70_single, c70_says. constructor; [repeat split|constructor]. Qed.
Definition c70_results (raw : bool) (x : string) : option (list nat) :=
  match (pdo rs <- json_rules RefLib in_order None no_lists c70_text; load_with_predefined RefLib in_order c54_predef rs) 0 with
  | (Ok ss, _) => option_map out_results (fst (check RefLib in_order empty_predef ss (mkEst (c54_msg raw x) 0)))
  | _ => None
  end.
(** the text meets the conditions of C70_check for both messages, and for the first one the rule alerts *)
Example C70_case :
  is_document c70_doc c70_text /\ distinct_rules c70_doc /\ plain_document c70_doc /\ single_trees RefLib c70_doc /\ says_rules RefLib c70_doc [c54_rule] /\
  (forall raw x rs, In x ["5"; "3"] -> says_rules RefLib c70_doc rs -> Forall (underived RefLib) rs ->
     Forall (ordinary RefLib c54_predef) rs /\ Forall (preparable_rule RefLib c54_predef) rs /\ Forall (fun r => rule_covered RefLib c54_predef r (c54_msg raw x)) rs) /\
  map (fun b => map (c70_results b) ["5"; "3"]) [false; true] = [[Some [2]; Some [0]]; [Some [2]; Some [0]]].
Proof.
  split; [exact c70_is|]. split; [exact c70_distinct|]. split; [exact c70_plain|]. split; [exact c70_single|]. split; [exact c70_says|]. split; [|vm_compute; reflexivity].
  intros raw x rs HX HR HU. rewrite (c70_only rs HR HU). split; [|split]; (apply Forall_cons; [|apply Forall_nil]).
  - exact c54_ordinary.
  - apply (sets_ok _ _ c54_ordinary). vm_compute. reflexivity.
  - apply c54_covered. exact HX.
Qed.
Definition outcome {A} (r : res A * nat) : option (option A) := match fst r with Ok a => Some (Some a) | Err => Some None | Panic => None end.
Definition reads_texts (s : string) : option (option (list (list string))) :=
  option_map (option_map (map (fun r => [ru_id r; ru_sender_name r; ru_decision r; ru_hash r]))) (outcome (json_rules RefLib in_order None no_lists (quotes s) 0)).
(** texts, null, wrong kinds, spaces and texts that are no documents *)
Example C70_texts :
  map reads_texts ["{'rules':[{'ruleid':'a\n','HASH':'h','sender':null}]}"; "null"; "{'rules':null}"; "{'rules':[null]}"; "{'RULES':[]}"] =
    [Some (Some [["a" ++ String "010" ""; ""; ""; "h"]]); Some (Some []); Some (Some []); Some (Some [["";"";"";""]]); Some (Some [])] /\
  map reads_texts ["{'rules':[{'ruleID':1}]}"; "{'rules':{}}"; "[]"; "{'rules':[]"; "{'rules':[]}x"; "{'rules':[{'metadata':'x'}]}"; "{'rules':[{'metadata':{'a':1}}]}"; ""] = repeat (Some None) 8 /\
  reads_texts "{'rules':[{'conditions':{'attribute':1,'method':'EQ','value':'x'}}]}" = None.
Proof. repeat split; vm_compute; reflexivity. Qed.

(** *** What does not hold *)
(** "null stands for a value that is not given" is false of the conditions, although it is true of every other entry, and of the conditions in YAML *)
Theorem C70_null_refuted :
  reads_texts "{'rules':[{'decision':'block'}]}" = Some (Some [["";"";"block";""]]) /\
  (forall k, In k ["ruleID"; "sender"; "receiver"; "protocol"; "resource"; "operation"; "metadata"; "hash"; "operationRegex"; "-"] ->
    reads_texts ("{'rules':[{'decision':'block','" ++ k ++ "':null}]}") = Some (Some [["";"";"block";""]])) /\
  reads_texts "{'rules':[{'decision':'block','conditions':null}]}" = Some None /\
  Props_Yaml.reads_texts (Props_Yaml.one_rule [("decision", Props_Yaml.ys "block"); ("conditions", Yaml.YScalar "null" GNil)]) = Some [["";"";"block";""]].
Proof.
  split; [vm_compute; reflexivity|]. split; [|split; vm_compute; reflexivity]. intros k HK. cbn in HK. repeat (destruct HK as [<-|HK]; [vm_compute; reflexivity|]). destruct HK.
Qed.
Print Assumptions C70_null_refuted.
(** "texts of the same value say the same rules" is false: of the texts {} and { } only the first stands for no tree *)
Theorem C70_spaces_refuted : exists s s' v rs, Spec_Json.document RefLib v s /\ Spec_Json.document RefLib v s' /\
  json_rules RefLib in_order None no_lists s 0 = (Ok rs, 0) /\ json_rules RefLib in_order None no_lists s' 0 = (Err, 0).
Proof.
  set (s := fun x => quotes ("{'rules':[{'conditions':{" ++ x ++ "}}]}")). exists (s ""), (s " ").
  assert (E : json_parse RefLib (s "") = json_parse RefLib (s " ")) by (vm_compute; reflexivity).
  destruct (json_parse RefLib (s "")) as [v|] eqn:EV; [|exfalso; revert EV; vm_compute; discriminate]. exists v, [empty_rule RefLib].
  split; [apply Json_proofs.parse_iff; exact EV|]. split; [apply Json_proofs.parse_iff; symmetry; exact E|]. split; [vm_cast_no_check (eq_refl (@Ok (list (rule RefLib)) [empty_rule RefLib], 0))|vm_cast_no_check (eq_refl (@Err (list (rule RefLib)), 0))].
Qed.
Print Assumptions C70_spaces_refuted.
(** "Documents that say the same rules give the same decisions" is false: the key "-" of a rule, which is no part of the language, makes the engine
    take the fields for converted, and a rule that blocks everything applies to nothing *)
Definition block_text (more : string) : string := quotes
  ("{'rules':[{'sender':{'senderName':'*','senderType':'*'},'receiver':{'receiverName':'*','receiverType':'*'},'protocol':'*','resource':{'resourceName':'*','resourceType':'*'},'operation':'*','decision':'block'" ++ more ++ "}]}").
Definition decided (s : string) : option nat :=
  match json_rules RefLib in_order None no_lists s 0 with
  | (Ok rs, _) => option_map out_decision (fst (check RefLib in_order empty_predef (map (load_rule RefLib) rs) (mkEst msg0 0)))
  | _ => None
  end.
Theorem C70_same_refuted : exists s s' j j' rs, is_document j s /\ is_document j' s' /\ distinct_rules j /\ distinct_rules j' /\ says_rules RefLib j rs /\ says_rules RefLib j' rs /\
  decided s = Some BLOCK /\ decided s' = Some DEFAULT.
Proof.
  set (s := block_text ""). set (s' := block_text ",'-':true").
  destruct (json_read s) as [j|] eqn:EJ; [|exfalso; revert EJ; vm_compute; discriminate]. destruct (json_read s') as [j'|] eqn:EJ'; [|exfalso; revert EJ'; vm_compute; discriminate].
  assert (E : match json_read s with Some j => distinctb j | None => true end = true) by (vm_compute; reflexivity). rewrite EJ in E. apply distinctb_ok in E.
  assert (E' : match json_read s' with Some j => distinctb j | None => true end = true) by (vm_compute; reflexivity). rewrite EJ' in E'. apply distinctb_ok in E'.
  apply read_iff in EJ. apply read_iff in EJ'.
  assert (E1 : json_rules RefLib in_order None no_lists s 0 = (Ok [Props_Yaml.block_rule false], 0)) by (vm_cast_no_check (eq_refl (@Ok (list (rule RefLib)) [Props_Yaml.block_rule false], 0))).
  assert (E2 : json_rules RefLib in_order None no_lists s' 0 = (Ok [Props_Yaml.block_rule true], 0)) by (vm_cast_no_check (eq_refl (@Ok (list (rule RefLib)) [Props_Yaml.block_rule true], 0))).
  apply (C70_sound RefLib in_order None no_lists s j _ _ _ in_order_fair EJ E) in E1. apply (C70_sound RefLib in_order None no_lists s' j' _ _ _ in_order_fair EJ' E') in E2.
  exists s, s', j, j', [Props_Yaml.block_rule true]. repeat (split; [assumption|]). split; [|split; [exact (proj1 E2)|split; vm_compute; reflexivity]].
  destruct E1 as [[(_ & HN)|(raw & m & HM & HO)] _]; [discriminate HN|]. right. exists raw, m. split; [exact HM|].
  destruct HO as [[_ HO]|(y & HY & HO)]; [discriminate HO|]. right. exists y. split; [exact HY|]. inversion HO as [|? l xs HF]; subst. constructor. inversion HF as [|z r l' xs' HR HF']; subst. constructor; [|exact HF'].
  destruct HR as [[HN HR]|(raw' & m' & -> & [])]; [left; split; [exact HN|exact HR]|right; exists raw', m'; split; [reflexivity|constructor; assumption]].
Qed.
Print Assumptions C70_same_refuted.
