(** C63: the values on which loading a conditions tree can panic. *)
From Coq Require Import List String Ascii Bool Arith ZArith Permutation.
From Verif Require Import Base GoStr GoFloat Types Json StrUtils Validate Prepare Parse Spec_Tree Spec_Json Json_proofs Spec_Load Spec_Grammar Grammar_proofs
  Spec_Crash Crash_proofs RefLib Samples Props_Load.
Import ListNotations.
Open Scope string_scope.

(** ** C63 *)
(** [crashes] (Spec_Crash): reaching a key that is no text, or an attribute, method, parent path or return value that is no text *)
Theorem C63_loading : forall L v t, go_value v -> crashes L "" v <-> exists ord, fair ord /\ fst (parse_conditions_tree L ord v t) = Panic.
Proof. exact loading_panics. Qed.
Print Assumptions C63_loading.
Theorem C63_json : forall L data t,
  (exists v, document L v data /\ crashes L "" v) <-> exists ord, fair ord /\ fst (unmarshal_json_tree L ord data t) = Panic.
Proof. exact json_panics. Qed.
Print Assumptions C63_json.
Definition code {A} (r : res A) : nat := match r with Ok _ => 0 | Err => 1 | Panic => 2 end.
Lemma outcome_of {A} (r r' : res A) : (code r =? code r')%nat && negb (code r =? 0)%nat = true -> r = r'.
Proof. destruct r, r'; simpl; intro H; try discriminate H; reflexivity. Qed.
(** Whether it panics depends on the order in which a map is visited: an error may be met first. *)
Theorem C63_order_refuted : exists data o o', fair o /\ fair o' /\
  fst (unmarshal_json_tree RefLib o data 0) = Panic /\ fst (unmarshal_json_tree RefLib o' data 0) = Err.
Proof.
  exists (quotes "{'ANY':{'condition':{'attribute':5,'method':'EQ'},'parentJsonpathAttribute':'$.a'}}"), in_order, reversed.
  split; [intros n ks; apply Permutation_refl|]. split; [intros n ks; apply Permutation_sym, Permutation_rev|]. split; apply outcome_of; vm_compute; reflexivity.
Qed.
Print Assumptions C63_order_refuted.

Definition outcome (s : string) : nat := code (fst (unmarshal_json_tree RefLib in_order (quotes s) 0)).
(** one text for each way to panic, *)
Example C63_cases : map outcome
  ["{'attribute':5,'method':'EQ','value':1}"; "{'attribute':'domain','method':null}"; "{'foo':{'attribute':'domain','method':true}}";
   "{'attribute':'x','method':'y','returnValueJsonpath':{'a':1}}"; "[{'attribute':5,'method':'EQ'}]";
   "{'AND':[{'attribute':'domain','method':'EQ','value':'x'},{'attribute':{},'method':'EQ'},{}]}";
   "{'ANY':{'parentJsonpathAttribute':1,'condition':{}}}";
   "{'ALL':{'parentJsonpathAttribute':'jsonpath:$.a','returnValueJsonpath':{'a':[]},'condition':{}}}";
   "{'ANY':{'parentJsonpathAttribute':'jsonpath:$.a','NOT':{'OR':{'Attribute':[],'Method':'EQ'}}}}"] = [2; 2; 2; 2; 2; 2; 2; 2; 2]%nat /\
(** and neighbours that only fail *)
  map outcome
  ["{'attribute':'x','method':'EQ','value':1}"; "{'attribute':5}"; "{'attribute':5,'method':'EQ','other':1,'more':1}"; "[{},{'attribute':5,'method':'EQ'}]";
   "{'AND':[{},{'attribute':5,'method':'EQ'}]}"; "{'ANY':{'parentJsonpathAttribute':1}}"; "{'ANY':{'parentJsonpathAttribute':'jsonpath:$.a','returnValueJsonpath':1}}";
   "{'foo':{'bar':{'attribute':5,'method':'EQ'}}}"] = [1; 1; 1; 1; 1; 1; 1; 1]%nat.
Proof. split; vm_compute; reflexivity. Qed.
(** a YAML map with a number as key *)
Example C63_yaml_case : let v := GMapI [(GInt 1, GNil)] in
  go_value v /\ crashes RefLib "" v /\ fst (unmarshal_yaml_tree RefLib in_order v 0) = Panic.
Proof.
  split; [|split; [|apply outcome_of; vm_compute; reflexivity]].
  - constructor; [repeat constructor; simpl; tauto|repeat constructor].
  - apply cr_key. eexists _, _, _. split; [reflexivity|]. split; [left; reflexivity|]. intros [s E]. discriminate E.
Qed.
Example C63_spec_case : crashes RefLib "" (GMapS [("NOT", GMapS [("method", GStr "EQ"); ("Attribute", GBool true)])]).
Proof.
  eapply cr_keyword; [left; reflexivity|simpl; tauto|]. eapply cr_condition with (x := GBool true); [left; reflexivity| | |].
  - exists "Attribute", "method", [], []. split; [right; auto|]. split; [left; auto|]. split; [constructor|]. split; [auto|]. apply perm_swap.
  - left. exists "Attribute". split; [right; auto|]. simpl. auto.
  - intros [s E]. discriminate E.
Qed.
