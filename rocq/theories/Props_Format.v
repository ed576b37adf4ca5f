(** C35, C49: the texts of trees and rules, written out. *)
From Coq Require Import List String Ascii Bool Arith Permutation.
From Verif Require Import Base GoStr GoFloat Types Json StrUtils Validate Prepare Parse Marshal Strings Spec_Tree Spec_Load Spec_Grammar Grammar_tree Load_proofs
  Spec_Format Format_proofs RefLib RefLib_facts Samples Props_Copy Props_Strings Props_Text.
Import ListNotations.
Open Scope string_scope.

(** [written], [rule_written], [one_each] (Spec_Format); [from_text] (Props_Text): the tree was loaded *)
Theorem C35_text : forall L (n : node L) s, one_each L n -> (node_string L n = Some s <-> written L n s).
Proof. intros L n s H. exact (text_written L n H s). Qed.
Print Assumptions C35_text.
Lemma text_one_each L n : from_text L n -> one_each L n.
Proof. intros (ord & v & t & t' & HF & HG & HP). apply (reads_one_each L v HG ""). eapply grammar_sound; eauto. Qed.
Theorem C35_loaded_text : forall L (n : node L) s, from_text L n -> (node_string L n = Some s <-> written L n s).
Proof. intros L n s H. exact (text_written L n (text_one_each L n H) s). Qed.
Print Assumptions C35_loaded_text.

Theorem C49_text : forall L (r : rule L) s, (forall n, ru_tree r = Some n -> one_each L n) -> (rule_string L r = Some s <-> rule_written L r s).
Proof. exact rule_text_written. Qed.
Print Assumptions C49_text.

(** ToLower: six fields in small letters, the others as they are *)
Theorem C49_to_lower : forall L (r r' : rule L), rule_to_lower L r = r' <->
  (in_small (ru_sender_type r) (ru_sender_type r') /\ in_small (ru_receiver_type r) (ru_receiver_type r') /\ in_small (ru_protocol r) (ru_protocol r') /\
   in_small (ru_resource_type r) (ru_resource_type r') /\ in_small (ru_operation r) (ru_operation r') /\ in_small (ru_decision r) (ru_decision r')) /\
  (ru_id r' = ru_id r /\ ru_sender_name r' = ru_sender_name r /\ ru_sender_list r' = ru_sender_list r /\ ru_receiver_name r' = ru_receiver_name r /\ ru_receiver_list r' = ru_receiver_list r /\
   ru_resource_name r' = ru_resource_name r /\ ru_resource_regex r' = ru_resource_regex r /\ ru_tree r' = ru_tree r /\ ru_metadata r' = ru_metadata r /\ ru_hash r' = ru_hash r /\
   ru_operation_regex r' = ru_operation_regex r /\ ru_converted r' = ru_converted r).
Proof.
  intros L r r'. rewrite !small_iff. split.
  - intros <-. cbn. repeat split.
  - intros ((A1 & A2 & A3 & A4 & A5 & A6) & B1 & B2 & B3 & B4 & B5 & B6 & B7 & B8 & B9 & B10 & B11 & B12). destruct r'; cbn in *. subst. reflexivity.
Qed.
Print Assumptions C49_to_lower.

(** ** Cases *)
Definition c35_text_tree : string :=
  "{'AND':[{'NOT':{'attribute':'senderLabel[x]','method':'EQ','value':'1'}},{'ANY':{'parentJsonpathAttribute':'jsonpath:$.l[:]','returnValueJsonpath':{'b':'jsonpath:$RELATIVE.b','a':'jsonpath:$RELATIVE.a'},'condition':{'attribute':'jsonpath:$RELATIVE.c','method':'GT','value':'2'}}}]}".
Example C35_text_case : exists n, load_sample c35_text_tree = Some n /\ from_text RefLib n /\
  written RefLib n "(!(<senderLabel[x]-EQ-1>) && [ANY<jsonpath:$.l[:];map[a:jsonpath:$RELATIVE.a b:jsonpath:$RELATIVE.b]>:<jsonpath:$RELATIVE.c-GT-2>])".
Proof.
  destruct (load_sample c35_text_tree) as [n|] eqn:E.
  - exists n. pose proof (load_sample_ok _ _ E) as HT. split; [reflexivity|]. split; [exact HT|]. apply (C35_loaded_text RefLib n _ HT).
    assert (EX : match load_sample c35_text_tree with Some n => node_string RefLib n | None => None end =
      Some "(!(<senderLabel[x]-EQ-1>) && [ANY<jsonpath:$.l[:];map[a:jsonpath:$RELATIVE.a b:jsonpath:$RELATIVE.b]>:<jsonpath:$RELATIVE.c-GT-2>])") by (vm_compute; reflexivity).
    rewrite E in EX. exact EX.
  - assert (EX : match load_sample c35_text_tree with Some _ => true | None => false end = true) by (vm_compute; reflexivity). rewrite E in EX. discriminate EX.
Qed.
Example C49_text_case : rule_written RefLib (hash_rule "r1" "Workload" "GET" "ALLOW") "<allow>-<workload:front*>-<workload:back>-get-http-<path-/a-b>-<senderLabel[x]-EQ-1>".
Proof. apply C49_text; [|vm_compute; reflexivity]. intros n E. injection E as <-. apply leaf_one_each. Qed.
