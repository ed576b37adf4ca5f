(** C70: JSON documents in which keys occur more than once, and the fields of rules that only the engine should set. *)
From Coq Require Import List String Ascii Bool Arith.
From Verif Require Import Base GoStr GoFloat Types Json StrUtils Validate Prepare Parse Marshal Lifecycle Spec_Tree Spec_Load JsonDoc Spec_JsonDoc JsonDoc_proofs Spec_JsonKeys JsonDoc_keys
  RefLib RefLib_facts Samples Props_Load Props_JsonDoc.
Import ListNotations.
Open Scope string_scope.

(** [rule_read] (Spec_JsonKeys): of several entries with the same key the last one that is not null counts, except that the conditions and the expressions are those of the last entry;
    senders, receivers, resources and metadata are put together from all entries.  A text that is no expression is an error. *)
Theorem C70_last : forall L ord re_text exp_in s raw d raw' l t rs t', fair ord -> is_document (JObj raw d) s -> distinct d -> at_key d "rules" (JArr raw' l) ->
  json_rules L ord re_text exp_in s t = (Ok rs, t') -> Forall2 (fun j r => forall raw m, j = JObj raw m -> rule_read L re_text m r) l rs.
Proof. intros L ord re_text exp_in s raw d raw' l t rs t' HF. exact (rules_last L ord re_text exp_in HF s raw d raw' l t rs t'). Qed.
Print Assumptions C70_last.
Theorem C70_rule_last : forall L ord re_text exp_in s raw m t r t', fair ord -> is_document (JObj raw m) s ->
  json_rule L ord re_text exp_in s t = (Ok r, t') -> rule_read L re_text m r.
Proof. intros L ord re_text exp_in s raw m t r t' HF. exact (rule_last L ord re_text exp_in HF s raw m t r t'). Qed.
Print Assumptions C70_rule_last.

(** ** Cases *)
Definition read_one (re_text : option (string -> option (RE RefLib))) (s : string) : option (option (list string * list (string * string) * (nat * nat * bool))) :=
  option_map (option_map (fun r => ([ru_id r; ru_sender_name r; ru_sender_type r; ru_decision r], ru_metadata r,
    (match ru_operation_regex r with Some _ => 1 | None => 0 end, match ru_resource_regex r with Some _ => 1 | None => 0 end, ru_converted r)))) (outcome (json_rule RefLib in_order re_text no_lists (quotes s) 0)).
Example C70_last_case :
  let c := re_compile RefLib in
  read_one (Some c) "{'ruleID':'a','RuleId':'b','ruleID':null,'sender':{'senderName':'x','senderType':'y'},'decision':'block','SENDER':{'senderName':'z'},'decision':'allow','sender':null}" =
    Some (Some (["b"; "z"; "y"; "allow"], [], (0, 0, false))) /\
  read_one (Some c) "{'metadata':{'k':'1'},'metadata':null,'metadata':{'l':'2','m':'3'},'Metadata':{'m':'4'}}" = Some (Some (["";"";"";""], [("l", "2"); ("m", "4")], (0, 0, false))) /\
  map (read_one (Some c)) ["{'operationRegex':'a.*','resource':{'-':'b'},'-':true,'-':null}"; "{'operationRegex':'a','operationRegex':null}"] =
    [Some (Some (["";"";"";""], [], (1, 1, true))); Some (Some (["";"";"";""], [], (0, 0, false)))] /\
  map (read_one (Some c)) ["{'operationRegex':'['}"; "{'operationRegex':'[','operationRegex':'a'}"; "{'operationRegex':{}}"; "{'ruleID':1,'ruleID':'a'}"; "{'resource':{'-':'['}}"] = repeat (Some None) 5 /\
  map (read_one None) ["{'operationRegex':{}}"; "{'operationRegex':'a'}"] = [Some (Some (["";"";"";""], [], (0, 0, false))); Some None].
Proof. cbv zeta. repeat split; vm_compute; reflexivity. Qed.
