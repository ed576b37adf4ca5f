(** C55: rules converted or prepared in place before they are checked. *)
From Coq Require Import List String Ascii Bool Arith ZArith.
From Verif Require Import Base GoStr GoFloat Types Json StrUtils Validate Prepare Parse Marshal Lifecycle Eval Check Spec_Tree Spec_Leaf Spec_Validate Spec_Load
  Spec_Copy Spec_Text Spec_InPlace InPlace_proofs Spec_Regex Ref_Regex RefLib RefLib_facts RefLib_numbers Samples Props_Copy Props_Strings Props_Text.
Import ListNotations.
Open Scope string_scope.

(** PrepareRules before Check makes no difference to the result of Check, the texts of names being no references *)
Theorem C55_converted : forall L ord, keeps_expressions L -> forall (rs rs' : list (rule L)) g e,
  Forall (fun r => underived L r /\ ~ starts "#" (ru_sender_name r) /\ ~ starts "#" (ru_receiver_name r)) rs ->
  convert_rules L rs = Ok rs' ->
  check L ord g (map (load_rule L) rs') e = check L ord g (map (load_rule L) rs) e.
Proof. intros L ord HK rs rs' g e HF. exact (converted_check L ord HK rs rs' g e HF). Qed.
Print Assumptions C55_converted.

(** PrepareRulesWithPredefinedStrings with [p] before Check: the result is the one of a rule on which
    SetPredefinedStringsAndLists was called with [p], whatever the global dictionary *)
Theorem C55_prepared : forall L ord, fair ord -> NumberSpec L -> keeps_expressions L -> forall p (r r' : rule L), underived L r ->
  (forall n, ru_tree r = Some n -> from_text L n /\ copyable L n /\
     exists w, written_out L p n w /\ no_references L w /\ no_empty_is L w /\ copyable L w) ->
  prepare_rule L p r = Ok r' -> ~ starts "#" (ru_sender_name r') -> ~ starts "#" (ru_receiver_name r') ->
  forall g g' e t0, exists t s, fst (set_predefined L ord p (load_rule L r) t0) = (Ok tt, s) /\
    option_map fst (fst (check_one_rule L ord g (load_rule L r') e)) = option_map fst (fst (check_one_rule L ord g' s (mkEst (e_msg e) t))).
Proof.
  intros L ord HF HN HK p r r' HU HT. apply (prepared_in_place L ord p r r' HF HN HK HU).
  intros n E. destruct (HT n E) as (H1 & H2 & H3). exact (conj (from_made L n H1) (conj H2 H3)).
Qed.
Print Assumptions C55_prepared.

(** when copying loses the expressions, checking a converted rule panics on every message *)
Theorem C55_lost : forall L ord (r r' : rule L) g e, loses_expressions L -> ru_converted r = false ->
  ru_sender_type r = "*" \/ ru_sender_type r = "workload" -> convert_fields L r = Ok r' ->
  fst (check_one_rule L ord g (load_rule L r') e) = None.
Proof. exact lost_expressions. Qed.
Print Assumptions C55_lost.

(** a rule whose flag is set (by the key "-" of its text) without being converted never applies *)
Theorem C55_flag : forall L ord (r : rule L) g e x s e', ru_converted r = true -> ru_sender_list r = [] ->
  check_one_rule L ord g (load_rule L r) e = (Some (x, s), e') -> x = (0, []).
Proof. exact flag_only. Qed.
Print Assumptions C55_flag.

(** preparing in place a second time fails *)
Theorem C55_twice : forall L p g (r r' : rule L) n c, prepare_rule L p r = Ok r' -> ru_tree r = Some n -> has_condition L n c ->
  derived_attribute (c_attr c) -> prepare_rule L g r' = Err.
Proof. exact prepared_twice. Qed.
Print Assumptions C55_twice.

(** ** Examples *)
Definition c55_dict : predef := mkPredef [("who", "front*"); ("ua", "curl/7"); ("again", "#ua")] [] [].
Definition c55_tree (v : string) : option (node RefLib) := load_sample (cond_text "requestUseragent" "EQ" v).
Definition c55_rule (who v : string) : rule RefLib := sample_rule who "workload" "*" "workload" "*" "*" "*" "*" (c55_tree v) "block".
Definition result (g : predef) (s : rstate RefLib) : option nat := option_map (fun x => fst (fst x)) (fst (check_one_rule RefLib in_order g s (mkEst msg0 0))).
(** SetPredefinedStringsAndLists, then the check *)
Definition set_result (p : predef) (r : rule RefLib) : option nat :=
  match set_predefined RefLib in_order p (load_rule RefLib r) 0 with (Ok _, s, _) => result empty_predef s | _ => None end.
(** PrepareOneRule or PrepareOneRuleWithPredefinedStrings, then the check with the global dictionary [g] *)
Definition converted_result (g : predef) (r : rule RefLib) : option nat :=
  match convert_fields RefLib r with Ok r' => result g (load_rule RefLib r') | _ => None end.
Definition prepared_result (p g : predef) (r : rule RefLib) : option nat :=
  match prepare_rule RefLib p r with Ok r' => result g (load_rule RefLib r') | _ => None end.

Definition one_condition (t : option (node RefLib)) (v : string) : bool :=
  match t with Some (NCond c) => String.eqb (c_value c) v && String.eqb (c_method c) "EQ" && printableb (c_attr c) && listedb (r_orig (c_ret c)) | _ => false end.
Lemma c55_settled n : c55_tree "#ua" = Some n -> from_text RefLib n /\ copyable RefLib n /\
  exists w, written_out RefLib c55_dict n w /\ no_references RefLib w /\ no_empty_is RefLib w /\ copyable RefLib w.
Proof.
  intro E. split; [exact (load_sample_ok _ _ E)|].
  assert (H : one_condition (c55_tree "#ua") "#ua" = true) by (vm_compute; reflexivity). rewrite E in H. clear E.
  destruct n as [| | | | | |c|]; try discriminate H. unfold one_condition in H. repeat rewrite andb_true_iff in H. destruct H as (((H1 & H2) & H3) & H4).
  apply String.eqb_eq in H1, H2. apply printableb_ok in H3. apply listedb_ok in H4.
  split; [constructor; [exact H3|rewrite H1; apply printableb_ok; reflexivity|exact H4]|].
  exists (NCond (valued RefLib c "curl/7")). split; [constructor; rewrite H1; apply rp_string with "ua"; reflexivity|].
  split; [intros d HD; inversion HD; subst; intros [x X]; discriminate X|].
  split; [intros d HD; inversion HD; subst; cbn; intros _; discriminate|].
  constructor; [exact H3|apply printableb_ok; reflexivity|exact H4].
Qed.

Example C55_case :
  keeps_expressions RefLib /\ NumberSpec RefLib /\ underived RefLib (c55_rule "#who" "#ua") /\
  (forall n, ru_tree (c55_rule "#who" "#ua") = Some n -> from_text RefLib n /\ copyable RefLib n /\
     exists w, written_out RefLib c55_dict n w /\ no_references RefLib w /\ no_empty_is RefLib w /\ copyable RefLib w) /\
  (exists r', prepare_rule RefLib c55_dict (c55_rule "#who" "#ua") = Ok r' /\ ru_sender_name r' = "front*" /\ ru_receiver_name r' = "*") /\
  set_result c55_dict (c55_rule "#who" "#ua") = Some 3 /\ prepared_result c55_dict empty_predef (c55_rule "#who" "#ua") = Some 3 /\
  converted_result empty_predef (c55_rule "10.0.0.0,f?ont*" "curl/7") = Some 3 /\ converted_result empty_predef (c55_rule "b*" "curl/7") = Some 0 /\
  match prepare_rule RefLib empty_predef (sample_rule "*" "workload" "*" "workload" "*" "*" "*" "*" (load_sample (cond_text "senderLabel[a]" "EQ" "b")) "block") with
  | Ok r' => match prepare_rule RefLib empty_predef r' with Err => true | _ => false end
  | _ => false
  end = true.
Proof.
  split; [intro x; reflexivity|]. split; [exact RefLib_number|]. split; [repeat split|]. split; [intros n E; apply c55_settled; exact E|].
  split; [|repeat split; vm_compute; reflexivity].
  assert (H : match prepare_rule RefLib c55_dict (c55_rule "#who" "#ua") with Ok r' => String.eqb (ru_sender_name r') "front*" && String.eqb (ru_receiver_name r') "*" | _ => false end = true) by (vm_compute; reflexivity).
  destruct (prepare_rule RefLib c55_dict (c55_rule "#who" "#ua")) as [r'| |]; try discriminate H. exists r'. apply andb_true_iff in H. destruct H as [H1 H2].
  apply String.eqb_eq in H1, H2. auto.
Qed.

(** the library of Go before 1.21: the copy of an expression is empty *)
Definition OldGo : Lib :=
  mkLib rx rx_compile rx_match (list step) ref_jp_prepare ref_jp_query ref_js_get (ref_ugly_from false false)
    ref_parse_float ref_fmt_float ref_json_float (fun _ => "map[]") ref_parse_ip ref_parse_cidr ref_parse_time (fun s => s) (fun _ => None).
Definition old_rule (flag : bool) : rule OldGo :=
  mkRule "r" "f*" "workload" [] "*" "workload" [] "*" "*" "*" None "*" None "block" [] "" None flag.
Definition old_result (r : rule OldGo) : option nat := option_map (fun x => fst (fst x)) (fst (check_one_rule OldGo in_order empty_predef (load_rule OldGo r) (mkEst msg0 0))).
Example C55_lost_case : loses_expressions OldGo /\ old_result (old_rule false) = Some 3 /\ old_result (old_rule true) = Some 0 /\
  match convert_fields OldGo (old_rule false) with Ok r' => old_result r' = None | _ => False end.
Proof. split; [intro x; reflexivity|]. repeat split; vm_compute; reflexivity. Qed.

(** after PrepareRules a reference in a name is never looked up: the rule no longer applies *)
Theorem C55_reference_refuted : exists p r, set_result p r = Some 3 /\ converted_result p r = Some 0.
Proof. exists c55_dict, (c55_rule "#who" "curl/7"). split; vm_compute; reflexivity. Qed.
Print Assumptions C55_reference_refuted.

(** a text that is a reference itself is looked up again, in the global dictionary *)
Theorem C55_looked_up_again_refuted : exists p r, set_result p r = Some 0 /\ prepared_result p p r = Some 3.
Proof. exists c55_dict, (c55_rule "front*" "#again"). split; vm_compute; reflexivity. Qed.
Print Assumptions C55_looked_up_again_refuted.
