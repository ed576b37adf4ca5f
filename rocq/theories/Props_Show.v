(** C57: the texts shown for a rule (GetRuleStrings). *)
From Coq Require Import List String Ascii Bool Arith ZArith.
From Verif Require Import Base GoStr GoFloat Types Json StrUtils Validate Prepare Parse Marshal Strings Spec_Tree Spec_Leaf Spec_Text Spec_Strings Spec_Load Load_proofs
  Spec_Show Show_proofs RefLib Samples Props_Strings Props_Text.
Import ListNotations.
Open Scope string_scope.

(** [shows_rule], [shown_alike], [plain_types] (Spec_Show) *)
Theorem C57_fields : forall L (r : rule L) s, get_rule_strings L r = Some s <-> shows_rule L r s.
Proof. exact rule_strings_iff. Qed.
Print Assumptions C57_fields.
(** a rule without conditions panics *)
Theorem C57_panics : forall L (r : rule L), get_rule_strings L r = None <-> forall n, ru_tree r = Some n -> ~ no_nil L n.
Proof. exact rule_strings_panic. Qed.
Print Assumptions C57_panics.
Theorem C57_determines : forall L (r1 r2 : rule L) n1 n2, plain_types L r1 -> plain_types L r2 -> ru_tree r1 = Some n1 -> ru_tree r2 = Some n2 ->
  legible L n1 -> legible L n2 -> (get_rule_strings L r1 = get_rule_strings L r2 <-> shown_alike L r1 r2).
Proof. exact rule_strings_same. Qed.
Print Assumptions C57_determines.
Theorem C57_prepared : forall L p (r r' : rule L), prepare_rule L p r = Ok r' ->
  (forall n, ru_tree r = Some n -> from_text L n /\ no_references L n /\ no_empty_is L n) ->
  ~ starts "#" (ru_sender_name r) -> ~ starts "#" (ru_receiver_name r) -> get_rule_strings L r' = get_rule_strings L r.
Proof.
  intros L p r r' HP HT HS HR. apply (prepared_rule_strings L p r r' HP); auto. intros n E. destruct (HT n E) as (H1 & H2 & H3). split; [exact (from_made L n H1)|auto].
Qed.
Print Assumptions C57_prepared.

(** equal texts, although one rule has no sender type and the other has a strange one *)
Theorem C57_type_refuted : exists r1 r2 : rule RefLib, get_rule_strings RefLib r1 = get_rule_strings RefLib r2 /\ get_rule_strings RefLib r1 <> None /\
  ru_sender_type r1 <> ru_sender_type r2.
Proof.
  exists (sample_rule "a" "" "b" "workload" "HTTP" "path" "/x" "GET" (Some NTrue) "allow"),
    (sample_rule ":a" "{default type}" "b" "workload" "HTTP" "path" "/x" "GET" (Some NTrue) "allow").
  split; [vm_compute; reflexivity|]. split; discriminate.
Qed.
Print Assumptions C57_type_refuted.

Definition show_rule (sender_type op : string) (n : node RefLib) : rule RefLib :=
  sample_rule "front*" sender_type "back" "workload" "" "" "/x" op (Some n) "allow".
Definition show_tree (flip : bool) : node RefLib :=
  let a := shown_cond RefLib "senderLabel[x]" "EQ" "1" in let b := shown_cond RefLib "domain" "EQ" "d" in NAnd (if flip then [b; a] else [a; b]).
(** order of AND, "default" and an empty operation are not distinguished; a sender type is *)
Example C57_case :
  get_rule_strings RefLib (show_rule "" "" (show_tree false)) =
    Some (mkRuleStrings "{default type}::front*" "workload:back" "default" "default:default" "default" "(<domain-EQ-d> && <senderLabel[x]-EQ-1>)" "allow") /\
  get_rule_strings RefLib (show_rule "" "default" (show_tree true)) = get_rule_strings RefLib (show_rule "" "" (show_tree false)) /\
  get_rule_strings RefLib (show_rule "workload" "" (show_tree false)) <> get_rule_strings RefLib (show_rule "" "" (show_tree false)) /\
  get_rule_strings RefLib (sample_rule "a" "" "b" "" "" "" "" "" None "allow") = None.
Proof. repeat split; try (vm_compute; reflexivity). vm_compute. discriminate. Qed.
Example C57_hypotheses : plain_types RefLib (show_rule "" "" (show_tree false)) /\ (forall flip, legible RefLib (show_tree flip)).
Proof.
  split.
  - repeat constructor; try discriminate; simpl; intuition discriminate.
  - intro flip. assert (H : legible RefLib (shown_cond RefLib "senderLabel[x]" "EQ" "1") /\ legible RefLib (shown_cond RefLib "domain" "EQ" "d")).
    { split; apply shown_cond_legible with KEq; try (left; reflexivity); repeat split; simpl; intuition discriminate. }
    destruct flip; apply lg_and; try discriminate; repeat constructor; apply H.
Qed.
