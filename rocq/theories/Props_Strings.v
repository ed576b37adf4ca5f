(** C34, C35, C49: textual forms, hashes and comparison of conditions. *)
From Coq Require Import List String Ascii Bool Arith ZArith Permutation.
From Verif Require Import Base GoStr GoFloat Types Json StrUtils Validate Prepare Parse Marshal Eval Lifecycle Strings Spec_Tree Spec_Glob Spec_Match
  Spec_Leaf Spec_Scope Spec_Strings Tree_proofs Strings_proofs Hash_proofs RefLib RefLib_facts Samples.
Import ListNotations.
Open Scope string_scope.

(** ** C34 *)
(** [shuffled] (Spec_Scope): children of AND/OR reordered at any depth *)
Theorem C34_text : forall L (n n' : node L), shuffled n n' -> node_string L n = node_string L n'.
Proof. intros L n n' H. exact (shuffled_text L n n' H). Qed.
Print Assumptions C34_text.

Theorem C34_hash : forall L (r r' : rule L) n n', ru_tree r = Some n -> ru_tree r' = Some n' -> shuffled n n' ->
  same_heading L r r' -> rule_hash L r = rule_hash L r'.
Proof.
  intros L r r' n n' E E' H HH. apply rule_hash_text. unfold rule_string. rewrite (shuffled_conditions L r r' n n' E E' H).
  destruct HH as (H1 & H2 & H3 & H4 & H5 & H6 & H7 & H8 & H9). apply lower_same in H1, H2, H4, H6, H7.
  rewrite H1, H2, H3, H4, H5, H6, H7, H8, H9. reflexivity.
Qed.
Print Assumptions C34_hash.

Theorem C34_equal : forall L (r r' : rule L) n n', ru_tree r = Some n -> ru_tree r' = Some n' -> shuffled n n' -> no_nil L n ->
  conditions_equal L r r' = Some true.
Proof.
  intros L r r' n n' E E' H HN. apply conditions_equal_iff. apply text_exists in HN. destruct HN as [s HS]. exists s, s.
  unfold conditions_string. rewrite E, E', <- (shuffled_text L n n' H). tauto.
Qed.
Print Assumptions C34_equal.

(** the text of a tree given as JSON text *)
Definition tree_text (s : string) : option string := match load_tree s with Some n => node_string RefLib n | None => None end.
Definition cond_text (att method value : string) : string := "{'attribute':'" ++ att ++ "','method':'" ++ method ++ "','value':'" ++ value ++ "'}".
Definition two (k a b : string) : string := "{'" ++ k ++ "':[" ++ a ++ "," ++ b ++ "]}".

Example C34_case :
  let a := cond_text "senderLabel[x]" "EQ" "1" in let b := cond_text "jsonpath:$.y" "RE" "z" in let c := cond_text "payloadSize" "GT" "5" in
  tree_text ("{'conditionsTree':" ++ two "AND" (two "OR" a b) c ++ "}") = tree_text ("{'conditionsTree':" ++ two "AND" c (two "OR" b a) ++ "}") /\
  tree_text ("{'conditionsTree':" ++ two "AND" (two "OR" a b) c ++ "}") = Some "((<jsonpath:$.y-RE-z> || <senderLabel[x]-EQ-1>) && <payloadSize-GT-5>)".
Proof. cbv zeta. split; vm_compute; reflexivity. Qed.

Example C34_shuffled : forall L (a b c : node L), shuffled (NAnd [NOr [a; b]; c]) (NAnd [c; NOr [b; a]]).
Proof.
  intros. eapply sh_and; [constructor; [|constructor; [apply sh_same|constructor]]|apply perm_swap].
  eapply sh_or; [constructor; [apply sh_same|constructor; [apply sh_same|constructor]]|apply perm_swap].
Qed.

(** ** C35 *)
(** [no_nil], [alike], [legible] (Spec_Strings) *)
Theorem C35_defined : forall L (r1 r2 : rule L), conditions_equal L r1 r2 <> None <-> no_nil_conditions L r1 /\ no_nil_conditions L r2.
Proof. exact conditions_equal_defined. Qed.
Print Assumptions C35_defined.
Theorem C35_reflexive : forall L (r : rule L), no_nil_conditions L r -> conditions_equal L r r = Some true.
Proof. exact conditions_equal_refl. Qed.
Print Assumptions C35_reflexive.
Theorem C35_symmetric : forall L (r1 r2 : rule L) b, conditions_equal L r1 r2 = b -> conditions_equal L r2 r1 = b.
Proof. exact conditions_equal_sym. Qed.
Print Assumptions C35_symmetric.
Theorem C35_transitive : forall L (r1 r2 r3 : rule L), conditions_equal L r1 r2 = Some true -> conditions_equal L r2 r3 = Some true ->
  conditions_equal L r1 r3 = Some true.
Proof. exact conditions_equal_trans. Qed.
Print Assumptions C35_transitive.

(** equal when the trees differ only in order, AND/OR around one child or what is not shown *)
Theorem C35_alike : forall L (r1 r2 : rule L), no_nil_conditions L r1 -> no_nil_conditions L r2 ->
  alike_conditions L (ru_tree r1) (ru_tree r2) -> conditions_equal L r1 r2 = Some true.
Proof. exact conditions_equal_alike. Qed.
Print Assumptions C35_alike.
(** and for legible trees only then, unless the hash collides *)
Theorem C35_determines : forall L (n1 n2 : node L), legible L n1 -> legible L n2 -> (node_string L n1 = node_string L n2 <-> alike L n1 n2).
Proof. exact text_determines. Qed.
Print Assumptions C35_determines.
Theorem C35_legible : forall L (r1 r2 : rule L), legible_conditions L (ru_tree r1) -> legible_conditions L (ru_tree r2) ->
  (forall s1 s2, conditions_string L r1 = Some s1 -> conditions_string L r2 = Some s2 -> md5hex L s1 = md5hex L s2 -> s1 = s2) ->
  (conditions_equal L r1 r2 = Some true <-> alike_conditions L (ru_tree r1) (ru_tree r2)).
Proof. exact conditions_equal_legible. Qed.
Print Assumptions C35_legible.
(** a rule without conditions differs from every rule with conditions *)
Theorem C35_none : forall L (n : node L), node_string L n <> Some "no conditions".
Proof. exact text_not_none. Qed.
Print Assumptions C35_none.

(** Trees with different meaning can have the same text: AND and OR without children, and '-' inside attribute and value. *)
Definition flag_of (n : node RefLib) (m : message) : option bool := option_map fst (fst (eval RefLib in_order n (mkEst m 0))).
Theorem C35_empty_refuted : exists (n1 n2 : node RefLib) m b,
  node_string RefLib n1 = node_string RefLib n2 /\ flag_of n1 m = Some b /\ flag_of n2 m = Some (negb b).
Proof. exists (NAnd []), (NOr []), msg0, true. repeat split; vm_compute; reflexivity. Qed.
Print Assumptions C35_empty_refuted.

Theorem C35_dash_refuted : exists s1 s2 m b, tree_text s1 = tree_text s2 /\ tree_text s1 <> None /\
  run_flag in_order s1 m = Some b /\ run_flag in_order s2 m = Some (negb b).
Proof.
  exists ("{'conditionsTree':" ++ cond_text "jsonpath:$.x" "EQ" "y-EQ-z" ++ "}"), ("{'conditionsTree':" ++ cond_text "jsonpath:$.x-EQ-y" "EQ" "z" ++ "}"),
    (parsed_msg "{'x':'y-EQ-z'}"), true.
  repeat split; try (vm_compute; reflexivity). vm_compute. discriminate.
Qed.
Print Assumptions C35_dash_refuted.

(** a NOT without content, which the loader accepts, has no text *)
Definition loads (s : string) : bool := match load_tree s with Some _ => true | None => false end.
Example C35_nil_case : loads "{'conditionsTree':{'NOT':[]}}" = true /\ tree_text "{'conditionsTree':{'NOT':[]}}" = None.
Proof. split; vm_compute; reflexivity. Qed.

Example C35_case :
  let a := cond_text "senderLabel[x]" "EQ" "1" in let b := cond_text "jsonpath:$.y" "RE" "z" in
  tree_text ("{'conditionsTree':" ++ "{'OR':[" ++ two "AND" a b ++ "]}" ++ "}") = tree_text ("{'conditionsTree':" ++ two "AND" b a ++ "}") /\
  tree_text ("{'conditionsTree':" ++ two "AND" a b ++ "}") <> tree_text ("{'conditionsTree':" ++ two "OR" a b ++ "}").
Proof. cbv zeta. split; [|intro E]; vm_compute in *; [reflexivity|discriminate]. Qed.

(** a legible tree *)
Definition shown_cond (L : Lib) (att method value : string) : node L :=
  NCond (mkCond att method value no_num no_lab no_obj no_jp no_ret (mkOrig "" "" "")).
Lemma shown_cond_legible L att method value k : method_is method k -> avoids [">"; "-"]%char att -> avoids [">"]%char value ->
  legible L (shown_cond L att method value).
Proof.
  intros HM HA HV. apply (lg_cond L _ att method value k); auto.
  - repeat split; right; auto.
  - eapply Glob_proofs.all_chars_impl; [|exact HA]. simpl. intuition.
  - intros k' m' a b _ E. exfalso. revert HA. rewrite E, avoids_app. intros [_ [HD _]]. apply HD. simpl. auto.
Qed.
Example C35_legible_case : forall L,
  legible L (NAnd [shown_cond L "senderLabel[x]" "EQ" "a-b"; NNot (NOr [shown_cond L "jsonpath:$.y" "RE" "z"; NTrue])]).
Proof.
  intro L. assert (HA : legible L (shown_cond L "senderLabel[x]" "EQ" "a-b")).
  { apply (shown_cond_legible L _ _ _ KEq); [left; reflexivity| |]; repeat split; simpl; intuition discriminate. }
  assert (HB : legible L (shown_cond L "jsonpath:$.y" "RE" "z")).
  { apply (shown_cond_legible L _ _ _ KRe); [unfold method_is; simpl; tauto| |]; repeat split; simpl; intuition discriminate. }
  apply lg_and; [discriminate|]. constructor; [exact HA|]. constructor; [|constructor]. apply lg_not, lg_or; [discriminate|].
  constructor; [exact HB|]. constructor; [apply lg_true|constructor].
Qed.

(** ** C49 *)
(** [same_heading], [plain_heading] (Spec_Strings) *)
Theorem C49_same : forall L (r1 r2 : rule L), same_heading L r1 r2 -> alike_conditions L (ru_tree r1) (ru_tree r2) ->
  rule_hash L r1 = rule_hash L r2.
Proof. intros L r1 r2 H1 H2. apply rule_hash_text, same_text; auto. Qed.
Print Assumptions C49_same.
Theorem C49_determines : forall L (r1 r2 : rule L) s, plain_heading L r1 -> plain_heading L r2 ->
  legible_conditions L (ru_tree r1) -> legible_conditions L (ru_tree r2) -> rule_string L r1 = Some s ->
  (rule_string L r2 = Some s <-> same_heading L r1 r2 /\ alike_conditions L (ru_tree r1) (ru_tree r2)).
Proof. exact text_reads_rule. Qed.
Print Assumptions C49_determines.
(** ToLower keeps the hash when the resource type has no upper case letters *)
Theorem C49_lower : forall L (r : rule L), all_chars (fun c => ~ (65 <= nat_of_ascii c <= 90)%nat) (ru_resource_type r) ->
  rule_hash L (rule_to_lower L r) = rule_hash L r.
Proof. intros L r H. apply rule_hash_text, lower_text, lower_id; auto. Qed.
Print Assumptions C49_lower.
(** but not otherwise *)
Theorem C49_lower_resource_refuted : exists r : rule RefLib, rule_hash RefLib (rule_to_lower RefLib r) <> rule_hash RefLib r.
Proof. exists (sample_rule "a" "workload" "b" "workload" "HTTP" "Path" "/x" "GET" None "allow"). vm_compute. discriminate. Qed.
Print Assumptions C49_lower_resource_refuted.

Definition hash_rule (id sender_type op d : string) : rule RefLib :=
  mkRule id "front*" sender_type [] "back" "workload" [] "HTTP" "path" "/a-b" None op (Some (shown_cond RefLib "senderLabel[x]" "EQ" "1")) d
    [("k", id)] "" None false.
Example C49_case :
  rule_string RefLib (hash_rule "r1" "Workload" "GET" "ALLOW") =
    Some "<allow>-<workload:front*>-<workload:back>-get-http-<path-/a-b>-<senderLabel[x]-EQ-1>" /\
  rule_hash RefLib (hash_rule "r1" "Workload" "GET" "ALLOW") = rule_hash RefLib (hash_rule "r2" "workload" "get" "Allow") /\
  rule_hash RefLib (hash_rule "r1" "Workload" "GET" "ALLOW") <> rule_hash RefLib (hash_rule "r1" "Workload" "POST" "ALLOW").
Proof. split; [|split]; vm_compute; try reflexivity. discriminate. Qed.
Example C49_plain : plain_heading RefLib (hash_rule "r1" "Workload" "GET" "ALLOW").
Proof. repeat split; simpl; intuition discriminate. Qed.
(** a '-' in the operation and protocol confuses the texts of two rules *)
Theorem C49_dash_refuted : exists r1 r2 : rule RefLib, rule_hash RefLib r1 = rule_hash RefLib r2 /\ ru_operation r1 <> ru_operation r2.
Proof.
  exists (sample_rule "a" "workload" "b" "workload" "c" "path" "/x" "a-b" None "allow"), (sample_rule "a" "workload" "b" "workload" "b-c" "path" "/x" "a" None "allow").
  split; [vm_compute; reflexivity|discriminate].
Qed.
Print Assumptions C49_dash_refuted.
