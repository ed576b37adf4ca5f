(** C51: preparation and the texts of rules. *)
From Coq Require Import List String Ascii Bool Arith ZArith.
From Verif Require Import Base GoStr GoFloat Types Json StrUtils Validate Prepare Parse Marshal Strings Spec_Tree Spec_Glob Spec_Leaf Spec_Validate Spec_Load
  Load_proofs Spec_Copy Spec_Text Text_proofs RefLib RefLib_facts Samples Props_Copy Props_Strings.
Import ListNotations.
Open Scope string_scope.

(** The tree [n] was loaded: [parse_conditions_tree] on a decoded value. *)
Definition from_text (L : Lib) (n : node L) : Prop :=
  exists ord v t t', fair ord /\ go_value v /\ parse_conditions_tree L ord v t = (Ok n, t').
Lemma from_made L n : from_text L n -> made L n.
Proof. intros (ord & v & t & t' & HF & HG & HP). exact (tree_made L ord HF v t n t' HG HP). Qed.

(** [written_out], [no_empty_is], [no_references] (Spec_Text) *)
Theorem C51_tree : forall L p n n', from_text L n -> prepare_node L p n = Ok n' ->
  exists w, written_out L p n w /\ (no_empty_is L w -> node_string L n' = node_string L w /\ node_json L n' = node_json L w).
Proof.
  intros L p n n' HT HP. destruct (written_exists L _ _ _ HP) as [w HW]. exists w. split; [exact HW|].
  exact (prepared_text L p n n' w (from_made L n HT) HP HW).
Qed.
Print Assumptions C51_tree.

Theorem C51_same : forall L p n n', from_text L n -> prepare_node L p n = Ok n' -> no_references L n -> no_empty_is L n ->
  node_string L n' = node_string L n /\ node_json L n' = node_json L n.
Proof. intros L p n n' HT. exact (prepared_text_same L p n n' (from_made L n HT)). Qed.
Print Assumptions C51_same.

(** a deep copy of the prepared tree is the tree as it was loaded *)
Theorem C51_copy : forall L ord p n n', fair ord -> from_text L n -> copyable L n -> prepare_node L p n = Ok n' ->
  no_references L n -> no_empty_is L n -> forall t, exists t', copy_tree L ord (Some n') t = (Ok (Some n), t').
Proof. intros L ord p n n' HF HT. exact (copy_of_prepared L ord p n n' HF (from_made L n HT)). Qed.
Print Assumptions C51_copy.

(** texts and hashes of rules *)
Theorem C51_rule : forall L p (r r' : rule L), prepare_rule L p r = Ok r' ->
  (forall n, ru_tree r = Some n -> from_text L n /\ no_references L n /\ no_empty_is L n) ->
  ~ starts "#" (ru_sender_name r) -> ~ starts "#" (ru_receiver_name r) ->
  rule_string L r' = rule_string L r /\ conditions_string L r' = conditions_string L r /\
  rule_hash L r' = rule_hash L r /\ conditions_hash L r' = conditions_hash L r /\ tree_json L (ru_tree r') = tree_json L (ru_tree r) /\
  conditions_equal L r r' = Some true.
Proof.
  intros L p r r' HP HT HS HR.
  assert (HT' : forall n, ru_tree r = Some n -> made L n /\ no_references L n /\ no_empty_is L n)
    by (intros n E; destruct (HT n E) as (H1 & H2 & H3); exact (conj (from_made L n H1) (conj H2 H3))).
  destruct (prepared_rule_text L p r r' HP HT' HS HR) as (E1 & E2 & E3 & E4 & E5). pose proof (prepared_equal L p r r' HP HT' HS HR). auto 10.
Qed.
Print Assumptions C51_rule.

(** the texts before and after preparation with a dictionary *)
Definition texts (p : predef) (tree : string) : option (option string * option string) :=
  match load_tree ("{'conditionsTree':" ++ tree ++ "}") with
  | Some n => match prepare_node RefLib p n with Ok n' => Some (node_string RefLib n, node_string RefLib n') | _ => None end
  | None => None
  end.
Definition dict1 : predef := mkPredef [("a", "x")] [("l", ["p"; "q"])] [("l", ["p"; "q"])].
Definition text_sample : string :=
  "{'AND':[" ++ cond_text "senderLabel[k]" "EQ" "receiverLabel[k]" ++ "," ++ cond_text "domain" "IN" "[a,b]" ++ ",{'ALL':{'parentJsonpathAttribute':'jsonpath:$.a[:]','condition':"
  ++ cond_text "jsonpath:$RELATIVE.b" "NIN" "[c]" ++ "}}," ++ cond_text "jsonpath:$.c" "EX" "" ++ "]}".

Fixpoint conditions_of (n : node RefLib) : list (cond RefLib) :=
  match n with
  | NAnd ns | NOr ns => flat_map conditions_of ns
  | NNot n | NQuant _ _ n => conditions_of n
  | NCond c => [c]
  | _ => []
  end.
Lemma conditions_of_ok n c : has_condition RefLib n c -> In c (conditions_of n).
Proof. induction 1; cbn [conditions_of]; auto; [left; auto|apply in_flat_map; eauto|apply in_flat_map; eauto]. Qed.
Definition plain_tree (n : node RefLib) : bool :=
  forallb (fun c => negb (has_prefix (c_value c) "#") && negb (String.eqb (c_method c) "IS" && String.eqb (c_value c) "")) (conditions_of n).
Lemma plain_tree_ok n : plain_tree n = true -> no_references RefLib n /\ no_empty_is RefLib n.
Proof.
  unfold plain_tree. rewrite forallb_forall. intro H. split; intros c HC; specialize (H c (conditions_of_ok n c HC)); apply andb_true_iff in H; destruct H as [H1 H2].
  - apply negb_true_iff in H1. apply Leaf_proofs.starts_false. exact H1.
  - intros E E'. rewrite E, E' in H2. discriminate.
Qed.

Definition load_sample (s : string) : option (node RefLib) :=
  match json_parse RefLib (quotes s) with
  | Some v => match parse_conditions_tree RefLib in_order v 0 with (Ok n, _) => Some n | _ => None end
  | None => None
  end.
Lemma load_sample_ok s n : load_sample s = Some n -> from_text RefLib n.
Proof.
  unfold load_sample. destruct (json_parse RefLib (quotes s)) as [v|] eqn:E; [|discriminate].
  destruct (parse_conditions_tree RefLib in_order v 0) as [[n0| |] t'] eqn:EP; try discriminate. intro H. injection H as <-.
  exists in_order, v, 0, t'. split; [exact in_order_fair|]. split; [exact (Decode_proofs.parsed_go_value RefLib _ _ E)|exact EP].
Qed.

Example C51_case :
  (exists n n', from_text RefLib n /\ copyable RefLib n /\ prepare_node RefLib dict1 n = Ok n' /\ no_references RefLib n /\ no_empty_is RefLib n /\
     node_string RefLib n' = Some "(<domain-IN-[a,b]> && <jsonpath:$.c-EX-> && <senderLabel[k]-EQ-receiverLabel[k]> && [ALL<jsonpath:$.a[:];map[]>:<jsonpath:$RELATIVE.b-NIN-[c]>])") /\
  texts dict1 (two "OR" (cond_text "domain" "IN" "#l") (cond_text "domain" "EQ" "#a")) =
    Some (Some "(<domain-EQ-#a> || <domain-IN-#l>)", Some "(<domain-EQ-x> || <domain-IN-p,q>)").
Proof.
  split; [|vm_compute; reflexivity].
  assert (H : match load_sample text_sample with
              | Some n => copyableb n && plain_tree n && match prepare_node RefLib dict1 n with
                  | Ok n' => match node_string RefLib n' with Some s => String.eqb s "(<domain-IN-[a,b]> && <jsonpath:$.c-EX-> && <senderLabel[k]-EQ-receiverLabel[k]> && [ALL<jsonpath:$.a[:];map[]>:<jsonpath:$RELATIVE.b-NIN-[c]>])" | None => false end
                  | _ => false end
              | None => false end = true) by (vm_compute; reflexivity).
  destruct (load_sample text_sample) as [n|] eqn:E; [|discriminate]. apply andb_true_iff in H. destruct H as [H H3]. apply andb_true_iff in H. destruct H as [H1 H2].
  destruct (prepare_node RefLib dict1 n) as [n'| |] eqn:EP; try discriminate. exists n, n'. apply plain_tree_ok in H2. destruct H2 as [HR HI].
  destruct (node_string RefLib n') as [s|] eqn:ES; [|discriminate]. apply String.eqb_eq in H3. subst s.
  split; [exact (load_sample_ok _ _ E)|]. split; [exact (copyableb_ok n H1)|]. split; [exact EP|]. split; [exact HR|]. split; [exact HI|reflexivity].
Qed.

(** IS without a value is shown with the expression it was converted to, and copied so *)
Theorem C51_empty_is_refuted :
  texts empty_predef (cond_text "domain" "IS" "") = Some (Some "<domain-IS->", Some "<domain-IS-^$>") /\
  exists n n' c t', load_sample (cond_text "domain" "IS" "") = Some n /\ prepare_node RefLib empty_predef n = Ok n' /\
    copy_tree RefLib in_order (Some n') 0 = (Ok (Some (NCond c)), t') /\ c_method c = "IS" /\ c_value c = "^$".
Proof.
  split; [vm_compute; reflexivity|].
  assert (H : match load_sample (cond_text "domain" "IS" "") with
              | Some n => match prepare_node RefLib empty_predef n with
                  | Ok n' => match copy_tree RefLib in_order (Some n') 0 with (Ok (Some (NCond c)), _) => String.eqb (c_method c) "IS" && String.eqb (c_value c) "^$" | _ => false end
                  | _ => false end
              | None => false end = true) by (vm_compute; reflexivity).
  destruct (load_sample _) as [n|] eqn:E; [|discriminate]. destruct (prepare_node RefLib empty_predef n) as [n'| |] eqn:EP; try discriminate.
  destruct (copy_tree RefLib in_order (Some n') 0) as [[[[]|]| |] t'] eqn:EC; try discriminate.
  apply andb_true_iff in H. destruct H as [H1 H2]. apply String.eqb_eq in H1, H2. exists n, n', c, t'. auto.
Qed.
Print Assumptions C51_empty_is_refuted.
