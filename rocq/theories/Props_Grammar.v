(** C53: the loader reads exactly the trees of the grammar. *)
From Coq Require Import List String Ascii Bool Arith ZArith Permutation.
From Verif Require Import Base GoStr GoFloat Types Json StrUtils Validate Prepare Parse Marshal Lifecycle
  Spec_Tree Spec_Leaf Number_proofs Leaf_proofs Spec_Validate Spec_Load Load_proofs Load_order Spec_Names Spec_Grammar Grammar_proofs Grammar_tree Grammar_loads RefLib RefLib_facts Samples
  Leaf_samples Props_Load.
Import ListNotations.
Open Scope string_scope.

(** [reads] (Spec_Grammar): the trees a decoded value stands for *)
Theorem C53_sound : forall L ord v t n t', fair ord -> go_value v -> parse_conditions_tree L ord v t = (Ok n, t') -> reads L "" v n.
Proof. exact grammar_sound. Qed.
Print Assumptions C53_sound.

Theorem C53_complete : forall L ord v n t, fair ord -> go_value v -> single v -> reads L "" v n ->
  exists t', parse_conditions_tree L ord v t = (Ok n, t').
Proof. exact grammar_every_order. Qed.
Print Assumptions C53_complete.

(** without [single]: each of the trees is read in some order of visiting the maps *)
Theorem C53_some_order : forall L v n t, go_value v -> reads L "" v n ->
  exists ord t', fair ord /\ parse_conditions_tree L ord v t = (Ok n, t').
Proof. exact grammar_some_order. Qed.
Print Assumptions C53_some_order.

(** and a value of the grammar is read in every order, if not always as the same tree *)
Theorem C53_loads : forall L ord v n t, fair ord -> go_value v -> reads L "" v n -> exists n' t', parse_conditions_tree L ord v t = (Ok n', t').
Proof. exact grammar_loads. Qed.
Print Assumptions C53_loads.

(** under NOT, of a list of conditions only the last one counts: the others must be readable and are then dropped *)
Theorem C53_not_list : forall L l x n, reads L "" (GMapS [("NOT", GArr (l ++ [x])%list)]) n <-> (exists ns, Forall2 (reads L "") l ns) /\ exists k, reads L "" x k /\ n = NNot k.
Proof. exact not_last. Qed.
Print Assumptions C53_not_list.

(** an empty list under NOT is read, as the negation of nothing; preparing it is a call on nil *)
Theorem C53_not_empty : forall L p n, reads L "" (GMapS [("NOT", GArr [])]) n -> n = NNot NNil /\ prepare_node L p n = Panic.
Proof. intros L p n H. apply not_listed in H. destruct H as (ns & HF & ->). inversion HF. split; reflexivity. Qed.
Print Assumptions C53_not_empty.

(** a derivation in the grammar *)
Definition quoted_cond : cond RefLib := mkCond "domain" "EQ" "x" no_num no_lab no_obj no_jp no_ret no_orig.
Definition any_value (more : list (string * iface)) : iface :=
  GMapI [(GStr "ANY", GMapS ([("condition", cond_value "domain" "EQ" "x"); ("parentJsonpathAttribute", GStr "jsonpath:$.a")] ++ more)%list)].
Lemma quoted_reads kw : In kw [""; "condition"; "conditionsTree"] -> reads RefLib kw (cond_value "domain" "EQ" "x") (NCond quoted_cond).
Proof.
  intro HK. eapply rd_condition with (att := "domain") (method := "EQ") (value := "x") (ret := None); [left; reflexivity| | | |exact HK].
  - exists "attribute", "method", ["value"], []. repeat split; try (left; reflexivity); [constructor; left; reflexivity|apply Permutation_refl].
  - constructor.
    + exists "attribute". split; [left; reflexivity|simpl; tauto].
    + exists "method". split; [left; reflexivity|simpl; tauto].
    + right. exists (GStr "x"). split; [exists "value"; split; [left; reflexivity|simpl; tauto]|reflexivity].
    + left. split; [|reflexivity]. intros v (k & [->| ->] & H); simpl in H; intuition discriminate.
  - constructor; try reflexivity; [|right; split; [apply not_number_iff; vm_compute; reflexivity|reflexivity]|split; reflexivity|repeat split; reflexivity].
    exists KEq. split; [constructor; simpl; tauto|]. split; [constructor; simpl; tauto|].
    split; [simpl; intuition discriminate|]. split; [intros [H|H]; discriminate H|]. split; [simpl; intuition discriminate|]. intros [b H]. discriminate H.
Qed.
Example C53_case :
  exists n, reads RefLib "" (any_value []) n /\ attributes n = ["ANY"; "$.a"; "domain"] /\
    loads_as in_order (any_value []) = Some (attributes n) /\ loads_as reversed (any_value []) = Some (attributes n).
Proof.
  exists (NQuant QAny (mkAA "$.a" [] "jsonpath:$.a" no_ret []) (NCond quoted_cond)). split; [|repeat split; vm_compute; reflexivity].
  eapply rd_keyword with (k := "ANY"); [right; reflexivity|simpl; tauto|].
  pose proof (fun v es => rd_quant RefLib "ANY" v es QAny "jsonpath:$.a" no_ret (NCond quoted_cond)) as HQ.
  change (replace_all "jsonpath:$.a" "jsonpath:" "") with "$.a" in HQ.
  apply HQ with (es := [("condition", cond_value "domain" "EQ" "x"); ("parentJsonpathAttribute", GStr "jsonpath:$.a")]); clear HQ.
  - simpl; tauto.
  - left; reflexivity.
  - intros (a & m & vs & rs & HA & _ & _ & _ & HP). assert (HI : In a [ "condition"; "parentJsonpathAttribute"]) by (eapply Permutation_in; [apply Permutation_sym; exact HP|left; auto]).
    destruct HA as [->| ->]; simpl in HI; intuition discriminate.
  - left; reflexivity.
  - simpl; tauto.
  - right. left. exists "a". reflexivity.
  - constructor. simpl. intuition discriminate.
  - intros k w [E|[E|[]]] HK; injection E; intros <- <-; [exists (NCond quoted_cond); apply quoted_reads; simpl; tauto|destruct HK; congruence].
  - left. exists "condition", (cond_value "domain" "EQ" "x"). split; [simpl; tauto|]. split; [split; discriminate|apply quoted_reads; simpl; tauto].
Qed.
(** values that are read and values that are not *)
Example C53_neighbours :
  let rets := [("returnValueJsonpath", GMapS [("x", GStr "jsonpath:$RELATIVE.b")])] in
  let c := cond_value "domain" "EQ" "x" in
  loads_as in_order (any_value rets) = Some ["ANY"; "$.a"; "domain"] /\
  loads_as in_order (any_value (("AND", c) :: rets)) = None /\                                             (* four keys *)
  loads_as in_order (any_value [("returnValueJsonpath", GMapS [("x", GStr "jsonpath:$.b")])]) = None /\   (* a return value outside the element *)
  loads_as in_order (GMapS [("attribute", GStr "domain"); ("value", GStr "x")]) = None /\                  (* no method *)
  loads_as in_order (GMapS [("Attribute", GStr "domain"); ("METHOD", GStr "EQ")]) = None /\
  loads_as in_order (GMapS [("Attribute", GStr "domain"); ("Method", GStr "EQ")]) = Some ["domain"] /\
  loads_as in_order (GMapS [("AND", c); ("OR", c)]) = None.
Proof. cbv zeta. repeat split; vm_compute; reflexivity. Qed.
(** that NOT denies all, or any, of the conditions in its list is false: the list with one more condition in front is the same tree *)
Theorem C53_not_list_refuted : ~ (forall L v w n, reads L "" (GMapS [("NOT", GArr [v; w])]) n -> ~ reads L "" (GMapS [("NOT", GArr [w])]) n).
Proof.
  intro H. assert (HC : forall a, reads RefLib "" (GMapS [("NOT", GArr (a ++ [cond_value "domain" "EQ" "x"])%list)]) (NNot (NCond quoted_cond)) <-> exists ns, Forall2 (reads RefLib "") a ns).
  { intro a. rewrite C53_not_list. split; [tauto|]. intro HA. split; [exact HA|]. exists (NCond quoted_cond). split; [apply quoted_reads; simpl; tauto|reflexivity]. }
  apply (H RefLib (cond_value "domain" "EQ" "x") (cond_value "domain" "EQ" "x") (NNot (NCond quoted_cond))).
  - apply (HC [cond_value "domain" "EQ" "x"]). exists [NCond quoted_cond]. repeat constructor. apply quoted_reads. simpl. tauto.
  - apply (HC []). exists []. constructor.
Qed.
Print Assumptions C53_not_list_refuted.
Example C53_not_list_case : let c x := cond_value "domain" "EQ" x in
  loads_as in_order (GMapS [("NOT", GArr [c "x"; cond_value "payloadSize" "GT" "5"])]) = Some ["NOT"; "payloadSize"] /\
  loads_as in_order (GMapS [("NOT", GArr [c "x"; c "y"; c "z"])]) = loads_as in_order (GMapS [("NOT", GArr [c "z"])]) /\
  loads_as in_order (GMapS [("NOT", GArr [])]) = Some ["NOT"].
Proof. cbv zeta. repeat split; vm_compute; reflexivity. Qed.
