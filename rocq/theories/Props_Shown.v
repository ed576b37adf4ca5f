(** C81: the text of a value in a rule. *)
From Coq Require Import List String Ascii Bool Arith ZArith.
From Verif Require Import Base GoStr GoFloat Types Json StrUtils Validate Prepare Parse Eval Lifecycle
  Spec_Tree Spec_Regex Spec_Glob Spec_Leaf Spec_Load Spec_Grammar Spec_Format Spec_Integer Spec_Shown Shown_proofs
  RefLib RefLib_facts Samples Leaf_samples.
Import ListNotations.
Open Scope string_scope.

(** a condition has the text of the value written in the rule, or the empty text *)
Theorem C81_condition : forall L ord es t c t', fair ord -> go_value (GMapS es) -> condition_keys (map fst es) ->
  parse_conditions_tree L ord (GMapS es) t = (Ok (NCond c), t') ->
  (forall v, given value_key es v -> shown L v (c_value c)) /\ (lacks value_key es -> c_value c = "").
Proof. exact loaded_value. Qed.
Print Assumptions C81_condition.

Theorem C81_text : forall L v, go_value v -> forall s, go_fmt L v = s <-> shown L v s.
Proof. exact fmt_shown. Qed.
Print Assumptions C81_text.

(** a list of values is not a list for IN: [a, b] is the text "[a b]", which only a text with a blank is in *)
Definition c81_list : list (string * iface) := [("attribute", GStr "jsonpath:$.a"); ("method", GStr "IN"); ("value", GArr [GStr "a"; GStr "b"])].
Theorem C81_list_refuted :
  match parse_conditions_tree RefLib in_order (GMapS c81_list) 0 with (Ok (NCond c), _) => c_value c = "[a b]" | _ => False end /\
  leaf_case "jsonpath:$.a" "IN" "[a b]" KIn (set_raw msg0 (Some (GMapS [("a", GStr "a")]))) (Present "a") (Some false) /\
  leaf_case "jsonpath:$.a" "IN" "[a b]" KIn (set_raw msg0 (Some (GMapS [("a", GStr "a b")]))) (Present "a b") (Some true).
Proof.
  split; [vm_compute; reflexivity|]. split; apply leaf_ok; vm_compute; reflexivity.
Qed.
Print Assumptions C81_list_refuted.

Example C81_texts :
  map (go_fmt RefLib) [GNil; GBool true; GInt (-12); GStr "x y"; GArr [GInt 1; GArr []; GStr "a"]; GMapS [("b", GInt 2); ("a", GArr [GNil])]] =
    ["<nil>"; "true"; "-12"; "x y"; "[1 [] a]"; "map[a:[<nil>] b:2]"] /\
  shown RefLib (GMapS [("b", GInt 2); ("a", GArr [GNil])]) "map[a:[<nil>] b:2]" /\
  ~ shown RefLib (GMapS [("b", GInt 2); ("a", GArr [GNil])]) "map[b:2 a:[<nil>]]".
Proof.
  assert (HG : go_value (GMapS [("b", GInt 2); ("a", GArr [GNil])])).
  { constructor; [repeat constructor; simpl; intuition discriminate|]. repeat constructor. }
  split; [vm_compute; reflexivity|]. rewrite <- !(fmt_shown RefLib _ HG). split; [vm_compute; reflexivity|]. vm_compute. discriminate.
Qed.
Example C81_condition_case : fair in_order /\ go_value (GMapS c81_list) /\ condition_keys (map fst c81_list) /\
  given value_key c81_list (GArr [GStr "a"; GStr "b"]) /\ shown RefLib (GArr [GStr "a"; GStr "b"]) "[a b]".
Proof.
  split; [exact in_order_fair|]. split.
  { constructor; [repeat constructor; simpl; intuition discriminate|]. repeat constructor. }
  split.
  { exists "attribute", "method", ["value"], []. split; [left; reflexivity|]. split; [left; reflexivity|]. split; [constructor; left; reflexivity|]. split; [auto|apply Permutation.Permutation_refl]. }
  split; [exists "value"; split; [left; reflexivity|simpl; auto]|].
  apply fmt_shown; [repeat constructor|reflexivity].
Qed.
