(** C01-C06: the decision over a list of rules. *)
From Coq Require Import List String Ascii Bool Arith ZArith Sorted Permutation.
From Verif Require Import Base GoStr GoFloat Types Json StrUtils Validate Prepare Parse Marshal Eval Lifecycle Check
  Spec_Tree Tree_truth Tree_laws Spec_Decision Check_proofs Spec_Match Match_proofs RefLib RefLib_facts Samples.
Import ListNotations.
Open Scope string_scope.

(** Four rules that apply to the message, the second and fourth of them blocking, and a fifth that does not. *)
Definition four_rules : list (rstate RefLib) :=
  [any_rule "allow"; any_rule "block"; any_rule "alert"; any_rule "BLOCK";
   sample "back*" "workload" "*" "workload" "*" "*" "*" "*" None "block"].
Definition four_outcome : outcome := the (mkOutcome 9 "" 9 [] [] "" []) (fst (check RefLib in_order empty_predef four_rules (mkEst msg0 0))).

(** ** C01 *)
Theorem C01_decision : forall L ord g rules m t o e,
  check L ord g rules (mkEst m t) = (Some o, e) ->
  List.length (out_results o) = List.length rules /\
  Forall2 (fun s r => exists x t' s' e1, check_one_rule L ord g s (mkEst m t') = (Some ((r, x), s'), e1))
    rules (out_results o) /\
  decision_is_strictest (out_results o) (out_decision o) /\
  decision_name (out_decision o) (out_string o).
Proof. exact check_decision. Qed.
Print Assumptions C01_decision.

(** the extra data reported for a rule is that rule's own *)
Theorem C01_extra : forall L ord g rules m t o e,
  check L ord g rules (mkEst m t) = (Some o, e) ->
  Forall2 (fun s rx => exists t' s' e1, check_one_rule L ord g s (mkEst m t') = (Some (rx, s'), e1))
    rules (combine (out_results o) (out_extra o)).
Proof. exact check_extra. Qed.
Print Assumptions C01_extra.

(** Check gives no decision (panics) only if the rule after some completed prefix panics *)
Theorem C01_no_decision : forall L ord g rules e,
  fst (check L ord g rules e) = None <->
  exists before s after xs e1 e2, rules = (before ++ s :: after)%list /\
    run_rules L ord g before e = (Some xs, e1) /\ check_one_rule L ord g s e1 = (None, e2).
Proof. exact check_panics_iff. Qed.
Print Assumptions C01_no_decision.

Example C01_case : fst (check RefLib in_order empty_predef four_rules (mkEst msg0 0)) = Some four_outcome /\
  out_decision four_outcome = 3 /\ out_string four_outcome = "block" /\ out_results four_outcome = [1; 3; 2; 3; 0].
Proof. vm_compute. repeat split. Qed.

(** ** C02 *)
Theorem C02_relevant : forall L ord g rules m t o e,
  check L ord g rules (mkEst m t) = (Some o, e) ->
  (out_decision o = 0 -> out_index o = (-1)%Z /\ out_desc o = "") /\
  (out_decision o <> 0 -> exists i s, out_index o = Z.of_nat i /\ nth_error rules i = Some s /\
     first_with (out_results o) (out_decision o) i /\ description_of L s (out_desc o)).
Proof. exact check_relevant. Qed.
Print Assumptions C02_relevant.

Example C02_case : out_index four_outcome = 1%Z /\ out_desc four_outcome = "about block".
Proof. vm_compute. repeat split. Qed.
Example C02_default_case :
  exists o e, check RefLib in_order empty_predef [any_rule "deny"] (mkEst msg0 0) = (Some o, e) /\
    out_decision o = 0 /\ out_index o = (-1)%Z.
Proof. eexists; eexists; split; [vm_compute; reflexivity|]. split; reflexivity. Qed.

(** ** C03 *)
Theorem C03_applied : forall L ord g rules m t o e,
  check L ord g rules (mkEst m t) = (Some o, e) -> enumerates_applied (out_results o) (out_applied o).
Proof. exact check_applied. Qed.
Print Assumptions C03_applied.

Example C03_case : out_applied four_outcome = [0; 1; 2; 3].
Proof. vm_compute. reflexivity. Qed.

(** ** C04 *)
(** a rule whose conditions never read "the" key of a several-key object has one possible result *)
Theorem C04_determined : forall L g m s r, rs_ready s = true -> rs_prepared s = Some r ->
  (forall n, ru_tree r = Some n -> unambiguous L (contexts L) n m) -> determined L g m s.
Proof. exact prepared_determined. Qed.
Print Assumptions C04_determined.

Theorem C04_same_rules : forall L ord ord' g rules rules' m t t' o o' e e',
  fair ord -> fair ord' -> (forall s, In s rules -> determined L g m s) ->
  (forall s, In s rules <-> In s rules') ->
  check L ord g rules (mkEst m t) = (Some o, e) -> check L ord' g rules' (mkEst m t') = (Some o', e') ->
  out_decision o = out_decision o' /\ out_string o = out_string o'.
Proof. exact check_same_rules. Qed.
Print Assumptions C04_same_rules.

Theorem C04_append : forall L ord1 ord2 ord3 g rules1 rules2 m t1 t2 t3 o1 o2 o3 e1 e2 e3,
  fair ord1 -> fair ord2 -> fair ord3 ->
  (forall s, In s (rules1 ++ rules2)%list -> determined L g m s) ->
  check L ord1 g rules1 (mkEst m t1) = (Some o1, e1) ->
  check L ord2 g rules2 (mkEst m t2) = (Some o2, e2) ->
  check L ord3 g (rules1 ++ rules2)%list (mkEst m t3) = (Some o3, e3) ->
  out_decision o3 = Nat.max (out_decision o1) (out_decision o2) /\
  out_results o3 = (out_results o1 ++ out_results o2)%list.
Proof. exact check_append. Qed.
Print Assumptions C04_append.

Theorem C04_monotone : forall L ord ord' g rules rules' m t t' o o' e e',
  fair ord -> fair ord' -> (forall s, In s rules -> determined L g m s) -> incl rules rules' ->
  check L ord g rules (mkEst m t) = (Some o, e) -> check L ord' g rules' (mkEst m t') = (Some o', e') ->
  out_decision o <= out_decision o'.
Proof. exact check_monotone. Qed.
Print Assumptions C04_monotone.

(** a prepared rule with a conditions tree over an array *)
Definition ready_rule (t d : string) : rstate RefLib :=
  snd (fst (set_predefined RefLib in_order empty_predef (sample "fro*" "workload" "*" "workload" "*" "*" "*" "*" (load_tree t) d) 0)).
Definition array_tree : string :=
  "{'ANY':{'parentJsonpathAttribute':'jsonpath:$.x[:]','condition':{'attribute':'jsonpath:$RELATIVE.a','method':'GT','value':'4'}}}".
Definition array_msg : message := parsed_msg "{'x':[{'a':1},{'a':5}]}".
Definition array_rule : rstate RefLib := ready_rule array_tree "alert".

Example C04_case : determined RefLib empty_predef array_msg array_rule /\
  fst (check RefLib in_order empty_predef [array_rule; any_rule "allow"] (mkEst array_msg 0)) <> None /\
  option_map out_decision (fst (check RefLib in_order empty_predef [array_rule; any_rule "allow"] (mkEst array_msg 0))) = Some 2.
Proof.
  split; [|split; [vm_compute; discriminate|vm_compute; reflexivity]].
  assert (HB : match rs_prepared array_rule with
               | Some r => match ru_tree r with Some n => reads_no_entry RefLib n | None => false end
               | None => false end = true) by (vm_compute; reflexivity).
  destruct (rs_prepared array_rule) as [r|] eqn:E; [|discriminate].
  apply (C04_determined _ _ _ _ r); [vm_compute; reflexivity|exact E|]. intros n H.
  apply reads_no_entry_clear. rewrite H in HB. exact HB.
Qed.

(** ** C05 *)
Theorem C05_rule_result : forall L ord r m t d x e, ready L r ->
  check_prepared L ord r (mkEst m t) = (Some (d, x), e) ->
  (d = 0 -> x = []) /\
  (d <> 0 <-> sender_matches L r m /\ receiver_matches L r m /\ operation_matches L r m /\ resource_matches L r m /\
     (exists y, conditions_hold L ord r m t y) /\ exists d', decision_word (ru_decision r) d') /\
  (d <> 0 -> decision_word (ru_decision r) d /\ conditions_hold L ord r m t x).
Proof. exact rule_result. Qed.
Print Assumptions C05_rule_result.

(** a rule panics only inside its conditions tree *)
Theorem C05_panic : forall L ord r m t e, ready L r ->
  check_prepared L ord r (mkEst m t) = (None, e) ->
  exists n, ru_tree r = Some n /\ fst (eval L ord n (mkEst m t)) = None.
Proof. exact rule_panic. Qed.
Print Assumptions C05_panic.

(** every successfully prepared rule that was not converted in place before is of the form assumed above *)
Theorem C05_ready : forall L, CidrSpec L -> forall ord p s t u s' t', ru_converted (rs_rule s) = false ->
  set_predefined L ord p s t = (Ok u, s', t') ->
  exists r, rs_prepared s' = Some r /\ rs_ready s' = true /\ ready L r.
Proof. exact set_predefined_ready. Qed.
Print Assumptions C05_ready.

Example C05_case : exists r, rs_prepared array_rule = Some r /\ ready RefLib r /\
  fst (check_prepared RefLib in_order r (mkEst array_msg 0)) = Some (2, []) /\
  fst (check_prepared RefLib in_order r (mkEst (parsed_msg "{'x':[{'a':1}]}") 0)) = Some (0, []).
Proof.
  destruct (set_predefined RefLib in_order empty_predef
    (sample "fro*" "workload" "*" "workload" "*" "*" "*" "*" (load_tree array_tree) "alert") 0) as [[u s] t] eqn:E.
  assert (u = Ok tt /\ s = array_rule) as [-> ->].
  { unfold array_rule, ready_rule. rewrite E. split; [|reflexivity].
    change u with (fst (fst (u, s, t))). rewrite <- E. vm_compute. reflexivity. }
  destruct (C05_ready RefLib RefLib_cidr in_order empty_predef (sample "fro*" "workload" "*" "workload" "*" "*" "*" "*" (load_tree array_tree) "alert") 0 _ _ _ eq_refl E) as (r & HR & _ & HRe).
  exists r. split; [exact HR|]. split; [exact HRe|].
  assert (HB : match rs_prepared array_rule with
               | Some r => (fst (check_prepared RefLib in_order r (mkEst array_msg 0)), fst (check_prepared RefLib in_order r (mkEst (parsed_msg "{'x':[{'a':1}]}") 0)))
               | None => (None, None) end = (Some (2, []), Some (0, []))) by (vm_compute; reflexivity).
  rewrite HR in HB. injection HB; auto.
Qed.

(** ** C06 *)
Theorem C06_check_message : forall L ord g rules m t o e,
  check L ord g rules (mkEst m t) = (Some o, e) -> e_msg e = m.
Proof. exact check_message. Qed.
Print Assumptions C06_check_message.

Theorem C06_rule_message : forall L ord g s e x e',
  check_one_rule L ord g s e = (Some x, e') -> e_msg e' = e_msg e.
Proof. exact check_one_rule_msg. Qed.
Print Assumptions C06_rule_message.

Theorem C06_tree_message : forall L ord n s b x s', fair ord ->
  eval L ord n s = (Some (b, x), s') -> e_msg s' = e_msg s.
Proof. intros L ord n s b x s' HF H. exact (proj1 (eval_outcome L ord n s b x s' HF H)). Qed.
Print Assumptions C06_tree_message.

Theorem C06_check_twice : forall L ord ord' g rules m t t' o o' e e',
  fair ord -> fair ord' -> (forall s, In s rules -> determined L g m s) ->
  check L ord g rules (mkEst m t) = (Some o, e) -> check L ord' g rules (mkEst m t') = (Some o', e') ->
  out_decision o = out_decision o' /\ out_string o = out_string o' /\ out_index o = out_index o' /\
  out_results o = out_results o' /\ out_applied o = out_applied o' /\ out_desc o = out_desc o'.
Proof. exact check_repeat. Qed.
Print Assumptions C06_check_twice.

(** a message inside an outer relative context: the context is set during the check and restored *)
Example C06_case : exists o e,
  check RefLib in_order empty_predef [array_rule] (mkEst (set_raw_rel array_msg (Some (GStr "outer"))) 0) = (Some o, e) /\
  out_decision o = 2 /\ m_raw_rel (e_msg e) = Some (GStr "outer").
Proof. eexists; eexists; split; [vm_compute; reflexivity|]. split; reflexivity. Qed.
