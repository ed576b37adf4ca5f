(** C77: of the dictionary only the entries that the rules refer to matter. *)
From Coq Require Import List String Ascii Bool Arith ZArith.
From Verif Require Import Base GoStr GoStr_facts GoFloat Types Json StrUtils Validate Prepare Parse Marshal Lifecycle Eval Check RefLib RefLib_facts Samples Spec_Tree Tree_truth
  Spec_Leaf Spec_Validate Spec_Lifecycle Spec_Load Spec_Copy Spec_Grammar Spec_Meaning Meaning_rules Props_Meaning Relevant_proofs Spec_Referred Referred_proofs.
Import ListNotations.
Open Scope string_scope.

Lemma accepted g d v : set_global g d = (v, Ok tt) -> validate_predef d = Ok v.
Proof. unfold set_global. destruct (validate_predef d); try discriminate. intro H. injection H as <-. reflexivity. Qed.
Lemma referred_alike {A} (Q : A -> string -> Prop) g g' d d' v v' : set_global g d = (v, Ok tt) -> set_global g' d' = (v', Ok tt) ->
  (forall a x, Q a x -> same_entry d d' x) -> forall a x, Q a x -> says_alike v v' x.
Proof. intros H H' HQ a x HX. eapply entry_says; eauto using accepted. Qed.

(** Check after SetGlobalPredefinedStringsAndLists: what is returned, and the state of the run *)
Theorem C77_check : forall L ord g g' d d' v v' rules e, fair ord ->
  set_global g d = (v, Ok tt) -> set_global g' d' = (v', Ok tt) ->
  Forall (fun r => underived L r /\ forall n, ru_tree r = Some n -> loaded_tree L n) rules ->
  (forall r x, In r rules -> refers L r x -> same_entry d d' x) ->
  check L ord v (map (load_rule L) rules) e = check L ord v' (map (load_rule L) rules) e.
Proof.
  intros L ord g g' d d' v v' rules e HF H H' HR HD. apply same_checks; auto. intros r x HI HX. eapply entry_says; eauto using accepted.
Qed.
Print Assumptions C77_check.

Theorem C77_coverage : forall L ord g g' d d' v v' rules ms t, fair ord ->
  set_global g d = (v, Ok tt) -> set_global g' d' = (v', Ok tt) ->
  Forall (fun r => underived L r /\ forall n, ru_tree r = Some n -> loaded_tree L n) rules ->
  (forall r x, In r rules -> refers L r x -> same_entry d d' x) ->
  coverage L ord v (map (load_rule L) rules) ms t = coverage L ord v' (map (load_rule L) rules) ms t.
Proof.
  intros L ord g g' d d' v v' rules ms t HF H H' HR HD. apply same_coverages; auto. intros r x HI HX. eapply entry_says; eauto using accepted.
Qed.
Print Assumptions C77_coverage.

(** (Rule).SetPredefinedStringsAndLists: outcome, whether the rule is ready, and the prepared rule *)
Theorem C77_set : forall L ord g g' d d' v v' r t, fair ord ->
  set_global g d = (v, Ok tt) -> set_global g' d' = (v', Ok tt) ->
  underived L r -> (forall n, ru_tree r = Some n -> loaded_tree L n) ->
  (forall x, refers L r x -> same_entry d d' x) ->
  let '(o, s, _) := set_predefined L ord v (load_rule L r) t in
  let '(o', s', _) := set_predefined L ord v' (load_rule L r) t in
  o = o' /\ rs_ready s = rs_ready s' /\ get_prepared L s = get_prepared L s'.
Proof.
  intros L ord g g' d d' v v' r t HF H H' HU HT HD. pose proof (same_setting L ord v v' r t HF (conj HU HT)) as HS.
  destruct (set_predefined L ord v (load_rule L r) t) as [[o s] t1], (set_predefined L ord v' (load_rule L r) t) as [[o' s'] t1'].
  destruct HS as (E1 & E2 & E3 & E4 & E5); [intros x HX; eapply entry_says; eauto using accepted|]. repeat (split; auto). unfold get_prepared. rewrite E4, E5. reflexivity.
Qed.
Print Assumptions C77_set.

(** loading rules with a dictionary (all of them or none) *)
Theorem C77_load : forall L ord g g' d d' v v' rules t, fair ord ->
  set_global g d = (v, Ok tt) -> set_global g' d' = (v', Ok tt) ->
  Forall (fun r => underived L r /\ forall n, ru_tree r = Some n -> loaded_tree L n) rules ->
  (forall r x, In r rules -> refers L r x -> same_entry d d' x) ->
  match fst (load_with_predefined L ord v rules t), fst (load_with_predefined L ord v' rules t) with
  | Ok ss, Ok ss' => Forall2 (fun s s' => rs_rule s = rs_rule s' /\ rs_ready s = rs_ready s' /\ rs_prepared s = rs_prepared s') ss ss'
  | Err, Err | Panic, Panic => True
  | _, _ => False
  end.
Proof.
  intros L ord g g' d d' v v' rules t HF H H' HR HD. apply (same_loading L ord v v' rules t); auto. intros r x HI HX. eapply entry_says; eauto using accepted.
Qed.
Print Assumptions C77_load.

(** TestConditions; the names of sender and receiver count too, since they can make the preparation fail *)
Theorem C77_test : forall L ord g g' d d' v v' r e, fair ord ->
  set_global g d = (v, Ok tt) -> set_global g' d' = (v', Ok tt) ->
  underived L r -> (forall n, ru_tree r = Some n -> loaded_tree L n) ->
  (forall x, refers L r x -> same_entry d d' x) ->
  option_map fst (fst (test_conditions L ord v (load_rule L r) e)) = option_map fst (fst (test_conditions L ord v' (load_rule L r) e)).
Proof.
  intros L ord g g' d d' v v' r e HF H H' HU HT HD. apply same_tested; auto; [split; auto|]. intros x HX. eapply entry_says; eauto using accepted.
Qed.
Print Assumptions C77_test.

(** rules without references: any two values of the global dictionary, however they came about *)
Theorem C77_plain : forall L ord v v' rules e, fair ord ->
  Forall (fun r => underived L r /\ forall n, ru_tree r = Some n -> loaded_tree L n) rules ->
  (forall r x, In r rules -> ~ refers L r x) ->
  check L ord v (map (load_rule L) rules) e = check L ord v' (map (load_rule L) rules) e.
Proof. intros L ord v v' rules e HF HR HD. apply same_checks; auto. intros r x HI HX. destruct (HD r x HI HX). Qed.
Print Assumptions C77_plain.

(** ** The rule of C54, which refers to the texts "app" and "back" *)
Definition c77_d : predef := mkPredef [("app", "ba.*"); ("y", "cache")] [("back", ["back.*"; "#y"])] [].
(** everything else is changed: another text "back" (hidden by the list), more lists, other texts *)
Definition c77_d' : predef := mkPredef [("other", "1"); ("back", "[oops"); ("y", "cache"); ("app", "ba.*")] [("more", ["#other"; "x"]); ("back", ["back.*"; "#y"]); ("y", [])] [].
(** one text changed: one that the rule names, or one that an item of its list names *)
Definition c77_app : predef := mkPredef [("app", "no.*"); ("y", "cache")] [("back", ["back.*"; "#y"])] [].
Definition c77_bad : predef := mkPredef [("app", "ba.*"); ("y", "cache")] [("back", ["back.*"; "#y"]); ("unused", ["#nowhere"])] [].
Fixpoint values (n : node RefLib) : list string :=
  match n with
  | NCond c => [c_value c]
  | NNot n | NQuant _ _ n => values n
  | NAnd ns | NOr ns => flat_map values ns
  | _ => []
  end.
Lemma values_refer n x : tree_refers RefLib x n -> In ("#" ++ x) (values n).
Proof.
  revert x. induction n as [ns IH|ns IH|n IH|q a n IH| | |c|] using Tree_proofs.node_ind'; intros x H; inversion H; subst; cbn [values]; auto.
  1,2: rewrite Forall_forall in IH; apply in_flat_map; eauto.
  left. auto.
Qed.
Lemma c77_refers x : refers RefLib c54_rule x -> x = "app" \/ x = "back".
Proof.
  intros [H|[H|(n & EN & HN)]].
  - discriminate.
  - right. injection H as <-. reflexivity.
  - left. change (c54_tree = Some n) in EN. apply values_refer in HN.
    assert (HB : match c54_tree with Some n => forallb (fun v => negb (has_prefix v "#") || String.eqb v "#app") (values n) | None => false end = true) by (vm_compute; reflexivity).
    rewrite EN in HB. rewrite forallb_forall in HB. specialize (HB _ HN). apply orb_true_iff in HB. destruct HB as [HB|HB].
    + change ("#" ++ x) with (String "#" x) in HB. assert (has_prefix (String "#" x) "#" = true) as E by (apply has_prefix_iff; exists x; reflexivity). rewrite E in HB. discriminate.
    + apply String.eqb_eq in HB. injection HB as <-. reflexivity.
Qed.
Definition c77_results (d : predef) (x : string) : option (list nat) :=
  option_map out_results (fst (check RefLib in_order (fst (set_global empty_predef d)) [load_rule RefLib c54_rule] (mkEst (c54_msg false x) 0))).
Example C77_case :
  (forall x, refers RefLib c54_rule x -> same_entry c77_d c77_d' x) /\
  refers RefLib c54_rule "back" /\ (exists x, refers RefLib c54_rule x /\ x <> "back" /\ ~ same_entry c77_d c77_app x) /\
  underived RefLib c54_rule /\ (forall n, ru_tree c54_rule = Some n -> loaded_tree RefLib n) /\
  snd (set_global empty_predef c77_d) = Ok tt /\ snd (set_global empty_predef c77_d') = Ok tt /\
  map (c77_results c77_d) ["5"; "3"] = [Some [2]; Some [0]] /\ map (c77_results c77_d') ["5"; "3"] = [Some [2]; Some [0]] /\
  map (c77_results c77_app) ["5"; "3"] = [Some [0]; Some [0]] /\
  (** an entry that nothing refers to can still have the dictionary refused *)
  (forall x, refers RefLib c54_rule x -> same_entry c77_d c77_bad x) /\ snd (set_global empty_predef c77_bad) = Err.
Proof.
  assert (HA : refers RefLib c54_rule "app").
  { right. right. assert (HB : match c54_tree with Some (NAnd [_; NCond c]) => String.eqb (c_value c) "#app" | _ => false end = true) by (vm_compute; reflexivity).
    change (exists n, c54_tree = Some n /\ tree_refers RefLib "app" n). destruct c54_tree as [n|]; [|discriminate]. exists n. split; [reflexivity|].
    destruct n as [[|n1 [|[| | | | | |c|] [|n3 ns]]]| | | | | | |]; try discriminate. apply String.eqb_eq in HB. apply (tr_and RefLib "app" (NCond c)); [right; left; reflexivity|]. constructor. exact HB. }
  assert (HS : forall d, assoc "app" (p_lists d) = None -> assoc "app" (p_strings d) = Some "ba.*" -> assoc "back" (p_lists d) = Some ["back.*"; "#y"] -> assoc "y" (p_strings d) = Some "cache" ->
    forall x, refers RefLib c54_rule x -> same_entry c77_d d x).
  { intros d E1 E2 E3 E4 x HX. apply c77_refers in HX. destruct HX as [->| ->]; (split; [cbn; congruence|]); cbn; [congruence|].
    intros y [HY|[HY|[]]]; [discriminate|injection HY as <-]. rewrite E4. reflexivity. }
  split; [apply HS; reflexivity|]. split; [right; left; reflexivity|]. split; [exists "app"; split; [exact HA|split; [discriminate|intros [_ H]; discriminate H]]|].
  split; [repeat split|]. split; [intros n HN; apply c54_loaded; exact HN|].
  do 5 (split; [vm_compute; reflexivity|]). split; [apply HS; reflexivity|vm_compute; reflexivity].
Qed.
