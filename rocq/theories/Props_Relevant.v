(** C76: what a check finds depends on nothing of a message but the fields the rules name. *)
From Coq Require Import List String Ascii Bool Arith ZArith.
From Verif Require Import Base GoStr GoFloat Types Json StrUtils Validate Prepare Parse Marshal Lifecycle Eval Check RefLib RefLib_facts Samples Spec_Tree Tree_truth
  Spec_Regex Spec_Glob Spec_Match Spec_Leaf Spec_Validate Spec_Load Spec_Copy Spec_Grammar Spec_Meaning Meaning_rules Props_Meaning Spec_Relevant Relevant_proofs.
Import ListNotations.
Open Scope string_scope.

(** rules as loaded, prepared when they are first checked; [None] is a panic *)
Theorem C76_check : forall L p ord rules m m' t, fair ord ->
  Forall (fun r => underived L r /\ forall n, ru_tree r = Some n -> loaded_tree L n) rules ->
  Forall (fun r => agree_on_rule L p r m m') rules ->
  fst (check L ord p (map (load_rule L) rules) (mkEst m t)) = fst (check L ord p (map (load_rule L) rules) (mkEst m' t)).
Proof.
  intros L p ord rules m m' t HF HR HA. apply (same_check L p ord p rules); auto. clear HR HA. induction rules; cbn; constructor; auto. left. auto.
Qed.
Print Assumptions C76_check.

(** rules prepared in advance, with any dictionary *)
Theorem C76_prepared : forall L p g ord rules ss m m' t, fair ord ->
  Forall (fun r => underived L r /\ forall n, ru_tree r = Some n -> loaded_tree L n) rules ->
  Forall2 (fun r s => exists ord' u u', fair ord' /\ set_predefined L ord' p (load_rule L r) u = (Ok tt, s, u')) rules ss ->
  Forall (fun r => agree_on_rule L p r m m') rules ->
  fst (check L ord g ss (mkEst m t)) = fst (check L ord g ss (mkEst m' t)).
Proof.
  intros L p g ord rules ss m m' t HF HR HS HA. apply (same_check L p ord g rules); auto. clear - HS. induction HS; constructor; auto. right. auto.
Qed.
Print Assumptions C76_prepared.

(** TestConditions: only what the conditions read *)
Theorem C76_test : forall L p ord r m m' t, fair ord -> underived L r -> (forall n, ru_tree r = Some n -> loaded_tree L n) ->
  (forall n, ru_tree r = Some n -> agree_on_tree L p n m m') ->
  fst (test_conditions L ord p (load_rule L r) (mkEst m t)) = fst (test_conditions L ord p (load_rule L r) (mkEst m' t)).
Proof. intros L p ord r m m' t HF HU HT HA. apply (same_test L p ord p r); auto; [split; auto|left; auto]. Qed.
Print Assumptions C76_test.

Theorem C76_coverage : forall L p ord rules ms ms' t, fair ord ->
  Forall (fun r => underived L r /\ forall n, ru_tree r = Some n -> loaded_tree L n) rules ->
  Forall2 (fun m m' => m_id m = m_id m' /\ Forall (fun r => agree_on_rule L p r m m') rules) ms ms' ->
  coverage L ord p (map (load_rule L) rules) ms t = coverage L ord p (map (load_rule L) rules) ms' t.
Proof.
  intros L p ord rules ms ms' t HF HR HM. apply (same_coverage L p ord p rules); auto. clear. induction rules; cbn; constructor; auto. left. auto.
Qed.
Print Assumptions C76_coverage.

(** the time of the request, its id and the texts of the labels are read by no rule, however it was made *)
Theorem C76_annotations : forall L g ord ss m m' t, agree_but_for_annotations m m' -> fst (check L ord g ss (mkEst m t)) = fst (check L ord g ss (mkEst m' t)).
Proof. intros. apply annotations_check. assumption. Qed.
Print Assumptions C76_annotations.

(** ** The rule of C54, which reads the senders label app and the document; everything else is changed *)
Definition c76_msg (app : string) (raw : bool) (x : string) : message :=
  let m := c54_msg raw x in
  mkMessage "9.9.9.9" "ns" "cl" "8.8.8.8" "443" (m_dest_namespace m) (m_dest_cluster m) "/other" "other.com" (m_method m) 7%Z "then" "wget" "TCP" "id9"
    (m_source_service m) (m_dest_service m) "labels" "labels" "kafka" "tls" (Some f_zero) (m_json m) (m_json_rel m) (m_raw m) (m_raw_rel m) "elsewhere"
    (f64_of_Z 1) (f64_of_Z 2) (f64_of_Z 3) [9; 9; 9; 9]%Z [8; 8; 8; 8]%Z [("app", app); ("tier", "x")] (m_dest_labels m).
Fixpoint attributes (n : node RefLib) : list string :=
  match n with
  | NCond c => [c_attr c]
  | NNot n | NQuant _ _ n => attributes n
  | NAnd ns | NOr ns => flat_map attributes ns
  | _ => []
  end.
Lemma attributes_agree p n m m' : same_documents m m' -> (forall att method value, In att (attributes n) -> agree_on_condition p att method value m m') ->
  agree_on_tree RefLib p n m m'.
Proof.
  intro HD. induction n as [ns IH|ns IH|n IH|q a n IH| | |c|] using Tree_proofs.node_ind'; cbn [agree_on_tree attributes]; intro H; auto.
  1,2: apply agree_all; rewrite Forall_forall in *; intros n HI; apply IH; auto; intros att method value HA; apply H; apply in_flat_map; eauto.
  apply H. left. reflexivity.
Qed.
Lemma c76_agrees raw x app : assoc "app" (m_source_labels (c54_msg raw x)) = Some app -> agree_on_rule RefLib c54_predef c54_rule (c54_msg raw x) (c76_msg app raw x).
Proof.
  intro EL. constructor; try reflexivity; try discriminate; try (intro; congruence).
  - intros H1 H2. exfalso. apply H2. reflexivity.
  - intros H1 H2. exfalso. apply H2. reflexivity.
  - intros n EN. change (c54_tree = Some n) in EN. apply attributes_agree; [repeat split; reflexivity|].
    assert (HB : match c54_tree with Some n => forallb (fun a => has_prefix a "jsonpath:" || String.eqb a "senderLabel[app]") (attributes n) | None => false end = true) by (vm_compute; reflexivity).
    rewrite EN in HB. rewrite forallb_forall in HB. intros att method value HI. specialize (HB att HI). apply orb_true_iff in HB. destruct HB as [HB|HB].
    + apply GoStr_facts.has_prefix_iff in HB. destruct HB as [rest ->]. constructor; try discriminate; try reflexivity; try (repeat split; reflexivity).
      * intros field HF. cbn in HF. repeat (destruct HF as [HF|HF]; [discriminate HF|]). destruct HF.
      * intros v field [r E]. discriminate.
    + apply String.eqb_eq in HB. subst att. constructor; try discriminate; try reflexivity; try (repeat split; reflexivity).
      * intros field HF. cbn in HF. repeat (destruct HF as [HF|HF]; [discriminate HF|]). destruct HF.
      * intros key EK. unfold sender_label in EK. cbn in EK. injection EK as EK. change "app]" with ("app" ++ "]") in EK.
        assert (key = "app") as -> by (destruct key as [|a [|b [|c [|d key]]]]; cbn in EK; try discriminate; [injection EK as <- <- <-; reflexivity|injection EK as _ _ _ _ EK; destruct key; discriminate]).
        cbn [c76_msg m_source_labels assoc]. exact EL.
      * intros v field [r E]. discriminate.
Qed.
Definition c76_results (app : string) (raw : bool) (x : string) : option (list nat) :=
  option_map out_results (fst (check RefLib in_order c54_predef [load_rule RefLib c54_rule] (mkEst (c76_msg app raw x) 0))).
Example C76_case :
  (forall raw x, In x ["5"; "3"] -> agree_on_rule RefLib c54_predef c54_rule (c54_msg raw x) (c76_msg "batch" raw x)) /\
  underived RefLib c54_rule /\ (forall n, ru_tree c54_rule = Some n -> loaded_tree RefLib n) /\ ru_tree c54_rule <> None /\
  map (c54_results false) ["5"; "3"] = [Some [2]; Some [0]] /\ map (c76_results "batch" false) ["5"; "3"] = [Some [2]; Some [0]] /\
  map (c76_results "batch" true) ["5"; "3"] = [Some [2]; Some [0]] /\ map (c76_results "other" false) ["5"; "3"] = [Some [0]; Some [0]].
Proof.
  split; [|split; [|split; [|split]]].
  - intros raw x HX. apply c76_agrees. destruct raw; reflexivity.
  - repeat split.
  - intros n HN. apply c54_loaded. exact HN.
  - change (c54_tree <> None). intro E. assert (HB : match c54_tree with Some _ => true | None => false end = true) by (vm_compute; reflexivity). rewrite E in HB. discriminate.
  - repeat split; vm_compute; reflexivity.
Qed.
