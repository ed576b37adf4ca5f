(** Preparation of trees and rules: it never panics on complete trees, and replaces exactly the references. *)
From Coq Require Import List String Ascii Bool Arith ZArith Lia Permutation.
From Verif Require Import Base GoStr GoStr_facts GoFloat Types StrUtils Validate Prepare Spec_Tree Spec_Glob Glob_proofs Match_proofs
  Tree_proofs Spec_Leaf Number_proofs Leaf_proofs Leaf_laws Attr_proofs Spec_Validate Validate_proofs.
Import ListNotations.
Open Scope string_scope.
Local Arguments String.prefix : simpl never.

Section WithLib.
Variable L : Lib.

(** ** One condition *)
Lemma replace_no_panic p c : replace_in_condition L p c <> Panic.
Proof.
  unfold replace_in_condition, replaceable_list, replaceable_string.
  destruct (has_prefix (c_value c) "#"); [|discriminate].
  destruct (assoc _ (p_resolved p)); [|destruct (assoc _ (p_strings p)); discriminate].
  destruct (is_any _ _); [|discriminate]. destruct (is_some _); discriminate.
Qed.

Lemma validated_form c c' : validate_condition L c = Ok c' ->
  exists k, method_is (c_method c') k /\ attribute_for k (c_attr c') /\ label_value (c_value c').
Proof.
  intro H. destruct (accepted_unchanged L c c' H) as (E1 & E2 & E3 & _). rewrite E1, E2, E3.
  unfold validate_condition in H. apply rbind_ok in H. destruct H as ([] & HA & H). apply rbind_ok in H. destruct H as ([] & HM & _).
  assert (ES : contains_string supported_methods (c_method c) = true).
  { unfold validate_method in HM. destruct (contains_string _ _); [auto|discriminate]. }
  apply supported_kind in ES. destruct ES as [k HK]. exists k. split; auto. apply (attribute_iff _ _ _ _ HK) in HA. auto.
Qed.

Lemma attribute_sender_label k att : attribute_for k att -> starts "senderLabel[" att -> exists key, att = sender_label key /\ label_key_ok key.
Proof.
  intros H [r ->]. inversion H; try discriminate.
  - simpl in H0. repeat (destruct H0 as [H0|H0]; [discriminate|]). destruct H0.
  - exists key. split; auto.
Qed.
Lemma attribute_receiver_label k att : attribute_for k att -> starts "receiverLabel[" att -> exists key, att = receiver_label key /\ label_key_ok key.
Proof.
  intros H [r ->]. inversion H; try discriminate.
  - simpl in H0. repeat (destruct H0 as [H0|H0]; [discriminate|]). destruct H0.
  - exists key. split; auto.
Qed.
Lemma attribute_jsonpath k path : attribute_for k ("jsonpath:" ++ path) -> path_start path.
Proof.
  intro H. inversion H; try discriminate; auto.
  simpl in H0. repeat (destruct H0 as [H0|H0]; [discriminate|]). destruct H0.
Qed.

Lemma sender_key_ok key : label_key_ok key -> label_key (sender_label key) = Ok key.
Proof. intro H. apply (label_key_of "senderLabel"); auto. simpl; repeat split; discriminate. Qed.
Lemma receiver_key_ok key : label_key_ok key -> label_key (receiver_label key) = Ok key.
Proof. intro H. apply (label_key_of "receiverLabel"); auto. simpl; repeat split; discriminate. Qed.

Lemma labels_no_panic c k : attribute_for k (c_attr c) -> label_value (c_value c) -> handle_labels L c <> Panic.
Proof.
  intros HA HV. unfold handle_labels.
  assert (EV : has_prefix (c_value c) "receiverLabel[" = true -> exists key, label_key (c_value c) = Ok key).
  { intro H. apply starts_iff in H. destruct (HV H) as (key & -> & HK). exists key. apply receiver_key_ok. auto. }
  assert (EV' : forall (att : string) (lab : labpart), (do (val, lab) <-
    (if has_prefix (c_value c) "receiverLabel[" then
       do k <- label_key (c_value c);
       Ok ("receiverLabel", mkLab (l_is_sender lab) (l_sender_key lab)
                              (l_is_receiver lab) (l_receiver_key lab) true k)
     else Ok (c_value c, lab));
     Ok (mkCond att (c_method c) val (c_num c) lab (c_obj c) (c_jp c) (c_ret c) (c_orig c))) <> Panic).
  { intros att lab. destruct (has_prefix (c_value c) "receiverLabel["); [|discriminate].
    destruct (EV eq_refl) as [key ->]. discriminate. }
  destruct (has_prefix (c_attr c) "senderLabel[") eqn:E1.
  - apply starts_iff in E1. destruct (attribute_sender_label _ _ HA E1) as (key & E & HK). rewrite E, (sender_key_ok _ HK).
    cbn [rbind]. replace (has_prefix "senderLabel" "receiverLabel[") with false by reflexivity. apply EV'.
  - cbn [rbind]. destruct (has_prefix (c_attr c) "receiverLabel[") eqn:E2.
    + apply starts_iff in E2. destruct (attribute_receiver_label _ _ HA E2) as (key & E & HK). rewrite E, (receiver_key_ok _ HK).
      cbn [rbind]. apply EV'.
    + apply EV'.
Qed.

Lemma objects_no_panic c : handle_objects L c <> Panic.
Proof.
  unfold handle_objects.
  assert (EV : forall (att : string) (obj : objpart), (do (val, obj) <-
    (if has_prefix (c_value c) "$receiver." then
       do k <- after_dot (c_value c);
       Ok ("$receiver", mkObj (o_is_sender obj) (o_is_receiver obj) true
                          (o_sender_attr obj) (o_receiver_attr obj) k)
     else Ok (c_value c, obj));
    Ok (mkCond att (c_method c) val (c_num c) (c_lab c) obj (c_jp c) (c_ret c) (c_orig c))) <> Panic).
  { intros att obj. destruct (has_prefix (c_value c) "$receiver.") eqn:E; [|discriminate].
    apply has_prefix_iff in E. destruct E as [x E]. change (c_value c = "$receiver." ++ x) in E. rewrite E, after_dot_receiver. discriminate. }
  destruct (has_prefix (c_attr c) "$sender.") eqn:E1.
  - apply has_prefix_iff in E1. destruct E1 as [x E]. change (c_attr c = "$sender." ++ x) in E. rewrite E, after_dot_sender. cbn [rbind].
    replace (has_prefix "$sender" "$receiver.") with false by reflexivity. apply EV.
  - cbn [rbind]. destruct (has_prefix (c_attr c) "$receiver.") eqn:E2.
    + apply has_prefix_iff in E2. destruct E2 as [x E]. change (c_attr c = "$receiver." ++ x) in E. rewrite E, after_dot_receiver. cbn [rbind]. apply EV.
    + apply EV.
Qed.

Lemma jsonpath_net path : slice_res ("jsonpath:" ++ path) (index ("jsonpath:" ++ path) ":" + 1) (Z.of_nat (String.length ("jsonpath:" ++ path))) = Ok path.
Proof.
  unfold index. change ("jsonpath:" ++ path) with ("jsonpath" ++ String ":" path).
  rewrite (index_before 0 ":" "jsonpath" path) by (simpl; repeat split; discriminate).
  unfold slice_res, slice. rewrite length_append. change (String.length "jsonpath") with 8%nat. cbn [String.length].
  match goal with |- context [if ?b then _ else _] => replace b with true by (symmetry; rewrite !andb_true_iff, !Z.leb_le; lia) end.
  change (Z.to_nat (0 + Z.of_nat 8 + 1)) with 9%nat. simpl drop.
  replace (Z.to_nat _) with (String.length path) by lia. f_equal. apply take_all.
Qed.

Lemma jsonpath_no_panic c : (forall path, c_attr c = "jsonpath:" ++ path -> path_start path) -> handle_jsonpath L c <> Panic.
Proof.
  intro HP. unfold handle_jsonpath. destruct (has_prefix (c_attr c) "jsonpath:") eqn:E; [|discriminate].
  apply has_prefix_iff in E. destruct E as [path E]. change (c_attr c = "jsonpath:" ++ path) in E. rewrite E, jsonpath_net. cbn [rbind].
  specialize (HP _ E).
  assert (HN : path <> "").
  { intros ->. destruct HP as [[r H]|[[r H]|[[r H]|[H|[[[r H] _]|[r H]]]]]]; discriminate. }
  destruct (slice_has_prefix ["$RELATIVE."; "$KEY"; "$VALUE"] path).
  - assert (HF : first_char (replace_first path "$RELATIVE." "$.") <> None).
    { destruct path as [|x path]; [congruence|]. cbn [replace_first]. destruct (String.prefix _ _); discriminate. }
    destruct (first_char _); [discriminate|congruence].
  - destruct (String.eqb path "$RELATIVE"); [discriminate|].
    destruct path; [congruence|]. discriminate.
Qed.

Lemma labels_attr c c' : handle_labels L c = Ok c' ->
  c_attr c' = c_attr c \/ c_attr c' = "senderLabel" \/ c_attr c' = "receiverLabel".
Proof. intro H. apply handle_labels_attr in H. destruct H as [H _]. simpl in H. intuition auto. Qed.
Lemma objects_attr c c' : handle_objects L c = Ok c' ->
  c_attr c' = c_attr c \/ c_attr c' = "$sender" \/ c_attr c' = "$receiver".
Proof. intro H. apply handle_objects_attr in H. destruct H as [H _]. simpl in H. intuition auto. Qed.

Lemma convert_no_panic c k : method_is (c_method c) k -> attribute_for k (c_attr c) -> label_value (c_value c) -> convert_condition L c <> Panic.
Proof.
  intros HM HA HV. unfold convert_condition.
  set (mv := if is_any (c_method c) ["IN"; "NIN"; "IS"]
          then (if is_any (c_method c) ["IN"; "IS"] then "RE" else "NRE", list_to_alternatives (c_value c))
          else (c_method c, c_value c)).
  assert (HV' : label_value (snd mv)).
  { unfold mv. destruct (is_any _ _); [|exact HV]. simpl. intros [r H]. discriminate. }
  destruct mv as [method value]. simpl in HV'. cbv zeta.
  destruct (negb _ && _); [discriminate|].
  match goal with |- (do c2 <- handle_labels L ?c1; _) <> _ => assert (A1 : c_attr c1 = c_attr c) by reflexivity;
    pose proof (labels_no_panic c1 k) as N1; cbn [c_attr c_value] in N1; specialize (N1 HA HV') end.
  destruct (handle_labels L _) as [c2| |] eqn:E2; [|discriminate|congruence]. cbn [rbind].
  pose proof (objects_no_panic c2) as N2. destruct (handle_objects L c2) as [c3| |] eqn:E3; [|discriminate|congruence]. cbn [rbind].
  assert (N3 : handle_jsonpath L c3 <> Panic).
  { apply jsonpath_no_panic. intros path E. apply labels_attr in E2. apply objects_attr in E3. rewrite A1 in E2.
    assert (E4 : c_attr c = "jsonpath:" ++ path).
    { destruct E3 as [E3|[E3|E3]]; [|rewrite E3 in E; discriminate..]. rewrite E3 in E.
      destruct E2 as [E2|[E2|E2]]; [congruence|rewrite E2 in E; discriminate..]. }
    rewrite E4 in HA. eapply attribute_jsonpath; eauto. }
  destruct (handle_jsonpath L c3) as [c4| |]; [|discriminate|congruence]. cbn [rbind].
  destruct (_ || _); [discriminate|]. destruct (negb _); discriminate.
Qed.

Lemma query_no_panic q : prepare_query L q <> Panic.
Proof. unfold prepare_query. cbv zeta. destruct (_ || _); [discriminate|]. destruct (jp_prepare L _); discriminate. Qed.

Theorem condition_no_panic p c : prepare_condition L p c <> Panic.
Proof.
  unfold prepare_condition. pose proof (replace_no_panic p c).
  destruct (replace_in_condition L p c) as [c1| |]; [|discriminate|congruence]. cbn [rbind].
  pose proof (validate_total L c1). destruct (validate_condition L c1) as [c2| |] eqn:EV; [|discriminate|congruence]. cbn [rbind].
  destruct (validated_form _ _ EV) as (k & H1 & H2 & H3). pose proof (convert_no_panic _ _ H1 H2 H3).
  destruct (convert_condition L c2) as [c3| |]; [|discriminate|congruence]. cbn [rbind].
  destruct (j_is _); [|discriminate]. pose proof (query_no_panic (j_query (c_jp c3))).
  destruct (prepare_query L _); [discriminate|discriminate|congruence].
Qed.

(** ** Trees *)
Lemma rseq_panic {A} (l : list (res A)) : rseq l = Panic -> In Panic l.
Proof.
  induction l as [|r l IH]; simpl; [discriminate|]. destruct r; simpl; [|discriminate|auto].
  destruct (rseq l); simpl; intro H; try discriminate. right. auto.
Qed.
Lemma rmapM_panic {A B} (f : A -> res B) l : rmapM f l = Panic -> exists a, In a l /\ f a = Panic.
Proof.
  induction l as [|a l IH]; simpl; [discriminate|]. destruct (f a) eqn:E; simpl; [|discriminate|eauto].
  destruct (rmapM f l); simpl; intro H; try discriminate. destruct (IH eq_refl) as (x & H1 & H2). eauto.
Qed.
Lemma aa_no_panic a : prepare_aa L a <> Panic.
Proof.
  unfold prepare_aa. cbv zeta. destruct (rmapM (prepare_query L) (split_char "," (a_parent a))) eqn:E; simpl; try discriminate.
  apply rmapM_panic in E. destruct E as (x & _ & E). exfalso. eapply query_no_panic; eauto.
Qed.

Theorem tree_panic p n : prepare_node L p n = Panic -> missing_inner L n.
Proof.
  induction n using node_ind'; cbn [prepare_node]; intro E; try discriminate.
  - destruct (rseq _) eqn:ER; simpl in E; try discriminate. apply rseq_panic in ER. apply in_map_iff in ER. destruct ER as (x & E' & HI).
    rewrite Forall_forall in H. eapply mi_and; eauto.
  - destruct (rseq _) eqn:ER; simpl in E; try discriminate. apply rseq_panic in ER. apply in_map_iff in ER. destruct ER as (x & E' & HI).
    rewrite Forall_forall in H. eapply mi_or; eauto.
  - destruct (prepare_node L p n); simpl in E; try discriminate. apply mi_not. auto.
  - destruct (prepare_node L p n); simpl in E; try discriminate; [|apply mi_quant; auto].
    pose proof (aa_no_panic a). destruct (prepare_aa L a); simpl in E; try discriminate. congruence.
  - destruct (prepare_condition L p c) eqn:EC; simpl in E; try discriminate. exfalso. eapply condition_no_panic; eauto.
  - apply mi_nil.
Qed.

Lemma rseq_ok {A} (l : list (res A)) xs : rseq l = Ok xs <-> l = map Ok xs.
Proof.
  revert xs. induction l as [|r l IH]; simpl; intro xs.
  - split; [intro H; injection H; intros <-; auto|]. destruct xs; [auto|discriminate].
  - split.
    + intro H. apply rbind_ok in H. destruct H as (a & -> & H). apply rbind_ok in H. destruct H as (al & H1 & H). injection H; intros <-.
      apply IH in H1. rewrite H1. auto.
    + destruct xs as [|a xs]; [discriminate|]. simpl. intro H. injection H; intros E ->. apply IH in E. simpl. rewrite E. auto.
Qed.
Lemma rseq_map_ok {A B} (f : A -> res B) l xs : rseq (map f l) = Ok xs <-> Forall2 (fun a b => f a = Ok b) l xs.
Proof.
  rewrite rseq_ok. revert xs. induction l as [|a l IH]; simpl; intro xs.
  - split; [destruct xs; [auto|discriminate]|]. intro H. inversion H; auto.
  - split.
    + destruct xs as [|x xs]; [discriminate|]. simpl. intro H. injection H; intros. constructor; auto. apply IH. auto.
    + intro H. inversion H; subst. simpl. f_equal; auto. apply IH. auto.
Qed.

Theorem missing_not_prepared p n n' : prepare_node L p n = Ok n' -> ~ missing_inner L n.
Proof.
  revert n'. induction n using node_ind'; cbn [prepare_node]; intros n' E HM; inversion HM; subst.
  - destruct (rseq _) as [xs| |] eqn:ER; try discriminate. rewrite rseq_map_ok in ER. rewrite Forall_forall in H.
    clear -ER H H1 H2. induction ER; [destruct H1|]. destruct H1 as [->|H1]; [eapply H; eauto; left; auto|]. apply IHER; auto. intros. eapply H; eauto. right; auto.
  - destruct (rseq _) as [xs| |] eqn:ER; try discriminate. rewrite rseq_map_ok in ER. rewrite Forall_forall in H.
    clear -ER H H1 H2. induction ER; [destruct H1|]. destruct H1 as [->|H1]; [eapply H; eauto; left; auto|]. apply IHER; auto. intros. eapply H; eauto. right; auto.
  - destruct (prepare_node L p n) eqn:EN; try discriminate. eapply IHn; eauto.
  - destruct (prepare_node L p n) eqn:EN; try discriminate. eapply IHn; eauto.
  - discriminate.
Qed.

(** a tree is prepared exactly when all its conditions and parent paths are *)
Lemma aa_ok a : (exists a', prepare_aa L a = Ok a') <-> (forall x, In x (split_char "," (a_parent a)) -> prepare_query L x <> Err).
Proof.
  unfold prepare_aa. cbv zeta. generalize (split_char "," (a_parent a)) as ps. intro ps.
  transitivity (exists qs, rmapM (prepare_query L) ps = Ok qs).
  - destruct (rmapM (prepare_query L) ps); simpl; split; intros [x H]; try discriminate; eauto.
  - induction ps as [|q ps IH]; simpl; [split; [intros _ x []|eauto]|].
    pose proof (query_no_panic q). destruct (prepare_query L q) as [y| |] eqn:E; simpl.
    + transitivity (exists qs, rmapM (prepare_query L) ps = Ok qs).
      { destruct (rmapM (prepare_query L) ps); simpl; split; intros [x H']; try discriminate; eauto. }
      rewrite IH. split; intros H' x; [intros [<-|HI]; [congruence|auto]|auto].
    + split; [intros [x H']; discriminate|]. intro H'. exfalso. eapply H'; eauto.
    + congruence.
Qed.

Lemma forall2_exists {A B} (R : A -> B -> Prop) l : (forall a, In a l -> exists b, R a b) -> exists l', Forall2 R l l'.
Proof.
  induction l as [|a l IH]; intro H; [exists []; auto|]. destruct (H a) as [b Hb]; [left; auto|].
  destruct IH as [l' Hl]; [intros; apply H; right; auto|]. exists (b :: l'). auto.
Qed.

Lemma forall2_in {A B} (R : A -> B -> Prop) l l' a : Forall2 R l l' -> In a l -> exists b, R a b.
Proof. induction 1; intros []; [subst; eauto|auto]. Qed.

Theorem tree_prepares p n : (exists n', prepare_node L p n = Ok n') <->
  ~ missing_inner L n /\
  (forall c, has_condition L n c -> exists c', prepare_condition L p c = Ok c') /\
  (forall path, has_parent L n path -> forall x, In x (split_char "," path) -> prepare_query L x <> Err).
Proof.
  split.
  - intros [n' H]. split; [eapply missing_not_prepared; eauto|].
    revert n' H. induction n using node_ind'; cbn [prepare_node]; intros n' E.
    + destruct (rseq _) as [xs| |] eqn:ER; try discriminate. rewrite rseq_map_ok in ER. rewrite Forall_forall in H.
      split; intros x HX; inversion HX; subst; match goal with HI0 : In _ ns |- _ => rename HI0 into HI end; destruct (forall2_in _ _ _ _ ER HI) as [y Hy]; destruct (H _ HI _ Hy) as [H5 H6]; solve [auto | eapply H6; eauto].
    + destruct (rseq _) as [xs| |] eqn:ER; try discriminate. rewrite rseq_map_ok in ER. rewrite Forall_forall in H.
      split; intros x HX; inversion HX; subst; match goal with HI0 : In _ ns |- _ => rename HI0 into HI end; destruct (forall2_in _ _ _ _ ER HI) as [y Hy]; destruct (H _ HI _ Hy) as [H5 H6]; solve [auto | eapply H6; eauto].
    + destruct (prepare_node L p n) eqn:EN; try discriminate. destruct (IHn _ eq_refl) as [I1 I2]. split; intros x HX; inversion HX; subst; solve [auto | eapply I2; eauto].
    + destruct (prepare_node L p n) eqn:EN; try discriminate. destruct (IHn _ eq_refl) as [I1 I2]. simpl in E.
      destruct (prepare_aa L a) eqn:EA; try discriminate.
      split; intros x HX; inversion HX; subst; solve [auto | eapply I2; eauto | apply aa_ok; eauto].
    + split; intros x HX; inversion HX.
    + split; intros x HX; inversion HX.
    + destruct (prepare_condition L p c) eqn:EC; try discriminate. split; intros x HX; inversion HX; subst; eauto.
    + discriminate.
  - intros (NM & HC & HP). induction n using node_ind'; cbn [prepare_node].
    + rewrite Forall_forall in H. destruct (forall2_exists (fun a b => prepare_node L p a = Ok b) ns) as [xs Hxs].
      { intros a HI. apply H; auto; intros; [intro; apply NM; eapply mi_and; eauto|apply HC; eapply hc_and; eauto|eapply HP; eauto; eapply hp_and; eauto]. }
      rewrite <- rseq_map_ok in Hxs. rewrite Hxs. simpl. eauto.
    + rewrite Forall_forall in H. destruct (forall2_exists (fun a b => prepare_node L p a = Ok b) ns) as [xs Hxs].
      { intros a HI. apply H; auto; intros; [intro; apply NM; eapply mi_or; eauto|apply HC; eapply hc_or; eauto|eapply HP; eauto; eapply hp_or; eauto]. }
      rewrite <- rseq_map_ok in Hxs. rewrite Hxs. simpl. eauto.
    + destruct IHn as [n' ->]; [intro; apply NM; apply mi_not; auto|intros; apply HC; apply hc_not; auto|intros; eapply HP; eauto; apply hp_not; auto|]. simpl. eauto.
    + destruct IHn as [n' ->]; [intro; apply NM; apply mi_quant; auto|intros; apply HC; apply hc_quant; auto|intros; eapply HP; eauto; apply hp_quant; auto|]. simpl.
      assert (exists a', prepare_aa L a = Ok a') as [a' ->]; [|simpl; eauto]. apply aa_ok. apply HP. apply hp_here.
    + eauto.
    + eauto.
    + destruct (HC c) as [c' ->]; [apply hc_cond|]. simpl. eauto.
    + destruct NM. apply mi_nil.
Qed.

(** ** What preparation changes *)
Lemma prepared_orig p c c' : prepare_condition L p c = Ok c' ->
  exists v, replaced p (c_method c) (c_value c) v /\ c_orig c' = mkOrig (c_attr c) (c_method c) v /\ c_ret c' = c_ret c.
Proof.
  unfold prepare_condition. intro H. apply rbind_ok in H. destruct H as (c1 & H1 & H).
  apply rbind_ok in H. destruct H as (c2 & H2 & H). apply rbind_ok in H. destruct H as (c3 & H3 & H).
  apply replaced_ok in H1. destruct H1 as (v & HR & ->). exists v. split; auto.
  apply validate_ok in H2. destruct H2 as [-> _].
  apply convert_ok in H3. destruct H3 as (d2 & d3 & K1 & K2 & K3 & _).
  assert (KL : forall c c', handle_labels L c = Ok c' -> c_orig c' = c_orig c /\ c_ret c' = c_ret c).
  { clear. intros c c' H. unfold handle_labels in H. repeat (apply rbind_ok in H; destruct H as ([? ?] & _ & H)). injection H; intros <-. auto. }
  assert (KO : forall c c', handle_objects L c = Ok c' -> c_orig c' = c_orig c /\ c_ret c' = c_ret c).
  { clear. intros c c' H. unfold handle_objects in H. repeat (apply rbind_ok in H; destruct H as ([? ?] & _ & H)). injection H; intros <-. auto. }
  assert (KJ : forall c c', handle_jsonpath L c = Ok c' -> c_orig c' = c_orig c /\ c_ret c' = c_ret c).
  { clear. intros c c' H. unfold handle_jsonpath in H. destruct (has_prefix _ _); [|injection H; intros <-; auto].
    apply rbind_ok in H. destruct H as (net & _ & H). 
    match type of H with (let '(_, _) := ?x in _) = _ => destruct x as [net' rel] end.
    apply rbind_ok in H. destruct H as (net2 & _ & H). cbv zeta in H. injection H; intros <-. auto. }
  apply KL in K1. apply KO in K2. apply KJ in K3. cbn in K1. destruct K1 as [K1 K1'], K2 as [K2 K2'], K3 as [K3 K3'].
  assert (E : c_orig c' = c_orig c3 /\ c_ret c' = c_ret c3).
  { destruct (j_is (c_jp c3)); [|injection H; intros <-; auto]. apply rbind_ok in H. destruct H as (q & _ & H). injection H; intros <-. auto. }
  destruct E as [-> ->]. rewrite K3, K2, K1, K3', K2', K1'. auto.
Qed.

Theorem tree_texts p n n' : prepare_node L p n = Ok n' -> tree_prepared L p n n'.
Proof.
  revert n'. induction n using node_ind'; cbn [prepare_node]; intros n' E.
  - destruct (rseq _) as [xs| |] eqn:ER; try discriminate. simpl in E. injection E; intros <-. rewrite rseq_map_ok in ER.
    apply tp_and. clear E. induction ER; constructor; inversion H; subst; auto.
  - destruct (rseq _) as [xs| |] eqn:ER; try discriminate. simpl in E. injection E; intros <-. rewrite rseq_map_ok in ER.
    apply tp_or. clear E. induction ER; constructor; inversion H; subst; auto.
  - destruct (prepare_node L p n); try discriminate. injection E; intros <-. apply tp_not. auto.
  - destruct (prepare_node L p n) as [m| |]; try discriminate. simpl in E. apply rbind_ok in E. destruct E as (a' & EA & E). injection E; intros <-.
    unfold prepare_aa in EA. cbv zeta in EA. apply rbind_ok in EA. destruct EA as (qs & _ & EA). injection EA; intros <-.
    apply tp_quant; auto.
  - injection E; intros <-. apply tp_true.
  - injection E; intros <-. apply tp_false.
  - destruct (prepare_condition L p c) as [c'| |] eqn:EC; try discriminate. injection E; intros <-.
    apply prepared_orig in EC. destruct EC as (v & H1 & H2 & H3). eapply tp_cond; eauto.
  - discriminate.
Qed.

Lemma undefined_not_replaced p method s v : undefined p s -> ~ replaced p method s v.
Proof.
  intros (x & E & E1 & E2) H. inversion H; subst.
  - apply H0. eexists; reflexivity.
  - apply append_inj_l in H0. congruence.
  - apply append_inj_l in H0. congruence.
Qed.
Lemma undefined_name_not_replaced p s v : undefined p s -> ~ replaced_name p s v.
Proof.
  intros (x & E & E1 & E2) H. inversion H; subst.
  - apply H0. eexists; reflexivity.
  - apply append_inj_l in H0. congruence.
  - apply append_inj_l in H0. congruence.
Qed.

Theorem undefined_value_fails p n c : has_condition L n c -> undefined p (c_value c) -> ~ missing_inner L n -> prepare_node L p n = Err.
Proof.
  intros HC HU HM. destruct (prepare_node L p n) as [n'| |] eqn:E; [|auto|apply tree_panic in E; tauto].
  exfalso. assert (HE : exists n', prepare_node L p n = Ok n') by eauto. apply tree_prepares in HE. destruct HE as (_ & HE & _).
  destruct (HE _ HC) as [c' H]. apply prepared_orig in H. destruct H as (v & H & _). eapply undefined_not_replaced; eauto.
Qed.

(** ** Rules *)
Lemma replace_name_iff p s v : replace_name p s = Ok v <-> replaced_name p s v.
Proof.
  unfold replace_name, replaceable_list, replaceable_string. destruct (has_prefix s "#") eqn:EP.
  - apply has_prefix_iff in EP. destruct EP as [x E]. change (s = String "#" x) in E. subst s.
    rewrite (replace_first_head "#" x ""). change ("" ++ x) with x. split.
    + destruct (assoc x (p_resolved p)) as [l|] eqn:E1.
      * intro H. injection H; intros <-. rewrite join_concat. eapply rn_list; eauto. reflexivity.
      * destruct (assoc x (p_strings p)) as [w|] eqn:E2; [|discriminate]. intro H. injection H; intros <-. eapply rn_string; eauto. reflexivity.
    + intro H. inversion H as [HN|y l E EL|y w E EL ES]; subst.
      * destruct HN. exists x. reflexivity.
      * injection E; intros <-. rewrite EL, join_concat. auto.
      * injection E; intros <-. rewrite EL, ES. auto.
  - apply starts_false in EP. split; [intro H; injection H; intros <-; apply rn_plain; auto|].
    intro H. inversion H; subst; auto; destruct EP; eexists; reflexivity.
Qed.
Lemma replace_name_no_panic p s : replace_name p s <> Panic.
Proof.
  unfold replace_name, replaceable_list, replaceable_string. destruct (has_prefix s "#"); [|discriminate].
  destruct (assoc _ _); [discriminate|]. destruct (assoc _ _); discriminate.
Qed.

Lemma expand_no_panic s ty : expand L s ty <> Panic.
Proof.
  unfold expand. intro H. apply rmapM_panic in H. destruct H as (x & _ & H). unfold expand_one in H. cbv zeta in H.
  destruct (if String.eqb ty "subnet" then is_ip_cidr L (if String.eqb ty "subnet" && String.eqb x "*" then "0.0.0.0/0" else x)
            else (false, false, [], mkIpnet [] [])) as [[[? ?] ?] ?].
  destruct (_ && _ && _); [discriminate|]. destruct (re_compile L _); discriminate.
Qed.
Lemma convert_fields_no_panic r : convert_fields L r <> Panic.
Proof.
  unfold convert_fields. destruct (ru_converted r); [discriminate|].
  pose proof (expand_no_panic (ru_sender_name r) (ru_sender_type r)). destruct (expand L _ _); [|discriminate|congruence]. cbn [rbind].
  pose proof (expand_no_panic (ru_receiver_name r) (ru_receiver_type r)). destruct (expand L (ru_receiver_name r) _); [|discriminate|congruence]. cbn [rbind].
  destruct (re_compile L _); [|discriminate]. destruct (re_compile L _); discriminate.
Qed.

Theorem rule_no_panic p r : prepare_rule L p r = Panic -> exists n, ru_tree r = Some n /\ missing_inner L n.
Proof.
  unfold prepare_rule. destruct (ru_tree r) as [n|].
  - destruct (prepare_node L p n) as [n'| |] eqn:E; cbn [rbind]; [|discriminate|intros _; exists n; split; auto; eapply tree_panic; eauto].
    unfold replace_in_rule. cbn [ru_sender_name ru_receiver_name set_tree].
    pose proof (replace_name_no_panic p (ru_sender_name r)). destruct (replace_name p (ru_sender_name r)); cbn [rbind]; try discriminate; [|congruence].
    pose proof (replace_name_no_panic p (ru_receiver_name r)). destruct (replace_name p (ru_receiver_name r)); cbn [rbind]; try discriminate; [|congruence].
    intro HC. exfalso. eapply convert_fields_no_panic; eauto.
  - cbn [rbind]. unfold replace_in_rule.
    pose proof (replace_name_no_panic p (ru_sender_name r)). destruct (replace_name p (ru_sender_name r)); cbn [rbind]; try discriminate; [|congruence].
    pose proof (replace_name_no_panic p (ru_receiver_name r)). destruct (replace_name p (ru_receiver_name r)); cbn [rbind]; try discriminate; [|congruence].
    intro HC. exfalso. eapply convert_fields_no_panic; eauto.
Qed.

(** the rule after preparation: names replaced, tree prepared, everything else as before *)
Theorem rule_texts p r r' : prepare_rule L p r = Ok r' ->
  replaced_name p (ru_sender_name r) (ru_sender_name r') /\
  replaced_name p (ru_receiver_name r) (ru_receiver_name r') /\
  (match ru_tree r, ru_tree r' with
   | Some n, Some n' => tree_prepared L p n n'
   | None, None => True
   | _, _ => False
   end) /\
  ru_id r' = ru_id r /\ ru_sender_type r' = ru_sender_type r /\ ru_receiver_type r' = ru_receiver_type r /\
  ru_protocol r' = ru_protocol r /\ ru_resource_type r' = ru_resource_type r /\ ru_resource_name r' = ru_resource_name r /\
  ru_operation r' = ru_operation r /\ ru_decision r' = ru_decision r /\ ru_metadata r' = ru_metadata r /\ ru_hash r' = ru_hash r.
Proof.
  unfold prepare_rule. intro H. apply rbind_ok in H. destruct H as (r1 & H1 & H). apply rbind_ok in H. destruct H as (r2 & H2 & H3).
  assert (HF : forall r r', convert_fields L r = Ok r' -> ru_sender_name r' = ru_sender_name r /\ ru_receiver_name r' = ru_receiver_name r /\ ru_tree r' = ru_tree r /\
    ru_id r' = ru_id r /\ ru_sender_type r' = ru_sender_type r /\ ru_receiver_type r' = ru_receiver_type r /\
    ru_protocol r' = ru_protocol r /\ ru_resource_type r' = ru_resource_type r /\ ru_resource_name r' = ru_resource_name r /\
    ru_operation r' = ru_operation r /\ ru_decision r' = ru_decision r /\ ru_metadata r' = ru_metadata r /\ ru_hash r' = ru_hash r).
  { clear. intros r r' H. unfold convert_fields in H. destruct (ru_converted r); [injection H; intros <-; repeat split|].
    apply rbind_ok in H. destruct H as (sl & _ & H). apply rbind_ok in H. destruct H as (rl & _ & H).
    destruct (re_compile L _); [|discriminate]. destruct (re_compile L _); [|discriminate]. injection H; intros <-. repeat split. }
  apply HF in H3. destruct H3 as (F1 & F2 & F3 & F4 & F5 & F6 & F7 & F8 & F9 & F10 & F11 & F12 & F13).
  unfold replace_in_rule in H2. apply rbind_ok in H2. destruct H2 as (s & S1 & H2). apply rbind_ok in H2. destruct H2 as (w & S2 & H2).
  injection H2; intros <-. cbn in F1, F2, F3, F4, F5, F6, F7, F8, F9, F10, F11, F12, F13. rewrite F1, F2, F3.
  apply replace_name_iff in S1, S2.
  destruct (ru_tree r) as [n|] eqn:ET.
  - apply rbind_ok in H1. destruct H1 as (n' & HN & H1). injection H1; intros <-. cbn in *. apply tree_texts in HN. tauto.
  - injection H1; intros <-. rewrite ET. tauto.
Qed.

Theorem undefined_name_fails p r : undefined p (ru_sender_name r) \/ undefined p (ru_receiver_name r) ->
  (forall n, ru_tree r = Some n -> ~ missing_inner L n) -> prepare_rule L p r = Err.
Proof.
  intros HU HT. destruct (prepare_rule L p r) as [r'| |] eqn:E; [|auto|].
  - exfalso. apply rule_texts in E. destruct E as (E1 & E2 & _).
    destruct HU as [HU|HU]; eapply undefined_name_not_replaced in HU; eauto.
  - exfalso. apply rule_no_panic in E. destruct E as (n & E1 & E2). eapply HT; eauto.
Qed.
End WithLib.
