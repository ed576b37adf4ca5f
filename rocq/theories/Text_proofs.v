(** Proofs about the texts of prepared trees and rules. *)
From Coq Require Import List String Ascii Bool Arith ZArith.
From Verif Require Import Base GoStr GoFloat Types Json StrUtils Validate Prepare Parse Marshal Strings Spec_Tree Spec_Extra Spec_Leaf Spec_Validate
  Tree_proofs Match_proofs Number_proofs Leaf_proofs Validate_proofs Prepare_proofs Spec_Load Load_proofs Spec_Copy Copy_proofs Spec_Strings Hash_proofs Spec_Text.
Import ListNotations.
Open Scope string_scope.

Section WithLib.
Variable L : Lib.
Notation node := (node L).

Lemma replaced_unique p m s v v' : replaced p m s v -> replaced p m s v' -> v = v'.
Proof.
  intros H H'. destruct H as [H|x l E H|x y E H1 H2], H' as [K|x' l' E' K|x' y' E' K1 K2]; auto;
    try (exfalso; match goal with H : ~ starts "#" s |- _ => apply H end; subst s; eexists; reflexivity);
    subst s; injection E'; intros <-; congruence.
Qed.

Lemma written_exists p n n' : prepare_node L p n = Ok n' -> exists w, written_out L p n w.
Proof.
  intro H. apply tree_texts in H. revert n' H. induction n as [ns IH|ns IH|n IH|q a n IH| | |c|] using node_ind'; intros n' H; inversion H as [? ns' H1|? ns' H1|? m H1|? ? ? ? m H1| | |? ? v H1]; subst.
  - assert (exists ws, Forall2 (written_out L p) ns ws) as [ws HW].
    { clear H. revert ns' H1. induction IH as [|x ns HX IH IHns]; intros ns' HF; inversion HF; subst; [exists []; constructor|].
      destruct (HX _ ltac:(eassumption)) as [w Hw]. destruct (IHns _ ltac:(eassumption)) as [ws Hws]. exists (w :: ws). constructor; auto. }
    exists (NAnd ws). constructor. auto.
  - assert (exists ws, Forall2 (written_out L p) ns ws) as [ws HW].
    { clear H. revert ns' H1. induction IH as [|x ns HX IH IHns]; intros ns' HF; inversion HF; subst; [exists []; constructor|].
      destruct (HX _ ltac:(eassumption)) as [w Hw]. destruct (IHns _ ltac:(eassumption)) as [ws Hws]. exists (w :: ws). constructor; auto. }
    exists (NOr ws). constructor. auto.
  - destruct (IH _ H1) as [w Hw]. exists (NNot w). constructor. auto.
  - destruct (IH _ H1) as [w Hw]. exists (NQuant q a w). constructor. auto.
  - exists NTrue. constructor.
  - exists NFalse. constructor.
  - exists (NCond (valued L c v)). constructor. auto.
Qed.

Lemma unreferenced p n w : no_references L n -> written_out L p n w -> w = n.
Proof.
  revert w. induction n as [ns IH|ns IH|n IH|q a n IH| | |c|] using node_ind'; intros w HR H; inversion H as [? ns' H1|? ns' H1|? m H1|? ? ? m H1| | |? v H1]; subst; auto.
  - f_equal. assert (HR' : forall n, In n ns -> no_references L n) by (intros n HI c HC; apply HR; eapply hc_and; eauto). clear H HR.
    revert ns' H1. induction IH as [|x ns HX IH IHns]; intros ns' HF; inversion HF; subst; auto.
    rewrite (HX _ (HR' _ (or_introl eq_refl)) ltac:(eassumption)). rewrite (IHns (fun n h => HR' n (or_intror h)) _ ltac:(eassumption)). auto.
  - f_equal. assert (HR' : forall n, In n ns -> no_references L n) by (intros n HI c HC; apply HR; eapply hc_or; eauto). clear H HR.
    revert ns' H1. induction IH as [|x ns HX IH IHns]; intros ns' HF; inversion HF; subst; auto.
    rewrite (HX _ (HR' _ (or_introl eq_refl)) ltac:(eassumption)). rewrite (IHns (fun n h => HR' n (or_intror h)) _ ltac:(eassumption)). auto.
  - rewrite (IH _ (fun c h => HR c (hc_not L _ _ h)) H1). auto.
  - rewrite (IH _ (fun c h => HR c (hc_quant L _ _ _ _ h)) H1). auto.
  - assert (HN : ~ starts "#" (c_value c)) by (apply HR; constructor).
    assert (v = c_value c) as -> by (eapply replaced_unique; eauto; constructor; auto). destruct c; reflexivity.
Qed.

(** the value of a prepared condition, where its original is empty *)
Lemma empty_value p c c' : prepare_condition L p c = Ok c' -> og_value (c_orig c') = "" -> c_method c <> "IS" -> c_value c' = "".
Proof.
  unfold prepare_condition. intros H HO HM. apply rbind_ok in H. destruct H as (c1 & H1 & H).
  apply rbind_ok in H. destruct H as (c2 & H2 & H). apply rbind_ok in H. destruct H as (c3 & H3 & H).
  pose proof H1 as HP. apply replaced_ok in H1. destruct H1 as (v & HR & ->).
  assert (HV : v <> "" \/ v = "" /\ is_any (c_method c) ["IN"; "NIN"; "IS"] = false).
  { destruct (String.eqb_spec v ""); [right|left; auto]. split; auto. subst v.
    unfold validate_condition in H2. apply rbind_ok in H2. destruct H2 as (u & _ & H2). apply rbind_ok in H2. destruct H2 as (u' & H2 & _).
    unfold validate_method in H2. cbn [c_method c_value set_value] in H2. destruct (contains_string _ _); [|discriminate]. cbn [negb] in H2.
    unfold is_any in *. cbn [existsb] in *. destruct (String.eqb_spec (c_method c) "IN"); [discriminate|].
    destruct (String.eqb_spec (c_method c) "NIN"); [discriminate|]. destruct (String.eqb_spec (c_method c) "IS"); [contradiction|]. reflexivity. }
  apply validate_ok in H2. destruct H2 as [-> _].
  assert (EO : og_value (c_orig c') = v /\ (v = "" -> is_any (c_method c) ["IN"; "NIN"; "IS"] = false -> c_value c' = "")).
  { clear HO HV. pose proof H3 as HC. apply convert_ok in H3. destruct H3 as (d2 & d3 & K1 & K2 & K3 & _).
    assert (KL : forall c c', handle_labels L c = Ok c' -> c_orig c' = c_orig c /\ (c_value c = "" -> c_value c' = "")).
    { clear. intros c c' H. unfold handle_labels in H. repeat (apply rbind_ok in H; destruct H as ([? ?] & ? & H)). injection H; intros <-. split; [auto|].
      intro E. rewrite E in *. cbn in *. congruence. }
    assert (KO : forall c c', handle_objects L c = Ok c' -> c_orig c' = c_orig c /\ (c_value c = "" -> c_value c' = "")).
    { clear. intros c c' H. unfold handle_objects in H. repeat (apply rbind_ok in H; destruct H as ([? ?] & ? & H)). injection H; intros <-. split; [auto|].
      intro E. rewrite E in *. cbn in *. congruence. }
    assert (KJ : forall c c', handle_jsonpath L c = Ok c' -> c_orig c' = c_orig c /\ c_value c' = c_value c).
    { clear. intros c c' H. unfold handle_jsonpath in H. destruct (has_prefix _ _); [|injection H; intros <-; auto].
      apply rbind_ok in H. destruct H as (net & _ & H).
      match type of H with (let '(_, _) := ?x in _) = _ => destruct x as [net' rel] end.
      apply rbind_ok in H. destruct H as (net2 & _ & H). cbv zeta in H. injection H; intros <-. auto. }
    apply KL in K1. apply KO in K2. apply KJ in K3. destruct K1 as [K1 K1'], K2 as [K2 K2'], K3 as [K3 K3'].
    assert (E : c_orig c' = c_orig c3 /\ c_value c' = c_value c3).
    { destruct (j_is (c_jp c3)); [|injection H; intros <-; auto]. apply rbind_ok in H. destruct H as (q & _ & H). injection H; intros <-. auto. }
    destruct E as [-> ->]. rewrite K3, K2, K1. split; [reflexivity|]. intros -> EI. rewrite K3'. apply K2', K1'.
    unfold converted. cbn. unfold final_value. rewrite EI. auto. }
  destruct EO as [EO EV]. destruct HV as [HV|[HV HI]]; [congruence|]. auto.
Qed.

Lemma valid_attr_nonempty c c' : validate_condition L c = Ok c' -> c_attr c <> "" /\ c_method c <> "".
Proof.
  unfold validate_condition. intro H. apply rbind_ok in H. destruct H as (u & H1 & H). apply rbind_ok in H. destruct H as (u' & H2 & _).
  split; intro E; rewrite E in *; discriminate.
Qed.

(** what a condition shows: its texts and return values *)
Definition shown (c : cond L) : string * string * string * option (list (string * string)) :=
  (original_or (og_attr (c_orig c)) (c_attr c), original_or (og_method (c_orig c)) (c_method c),
   original_or (og_value (c_orig c)) (c_value c), orig_ret L (c_ret c)).

Lemma shown_string c c' : shown c = shown c' -> cond_string L c = cond_string L c'.
Proof. unfold shown, cond_string. intro E. injection E; intros E1 E2 E3 E4. rewrite E2, E3, E4. auto. Qed.
Lemma shown_json c c' : shown c = shown c' -> cond_json L c = cond_json L c'.
Proof. unfold shown, cond_json. intro E. injection E; intros E1 E2 E3 E4. rewrite E1, E2, E3, E4. auto. Qed.

Lemma shown_prepared p c c' v : c_orig c = no_orig -> prepare_condition L p c = Ok c' -> replaced p (c_method c) (c_value c) v ->
  (c_method c = "IS" -> v <> "") -> shown c' = shown (valued L c v).
Proof.
  intros HN HP HR HI. destruct (prepared_orig L _ _ _ HP) as (v' & HR' & HO & HT).
  assert (v' = v) as -> by (eapply replaced_unique; eauto).
  assert (HA : c_attr c <> "" /\ c_method c <> "").
  { unfold prepare_condition in HP. apply rbind_ok in HP. destruct HP as (c1 & H1 & H). apply rbind_ok in H. destruct H as (c2 & H2 & _).
    apply replaced_ok in H1. destruct H1 as (v' & _ & ->). apply valid_attr_nonempty in H2. exact H2. }
  destruct HA as [HA HM]. unfold shown. cbn [c_orig c_attr c_method c_value c_ret valued]. rewrite HT, HN. cbn [og_attr og_method og_value no_orig]. rewrite !original_empty.
  destruct (String.eqb_spec v "") as [->|HV].
  - assert (c_value c' = "") as ->.
    { eapply empty_value; eauto. rewrite HO. reflexivity. intro E. destruct (HI E). auto. }
    rewrite HO. cbn [og_attr og_method og_value]. rewrite !original_same by auto. auto.
  - rewrite HO. cbn [og_attr og_method og_value]. rewrite !original_same by auto. auto.
Qed.

(** trees that show the same *)
Inductive shows : node -> node -> Prop :=
| sh_and ns ns' : Forall2 shows ns ns' -> shows (NAnd ns) (NAnd ns')
| sh_or ns ns' : Forall2 shows ns ns' -> shows (NOr ns) (NOr ns')
| sh_not n n' : shows n n' -> shows (NNot n) (NNot n')
| sh_quant q a a' n n' : shows n n' -> original_or (a_orig a) (a_parent a) = original_or (a_orig a') (a_parent a') ->
    a_ret a = a_ret a' -> shows (NQuant q a n) (NQuant q a' n')
| sh_true : shows NTrue NTrue
| sh_false : shows NFalse NFalse
| sh_cond c c' : shown c = shown c' -> shows (NCond c) (NCond c')
| sh_nil : shows NNil NNil.

Lemma shows_string n n' : shows n n' -> node_string L n = node_string L n'.
Proof.
  revert n'. induction n as [ns IH|ns IH|n IH|q a n IH| | |c|] using node_ind'; intros n' H; inversion H; subst; cbn [node_string]; auto.
  - assert (map (node_string L) ns = map (node_string L) ns') as ->; auto. clear H. revert ns' H1.
    induction IH; intros ns' HF; inversion HF; subst; auto. simpl. f_equal; auto.
  - assert (map (node_string L) ns = map (node_string L) ns') as ->; auto. clear H. revert ns' H1.
    induction IH; intros ns' HF; inversion HF; subst; auto. simpl. f_equal; auto.
  - rewrite (IH _ H1). auto.
  - rewrite (IH n'0); auto. destruct (node_string L n'0); auto. cbn. unfold quant_string. f_equal. rewrite H5, H6. auto.
  - f_equal. apply shown_string. auto.
Qed.

Lemma shows_json n n' : shows n n' -> node_json L n = node_json L n'.
Proof.
  revert n'. induction n as [ns IH|ns IH|n IH|q a n IH| | |c|] using node_ind'; intros n' H; inversion H as [? ? HF|? ? HF|? n2 HS|? ? a2 ? n2 HS HA HB| | |? ? HS|]; subst; auto.
  - assert (E : map (node_json L) ns = map (node_json L) ns').
    { clear H. revert ns' HF. induction IH as [|x ns HX IH IHns]; intros ns' HF; inversion HF; subst; auto. simpl. f_equal; auto. }
    destruct ns, ns'; try discriminate; auto. cbn [node_json]. rewrite E. auto.
  - assert (E : map (node_json L) ns = map (node_json L) ns').
    { clear H. revert ns' HF. induction IH as [|x ns HX IH IHns]; intros ns' HF; inversion HF; subst; auto. simpl. f_equal; auto. }
    destruct ns, ns'; try discriminate; auto. cbn [node_json]. rewrite E. auto.
  - pose proof (IH _ HS) as E. cbn [node_json]. inversion HS; subst; try (rewrite E); auto.
  - cbn [node_json]. rewrite (IH _ HS). destruct (node_json L n2); auto. cbn [rbind]. unfold aa_json. rewrite HA, HB. auto.
  - cbn [node_json]. rewrite (shown_json _ _ HS). auto.
Qed.

Lemma made_orig c : made L (NCond c) -> c_orig c = no_orig.
Proof. intro H. inversion H; subst. destruct (cond_form L _ _ H2) as (_ & _ & _ & E & _). auto. Qed.

Lemma prepared_shows p n n' w : made L n -> prepare_node L p n = Ok n' -> written_out L p n w -> no_empty_is L w -> shows n' w.
Proof.
  revert n' w. induction n as [ns IH|ns IH|n IH|q a n IH| | |c|] using node_ind'; intros n' w HM HP HW HI; inversion HW as [? ws HF|? ws HF|? w1 HS|? ? ? w1 HS| | |? v HS]; subst.
  - cbn [prepare_node] in HP. destruct (rseq _) as [xs| |] eqn:ER; try discriminate. simpl in HP. injection HP; intros <-. rewrite rseq_map_ok in ER.
    apply sh_and. assert (HI' : forall w, In w ws -> no_empty_is L w) by (intros x HX c HC; apply HI; eapply hc_and; eauto).
    inversion HM as [? HM'| | | |]; subst. clear HM HP HW HI. revert ws xs HF ER HI' HM'.
    induction IH as [|x ns HX IH IHns]; intros ws xs HF ER HI HM; inversion HF; subst; inversion ER; subst; constructor.
    + inversion HM; subst. apply HX; auto. apply HI. simpl; auto.
    + inversion HM; subst. apply IHns; auto. intros w HIn. apply HI. simpl; auto.
  - cbn [prepare_node] in HP. destruct (rseq _) as [xs| |] eqn:ER; try discriminate. simpl in HP. injection HP; intros <-. rewrite rseq_map_ok in ER.
    apply sh_or. assert (HI' : forall w, In w ws -> no_empty_is L w) by (intros x HX c HC; apply HI; eapply hc_or; eauto).
    inversion HM as [|? HM'| | |]; subst. clear HM HP HW HI. revert ws xs HF ER HI' HM'.
    induction IH as [|x ns HX IH IHns]; intros ws xs HF ER HI HM; inversion HF; subst; inversion ER; subst; constructor.
    + inversion HM; subst. apply HX; auto. apply HI. simpl; auto.
    + inversion HM; subst. apply IHns; auto. intros w HIn. apply HI. simpl; auto.
  - cbn [prepare_node] in HP. destruct (prepare_node L p n) as [m| |] eqn:EN; try discriminate. simpl in HP. injection HP; intros <-.
    constructor. inversion HM as [| |? [->|HM']| |]; subst; [inversion HS|]. apply IH; auto. intros c HC. apply HI. constructor. auto.
  - cbn [prepare_node] in HP. destruct (prepare_node L p n) as [m| |] eqn:EN; try discriminate. simpl in HP. apply rbind_ok in HP. destruct HP as (a' & EA & E). injection E; intros <-.
    unfold prepare_aa in EA. cbv zeta in EA. apply rbind_ok in EA. destruct EA as (qs & _ & EA). injection EA; intros <-.
    apply sh_quant; auto. inversion HM as [| | |? ? ? ? [->|HM']|]; subst; [inversion HS|]. apply IH; auto. intros c HC. apply HI. constructor. auto.
  - injection HP; intros <-. constructor.
  - injection HP; intros <-. constructor.
  - cbn [prepare_node] in HP. destruct (prepare_condition L p c) as [c'| |] eqn:EC; try discriminate. injection HP; intros <-.
    constructor. apply shown_prepared with (p := p); auto.
    + apply made_orig. auto.
    + intro E. apply (HI (valued L c v)). constructor. auto.
Qed.

Theorem prepared_text p n n' w : made L n -> prepare_node L p n = Ok n' -> written_out L p n w -> no_empty_is L w ->
  node_string L n' = node_string L w /\ node_json L n' = node_json L w.
Proof.
  intros HM HP HW HI. pose proof (prepared_shows p n n' w HM HP HW HI) as HS. split; [apply shows_string|apply shows_json]; auto.
Qed.

Theorem prepared_text_same p n n' : made L n -> prepare_node L p n = Ok n' -> no_references L n -> no_empty_is L n ->
  node_string L n' = node_string L n /\ node_json L n' = node_json L n.
Proof.
  intros HM HP HR HI. destruct (written_exists _ _ _ HP) as [w HW]. pose proof (unreferenced p n w HR HW) as ->. eapply prepared_text; eauto.
Qed.

Lemma prepare_no_nil p n n' : prepare_node L p n = Ok n' -> n <> NNil /\ n' <> NNil.
Proof. intro H. apply tree_texts in H. split; intro E; subst; inversion H. Qed.

Theorem copy_of_prepared ord p n n' : fair ord -> made L n -> copyable L n -> prepare_node L p n = Ok n' -> no_references L n -> no_empty_is L n ->
  forall t, exists t', copy_tree L ord (Some n') t = (Ok (Some n), t').
Proof.
  intros HF HM HC HP HR HI t. destruct (copy_faithful L ord n HF HC HM t) as [t' E]. exists t'. rewrite <- E.
  destruct (prepared_text_same _ _ _ HM HP HR HI) as [_ EJ]. destruct (prepare_no_nil _ _ _ HP) as [N1 N2].
  unfold copy_tree, tree_json. destruct n', n; try contradiction; rewrite ?EJ; auto.
Qed.

(** ** Rules *)
Theorem prepared_rule_text p (r r' : rule L) : prepare_rule L p r = Ok r' ->
  (forall n, ru_tree r = Some n -> made L n /\ no_references L n /\ no_empty_is L n) ->
  ~ starts "#" (ru_sender_name r) -> ~ starts "#" (ru_receiver_name r) ->
  rule_string L r' = rule_string L r /\ conditions_string L r' = conditions_string L r /\
  rule_hash L r' = rule_hash L r /\ conditions_hash L r' = conditions_hash L r /\ tree_json L (ru_tree r') = tree_json L (ru_tree r).
Proof.
  intros HP HT HS HR.
  assert (ET : conditions_string L r' = conditions_string L r /\ tree_json L (ru_tree r') = tree_json L (ru_tree r)).
  { unfold conditions_string. 
    assert (HN : match ru_tree r, ru_tree r' with Some n, Some n' => prepare_node L p n = Ok n' | None, None => True | _, _ => False end).
    { clear HT. unfold prepare_rule in HP. apply rbind_ok in HP. destruct HP as (r1 & H1 & H). apply rbind_ok in H. destruct H as (r2 & H2 & H3).
      assert (E3 : ru_tree r' = ru_tree r2).
      { unfold convert_fields in H3. destruct (ru_converted r2); [injection H3; intros <-; auto|].
        apply rbind_ok in H3. destruct H3 as (sl & _ & H3). apply rbind_ok in H3. destruct H3 as (rl & _ & H3).
        destruct (re_compile L _); [|discriminate]. destruct (re_compile L _); [|discriminate]. injection H3; intros <-. auto. }
      assert (E2 : ru_tree r2 = ru_tree r1).
      { unfold replace_in_rule in H2. apply rbind_ok in H2. destruct H2 as (s & _ & H2). apply rbind_ok in H2. destruct H2 as (w & _ & H2). injection H2; intros <-. auto. }
      rewrite E3, E2. destruct (ru_tree r) as [n|] eqn:E.
      - apply rbind_ok in H1. destruct H1 as (n' & HN & H1). injection H1; intros <-. auto.
      - injection H1; intros <-. rewrite E. auto. }
    destruct (ru_tree r) as [n|], (ru_tree r') as [n'|]; try contradiction; auto.
    destruct (HT n eq_refl) as (HM & HRf & HI). destruct (prepared_text_same _ _ _ HM HN HRf HI) as [E1 E2].
    rewrite E1. split; auto. destruct (prepare_no_nil _ _ _ HN). unfold tree_json. destruct n, n'; try contradiction; rewrite ?E2; auto. }
  destruct ET as [EC EJ]. destruct (rule_texts L _ _ _ HP) as (N1 & N2 & _ & F1 & F2 & F3 & F4 & F5 & F6 & F7 & F8 & _ & _).
  assert (ES : forall x y, ~ starts "#" x -> replaced_name p x y -> y = x).
  { intros x y H H'. destruct H'; auto; exfalso; apply H; subst; eexists; reflexivity. }
  apply ES in N1; auto. apply ES in N2; auto.
  assert (ER : rule_string L r' = rule_string L r).
  { unfold rule_string. rewrite EC, N1, N2, F2, F3, F4, F5, F6, F7, F8. auto. }
  repeat split; auto; unfold rule_hash, conditions_hash; congruence.
Qed.

Lemma prepared_no_nil p n n' : prepare_node L p n = Ok n' -> no_nil L n.
Proof.
  intro H. apply tree_texts in H. revert n' H. induction n as [ns IH|ns IH|n IH|q a n IH| | |c|] using node_ind'; intros n' H;
    inversion H as [? ns' HF|? ns' HF|? m HF|? ? ? ? m HF| | |? ? v HF]; subst; constructor; eauto.
  - clear H. revert ns' HF. induction IH; intros ns' HF; inversion HF; subst; constructor; eauto.
  - clear H. revert ns' HF. induction IH; intros ns' HF; inversion HF; subst; constructor; eauto.
Qed.

Theorem prepared_equal p (r r' : rule L) : prepare_rule L p r = Ok r' ->
  (forall n, ru_tree r = Some n -> made L n /\ no_references L n /\ no_empty_is L n) ->
  ~ starts "#" (ru_sender_name r) -> ~ starts "#" (ru_receiver_name r) ->
  conditions_equal L r r' = Some true.
Proof.
  intros HP HT HS HR. destruct (prepared_rule_text p r r' HP HT HS HR) as (_ & EC & _).
  assert (HN : no_nil_conditions L r).
  { unfold no_nil_conditions. unfold prepare_rule in HP. apply rbind_ok in HP. destruct HP as (r1 & H1 & _).
    destruct (ru_tree r) as [n|]; auto. apply rbind_ok in H1. destruct H1 as (n' & HN & _). eapply prepared_no_nil; eauto. }
  apply conditions_exist in HN. destruct HN as [s E]. apply conditions_equal_iff. exists s, s. repeat split; auto. congruence.
Qed.
End WithLib.
