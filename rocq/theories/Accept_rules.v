(** Which trees and rules can be prepared, loaded and validated. *)
From Coq Require Import List String Ascii Bool Arith ZArith Lia.
From Verif Require Import Base GoStr GoStr_facts GoFloat Types Json StrUtils Validate Prepare Parse Marshal Lifecycle Spec_Tree Tree_proofs Spec_Regex Spec_Glob Glob_proofs Spec_Match Match_proofs Names_proofs
  Spec_Leaf Number_proofs Leaf_proofs Leaf_laws Attr_proofs Spec_Validate Validate_proofs Prepare_proofs Spec_Load Spec_Names Load_proofs Spec_Copy Copy_proofs Spec_Grammar Grammar_proofs Grammar_tree Eval Check Spec_Decision Check_proofs Spec_Meaning Meaning_proofs Meaning_rules Spec_Accept Accept_proofs.
Import ListNotations.
Open Scope string_scope.
Local Arguments String.prefix : simpl never.

Section WithLib.
Variable L : Lib.
Variable p : predef.

(** ** Conditions *)
Lemma regex_methods_kind method k v : method_is method k -> value_for L method k v ->
  ((In (final_method method) regex_methods -> re_compile L (final_value method v) <> None) <->
   (method = "IS" -> re_compile L (list_to_alternatives v) <> None)).
Proof.
  intros HM (_ & H1 & H2 & _). split.
  - intros H ->. apply H. simpl. tauto.
  - intros H HI. destruct (in_dec string_dec method ["IN"; "NIN"]) as [I|I].
    + destruct (H2 I) as [_ H3]. destruct I as [<-|[<-|[]]]; exact H3.
    + destruct (string_dec method "IS") as [->|N]; [exact (H eq_refl)|].
      assert (EV : final_value method v = v).
      { unfold final_value. replace (is_any method ["IN"; "NIN"; "IS"]) with false; [reflexivity|]. symmetry. apply is_any_false. simpl in *. intuition congruence. }
      rewrite EV. apply H1. clear -HM HI I N.
      method_cases HM; try (left; reflexivity); try (right; reflexivity); exfalso; simpl in HI, I; try (apply I; tauto); try congruence;
        repeat (destruct HI as [HI|HI]; [discriminate HI|]); destruct HI.
Qed.

Theorem condition_prepares (c : cond L) : c_jp c = no_jp -> well_quoted (c_attr c) ->
  ((exists c', prepare_condition L p c = Ok c') <-> preparable L p (c_attr c) (c_method c) (c_value c)).
Proof.
  intros HJ HW. unfold prepare_condition, preparable. split.
  - intros (c' & H). apply rbind_ok in H. destruct H as (c1 & H1 & H). apply rbind_ok in H. destruct H as (c2 & H2 & H). apply rbind_ok in H. destruct H as (c3 & H3 & H).
    apply replaced_ok in H1. destruct H1 as (v & HR & ->). exists v. split; [exact HR|].
    assert (HA : acceptable L (c_attr c) (c_method c) v) by (apply (validates_iff L (set_value L c v)); eauto). split; [exact HA|].
    pose proof (validate_ok L _ _ H2) as (E2 & _). destruct HA as (k & HM & HA & HV).
    assert (F : c_attr c2 = c_attr c /\ c_method c2 = c_method c /\ c_value c2 = v /\ c_jp c2 = no_jp) by (rewrite E2; cbn; auto).
    destruct F as (F1 & F2 & F3 & F4).
    pose proof (converts L c2 k) as K. rewrite F1, F2, F3, F4 in K. pose proof HV as (V1 & V2 & V3 & V4).
    specialize (K HM HA V4 eq_refl HW). assert (KX : exists c', convert_condition L c2 = Ok c' /\ (j_is (c_jp c') = true -> prepare_query L (j_query (c_jp c')) <> Err)).
    { exists c3. split; [exact H3|]. intro EJ. rewrite EJ in H. apply rbind_ok in H. destruct H as (q & HQ & _). rewrite HQ. discriminate. }
    apply K in KX. destruct KX as (K1 & K2 & K3). split; [|split; [exact K2|exact K3]].
    apply (regex_methods_kind (c_method c) k v HM); [exact HV|exact K1].
  - intros (v & HR & HA & H1 & H2 & H3). pose proof HA as (k & HM & HAT & HV). pose proof HV as (V1 & V2 & V3 & V4).
    rewrite (replaces L p c v k HR HM V2). cbn [rbind].
    assert (HX : exists c2, validate_condition L (set_value L c v) = Ok c2) by (apply validates_iff; exact HA). destruct HX as [c2 E2]. rewrite E2. cbn [rbind].
    pose proof (validate_ok L _ _ E2) as (F & _).
    assert (FF : c_attr c2 = c_attr c /\ c_method c2 = c_method c /\ c_value c2 = v /\ c_jp c2 = no_jp) by (rewrite F; cbn; auto).
    destruct FF as (F1 & F2 & F3 & F4).
    pose proof (converts L c2 k) as K. rewrite F1, F2, F3, F4 in K. specialize (K HM HAT V4 eq_refl HW).
    destruct K as [_ K]. destruct K as (c3 & E3 & HQ).
    { split; [|split; assumption]. apply (regex_methods_kind (c_method c) k v HM HV). exact H1. }
    rewrite E3. cbn [rbind]. destruct (j_is (c_jp c3)) eqn:EJ; [|eauto]. specialize (HQ eq_refl).
    pose proof (query_no_panic L (j_query (c_jp c3))) as NP. destruct (prepare_query L (j_query (c_jp c3))); [|congruence|congruence]. cbn [rbind]. eauto.
Qed.

(** ** Trees *)
Lemma made_condition n c : made L n -> has_condition L n c -> c_jp c = no_jp.
Proof.
  induction n using node_ind'; intros HM HC.
  - inversion HC as [|? ? ? HI HX| | |]; subst. inversion HM; subst. rewrite Forall_forall in *. eauto.
  - inversion HC as [| |? ? ? HI HX| |]; subst. inversion HM; subst. rewrite Forall_forall in *. eauto.
  - inversion HC as [| | |? ? HX|]; subst. inversion HM as [| |? HN| |]; subst. destruct HN as [->|HN]; [inversion HX|auto].
  - inversion HC as [| | | |? ? ? ? HX]; subst. inversion HM as [| | |? ? ? ? HN|]; subst. destruct HN as [->|HN]; [inversion HX|auto].
  - inversion HC.
  - inversion HC.
  - inversion HC; subst. inversion HM as [| | | |cn ? _ HV]; subst. apply validate_ok in HV. destruct HV as [-> _]. cbn [c_jp]. unfold condition_from_node. destruct (cn_ret cn); reflexivity.
  - inversion HC.
Qed.

Theorem tree_preparable n : made L n -> well_quoted_tree L n -> ((exists n', prepare_node L p n = Ok n') <-> preparable_tree L p n).
Proof.
  intros HM HW. rewrite tree_prepares. unfold preparable_tree. split.
  - intros (H1 & H2 & H3). split; [exact H1|]. split.
    + intros c HC. apply condition_prepares; [eapply made_condition; eauto|apply HW; exact HC|apply H2; exact HC].
    + intros parents items path HP HI HX. apply query_accepted_iff. apply (H3 parents HP). apply comma_items_iff in HI. subst items. exact HX.
  - intros (H1 & H2 & H3). split; [exact H1|]. split.
    + intros c HC. apply condition_prepares; [eapply made_condition; eauto|apply HW; exact HC|apply H2; exact HC].
    + intros parents HP x HX. apply query_accepted_iff. eapply (H3 parents (split_char "," parents)); eauto. apply split_items.
Qed.

(** ** Rules *)
Hypothesis HRegex : RegexSpec L.

Lemma subnet_prepares item : pattern_ok item -> address_or_network L item -> exists x, expand_one L "subnet" item = Ok x.
Proof.
  intros HP HA. unfold expand_one. change (String.eqb "subnet" "subnet") with true. cbn [andb].
  unfold address_or_network, subnet_text in HA. set (str := if String.eqb item "*" then "0.0.0.0/0" else item) in *.
  assert (HS : pattern_ok str).
  { unfold str. destruct (String.eqb item "*"); [|exact HP]. unfold pattern_ok, pattern_char. cbn.
    repeat match goal with |- _ /\ _ => split end; auto; try (apply Nat.ltb_lt; reflexivity); intro HI; repeat (destruct HI as [HI|HI]; [discriminate HI|]); destruct HI. }
  clearbody str. destruct (name_regex L HRegex str HS) as (re & E & _).
  unfold is_ip_cidr. destruct (parse_cidr L str) as [n|].
  - cbn [negb andb]. rewrite E. eauto.
  - destruct (parse_ip L str) as [i|]; [cbn [negb andb]; rewrite E; eauto|]. exfalso. destruct HA; congruence.
Qed.

Lemma expands type name : pattern_ok name -> ((exists xs, expand L name type = Ok xs) <->
  (type = "subnet" -> forall items item, comma_items name items -> In item items -> address_or_network L item)).
Proof.
  intro HP. destruct (string_dec type "subnet") as [->|N].
  - split.
    + intros [xs H] _ items item HI HX. apply comma_items_iff in HI. subst items. unfold expand in H. apply rmapM_Forall2 in H.
      destruct (forall2_in _ _ _ _ H HX) as [x Hx]. eapply expand_subnet_ok; eauto.
    + intro H. specialize (H eq_refl (split_char "," name)). unfold expand.
      destruct (forall2_exists (fun a b => expand_one L "subnet" a = Ok b) (split_char "," name)) as [xs HX].
      { intros item HI. apply subnet_prepares; [|apply H; [apply split_items|exact HI]]. apply split_pattern_ok in HP. rewrite Forall_forall in HP. apply HP. exact HI. }
      exists xs. apply rmapM_Forall2. exact HX.
  - split; [congruence|]. intros _. apply names_prepare; auto.
Qed.

Lemma fields_convert (r : rule L) : ru_converted r = false -> pattern_ok (ru_operation r) -> pattern_ok (ru_resource_name r) ->
  ((exists r', convert_fields L r = Ok r') <->
   (exists xs, expand L (ru_sender_name r) (ru_sender_type r) = Ok xs) /\ (exists xs, expand L (ru_receiver_name r) (ru_receiver_type r) = Ok xs)).
Proof.
  intros HV HO HS. unfold convert_fields. rewrite HV. destruct (operation_regex L HRegex _ HO) as (ro & EO & _). destruct (wildcards_regex L HRegex _ HS) as (rs & ES & _).
  rewrite EO, ES. split.
  - intros [r' H]. apply rbind_ok in H. destruct H as (sl & H1 & H). apply rbind_ok in H. destruct H as (rl & H2 & _). eauto.
  - intros [[sl ->] [rl ->]]. cbn [rbind]. eauto.
Qed.

Theorem rule_preparable (r : rule L) : ru_converted r = false -> patterns_only L p r ->
  (forall n, ru_tree r = Some n -> made L n /\ well_quoted_tree L n) ->
  ((exists r', prepare_rule L p r = Ok r') <-> preparable_rule L p r).
Proof.
  intros HV [P1 P2 P3 P4] HT. unfold prepare_rule, preparable_rule.
  assert (HTR : (exists r1, (match ru_tree r with None => Ok r | Some t => do t' <- prepare_node L p t; Ok (set_tree L r (Some t')) end) = Ok r1) <->
    forall n, ru_tree r = Some n -> preparable_tree L p n).
  { destruct (ru_tree r) as [t|] eqn:ET; [|split; [discriminate|eauto]]. destruct (HT t eq_refl) as [HM HW]. split.
    - intros [r1 H] n E. injection E as <-. apply rbind_ok in H. destruct H as (t' & H & _). apply tree_preparable; eauto.
    - intro H. specialize (H t eq_refl). apply tree_preparable in H; auto. destruct H as [t' ->]. cbn [rbind]. eauto. }
  assert (KEEP : forall r1, (match ru_tree r with None => Ok r | Some t => do t' <- prepare_node L p t; Ok (set_tree L r (Some t')) end) = Ok r1 ->
    exists t, r1 = set_tree L r t).
  { intros r1 H. destruct (ru_tree r) as [t|] eqn:ET.
    - apply rbind_ok in H. destruct H as (t' & _ & H). injection H as <-. eauto.
    - injection H as <-. exists None. rewrite <- ET. destruct r; reflexivity. }
  split.
  - intros [r' H]. apply rbind_ok in H. destruct H as (r1 & H1 & H). apply rbind_ok in H. destruct H as (r2 & H2 & H3).
    split; [apply HTR; eauto|]. destruct (KEEP _ H1) as [t ->]. unfold replace_in_rule in H2. apply rbind_ok in H2. destruct H2 as (s & S1 & H2).
    apply rbind_ok in H2. destruct H2 as (w & S2 & H2). injection H2 as <-. apply replace_name_iff in S1, S2. cbn in S1, S2.
    assert (X : exists r', convert_fields L (mkRule (ru_id r) s (ru_sender_type r) (ru_sender_list r) w (ru_receiver_type r) (ru_receiver_list r) (ru_protocol r)
      (ru_resource_type r) (ru_resource_name r) (ru_resource_regex r) (ru_operation r) t (ru_decision r) (ru_metadata r) (ru_hash r) (ru_operation_regex r) (ru_converted r)) = Ok r') by (exists r'; exact H3).
    apply fields_convert in X; auto. cbn in X. destruct X as [X1 X2].
    split; [exists s|exists w]; (split; [assumption|]); [apply (expands _ s (P1 _ S1)); exact X1|apply (expands _ w (P2 _ S2)); exact X2].
  - intros (H1 & (s & S1 & X1) & (w & S2 & X2)). apply HTR in H1. destruct H1 as [r1 H1]. destruct (KEEP _ H1) as [t ->]. rewrite H1. cbn [rbind].
    unfold replace_in_rule. apply replace_name_iff in S1 as S1', S2 as S2'. cbn. rewrite S1'. cbn [rbind]. rewrite S2'. cbn [rbind].
    apply fields_convert; auto. cbn. split; [apply (expands _ s (P1 _ S1)); exact X1|apply (expands _ w (P2 _ S2)); exact X2].
Qed.

(** ** Loading *)
Lemma ordinary_faithful r : ordinary L p r -> faithful_tree L (ru_tree r).
Proof. intros [_ HT _]. destruct (ru_tree r) as [n|] eqn:E; [|exact I]. destruct (HT n eq_refl) as [HL _]. exact (loaded_faithful L n HL). Qed.
Lemma ordinary_preparable r : ordinary L p r -> ((exists r', prepare_rule L p r = Ok r') <-> preparable_rule L p r).
Proof.
  intros [HU HT HP]. apply rule_preparable; auto; [apply HU|]. intros n E. destruct (HT n E) as [HL HW]. split; [|exact HW]. exact (loaded_made L n HL).
Qed.
Lemma ordinary_set r ord t : fair ord -> ordinary L p r -> exists t',
  set_predefined L ord p (load_rule L r) t =
    match prepare_rule L p r with
    | Ok c => (Ok tt, mkRstate r p true (Some c), t')
    | Err => (Err, mkRstate r p false None, t')
    | Panic => (Panic, mkRstate r p false None, t')
    end.
Proof.
  intros HF HO. destruct (rule_copied L ord r HF (or_new _ _ _ HO) (ordinary_faithful r HO) t) as [t' E]. exists t'. unfold set_predefined. cbn [load_rule rs_rule rs_lists rs_prepared]. rewrite E.
  destruct (prepare_rule L p r); reflexivity.
Qed.
Theorem set_outcome r ord t : fair ord -> ordinary L p r ->
  ((exists s t', set_predefined L ord p (load_rule L r) t = (Ok tt, s, t')) <-> preparable_rule L p r) /\
  (complete L r -> ~ preparable_rule L p r -> exists s t', set_predefined L ord p (load_rule L r) t = (Err, s, t')).
Proof.
  intros HF HO. destruct (ordinary_set r ord t HF HO) as [t' ->]. rewrite <- (ordinary_preparable r HO).
  pose proof (rule_no_panic L p r) as NP. destruct (prepare_rule L p r) as [c| |].
  - split; [split; eauto|]. intros _ H. exfalso. apply H. eauto.
  - split; [split; [intros (s & u & H); discriminate H|intros [x H]; discriminate H]|]. eauto.
  - split; [split; [intros (s & u & H); discriminate H|intros [x H]; discriminate H]|]. intros HC _. destruct (NP eq_refl) as (n & E1 & E2). exfalso. exact (HC n E1 E2).
Qed.

Theorem list_loads ord rs : fair ord -> Forall (ordinary L p) rs -> forall t,
  ((exists ss t', load_with_predefined L ord p rs t = (Ok ss, t')) <-> Forall (preparable_rule L p) rs) /\
  (Forall (complete L) rs -> ~ Forall (preparable_rule L p) rs -> exists t', load_with_predefined L ord p rs t = (Err, t')) /\
  (forall ss t', load_with_predefined L ord p rs t = (Ok ss, t') ->
     Forall2 (fun r s => forall ord' u, fair ord' -> exists u', set_predefined L ord' p (load_rule L r) u = (Ok tt, s, u')) rs ss).
Proof.
  intros HF HO. induction HO as [|r rs HR HO IH]; intro t; cbn [load_with_predefined].
  - split; [split; eauto|]. split; [intros _ H; exfalso; apply H; constructor|]. intros ss t' H. injection H as <- _. constructor.
  - destruct (ordinary_set r ord t HF HR) as [t1 ->]. pose proof (ordinary_preparable r HR) as HP. pose proof (rule_no_panic L p r) as NP.
    destruct (prepare_rule L p r) as [c| |] eqn:EP.
    + assert (HPR : preparable_rule L p r) by (apply HP; eauto). specialize (IH t1). destruct IH as (I1 & I2 & I3).
      destruct (load_with_predefined L ord p rs t1) as [[ss| |] t2] eqn:EL.
      * split; [|split].
        -- split; eauto. intros _. constructor; auto. apply I1. eauto.
        -- intros HC HN. exfalso. apply HN. constructor; auto. apply I1. eauto.
        -- intros ss' t' H. injection H as <- _. constructor; [|eapply I3; eauto]. intros ord' u HF'. destruct (ordinary_set r ord' u HF' HR) as [u' E]. rewrite EP in E. eauto.
      * split; [|split].
        -- split; [intros (x & y & H); discriminate H|]. intro H. exfalso. inversion H as [|? ? _ H']; subst. apply I1 in H'. destruct H' as (x & y & H'). discriminate H'.
        -- eauto.
        -- intros x y H. discriminate H.
      * split; [|split].
        -- split; [intros (x & y & H); discriminate H|]. intro H. exfalso. inversion H as [|? ? _ H']; subst. apply I1 in H'. destruct H' as (x & y & H'). discriminate H'.
        -- intros HC HN. inversion HC as [|? ? _ HC']; subst. assert (HN' : ~ Forall (preparable_rule L p) rs) by (intro H; apply HN; constructor; auto). destruct (I2 HC' HN') as [t' E]. discriminate E.
        -- intros x y H. discriminate H.
    + split; [|split].
      * split; [intros (x & y & H); discriminate H|]. intro H. exfalso. inversion H as [|? ? H' _]; subst. apply HP in H'. destruct H' as [x H']. discriminate H'.
      * eauto.
      * intros x y H. discriminate H.
    + split; [|split].
      * split; [intros (x & y & H); discriminate H|]. intro H. exfalso. inversion H as [|? ? H' _]; subst. apply HP in H'. destruct H' as [x H']. discriminate H'.
      * intros HC _. inversion HC as [|? ? HC' _]; subst. destruct (NP eq_refl) as (n & E1 & E2). exfalso. exact (HC' n E1 E2).
      * intros x y H. discriminate H.
Qed.
End WithLib.

(** ** ValidateRule *)
Section Validation.
Variable L : Lib.
Hypothesis HRegex : RegexSpec L.

Lemma converted_tree_same (r r' : rule L) : convert_fields L r = Ok r' -> ru_tree r' = ru_tree r.
Proof.
  unfold convert_fields. destruct (ru_converted r); [intro H; injection H as <-; reflexivity|]. intro H.
  apply rbind_ok in H. destruct H as (sl & _ & H). apply rbind_ok in H. destruct H as (rl & _ & H).
  destruct (re_compile L _); [|discriminate]. destruct (re_compile L _); [|discriminate]. injection H as <-. reflexivity.
Qed.

Theorem validation (r : rule L) ord t : fair ord -> underived L r -> (forall n, ru_tree r = Some n -> loaded_tree L n /\ well_quoted_tree L n) ->
  Forall pattern_ok [ru_sender_name r; ru_receiver_name r; ru_operation r; ru_resource_name r] ->
  ((exists t', validate_rule L ord r t = (Ok tt, t')) <-> valid_rule L r).
Proof.
  intros HF HU HT HP. assert (P : pattern_ok (ru_sender_name r) /\ pattern_ok (ru_receiver_name r) /\ pattern_ok (ru_operation r) /\ pattern_ok (ru_resource_name r)).
  { rewrite Forall_forall in HP. repeat split; apply HP; simpl; tauto. }
  destruct P as (P1 & P2 & P3 & P4).
  assert (HFT : faithful_tree L (ru_tree r)).
  { destruct (ru_tree r) as [n|] eqn:E; [|exact I]. destruct (HT n eq_refl) as [HL _]. exact (loaded_faithful L n HL). }
  destruct (rule_copied L ord r HF HU HFT t) as [t1 E]. unfold validate_rule, pbind. rewrite E. cbn [pret].
  assert (HC : (exists r', convert_fields L r = Ok r') <-> valid_side L (ru_sender_type r) (ru_sender_name r) /\ valid_side L (ru_receiver_type r) (ru_receiver_name r)).
  { rewrite (fields_convert L HRegex r); auto; [|apply HU]. rewrite (expands L HRegex _ _ P1), (expands L HRegex _ _ P2). reflexivity. }
  assert (HTR : forall n, ru_tree r = Some n -> ((exists n', prepare_node L empty_predef n = Ok n') <-> preparable_tree L empty_predef n)).
  { intros n EN. destruct (HT n EN) as [HL HW]. apply tree_preparable; auto. exact (loaded_made L n HL). }
  unfold valid_rule. rewrite <- HC. destruct (convert_fields L r) as [r'| |] eqn:EC.
  - cbn [pret]. rewrite (converted_tree_same _ _ EC). destruct (ru_tree r) as [n|] eqn:EN.
    + specialize (HTR n eq_refl). destruct (prepare_node L empty_predef n) as [n'| |]; cbn [rbind].
      * split; eauto. intros _. split; eauto. intros m Em. injection Em as <-. apply HTR. eauto.
      * split; [intros [x H]; discriminate H|]. intros [H _]. specialize (H n eq_refl). apply HTR in H. destruct H as [x H]. discriminate H.
      * split; [intros [x H]; discriminate H|]. intros [H _]. specialize (H n eq_refl). apply HTR in H. destruct H as [x H]. discriminate H.
    + split; eauto. intros _. split; eauto. discriminate.
  - split; [intros [x H]; discriminate H|]. intros [_ [x H]]. discriminate H.
  - split; [intros [x H]; discriminate H|]. intros [_ [x H]]. discriminate H.
Qed.

(** without references in the names it agrees with preparation from an empty dictionary *)
Theorem validation_preparation (r : rule L) : ~ starts "#" (ru_sender_name r) -> ~ starts "#" (ru_receiver_name r) ->
  (valid_rule L r <-> preparable_rule L empty_predef r).
Proof.
  intros H1 H2. assert (HN : forall type name, ~ starts "#" name -> (valid_side L type name <-> preparable_name L empty_predef type name)).
  { intros type name H. split.
    - intro HV. exists name. split; [apply rn_plain; exact H|exact HV].
    - intros (name' & HR & HX). inversion HR; subst; auto; exfalso; apply H; eexists; reflexivity. }
  unfold valid_rule, preparable_rule. rewrite (HN _ _ H1), (HN _ _ H2). reflexivity.
Qed.
End Validation.

(** ** Checks of rules loaded with a dictionary do not depend on the global one *)
Section Checks.
Variable L : Lib.
Hypothesis HRegex : RegexSpec L.
Hypothesis HCidr : CidrSpec L.
Hypothesis HNum : NumberSpec L.
Hypothesis HStar : jp_prepare L "$.*" <> None.
Hypothesis HRel : forall rest, jp_prepare L ("$RELATIVE" ++ rest) = None.
Variable p : predef.

Lemma load_states ord rs : fair ord -> Forall (ordinary L p) rs -> forall t ss t', load_with_predefined L ord p rs t = (Ok ss, t') ->
  Forall2 (fun r s => exists c, prepare_rule L p r = Ok c /\ s = mkRstate r p true (Some c)) rs ss.
Proof.
  intros HF HO. induction HO as [|r rs HR HO IH]; intros t ss t' H; cbn [load_with_predefined] in H.
  - injection H as <- _. constructor.
  - destruct (ordinary_set L p r ord t HF HR) as [t1 E]. rewrite E in H. destruct (prepare_rule L p r) as [c| |] eqn:EP; try discriminate H.
    destruct (load_with_predefined L ord p rs t1) as [[ss'| |] t2] eqn:EL; try discriminate H. injection H as <- _. constructor.
    + exists c. split; [exact EP|reflexivity].
    + eapply IH. exact EL.
Qed.

Lemma run_states ord g rs ss m : fair ord -> ascii_message m -> Forall (fun r => rule_covered L p r m) rs ->
  Forall2 (fun r s => exists c, prepare_rule L p r = Ok c /\ s = mkRstate r p true (Some c)) rs ss -> forall t,
  exists xs e, run_rules L ord g ss (mkEst m t) = (Some xs, e) /\ Forall2 (fun r x => verdict L p r m (fst x)) rs xs.
Proof.
  intros HF HA HC HS. induction HS as [|r s rs ss (c & HP & ->) HS IH]; intro t; cbn [run_rules].
  - exists [], (mkEst m t). split; [reflexivity|constructor].
  - inversion HC as [|? ? HC1 HC2]; subst. destruct (prepared_verdict L HRegex HCidr HNum HStar HRel p ord r c m t HF HA HC1 HP) as (d & x & [m' t'] & HE & HV).
    assert (E : check_one_rule L ord g (mkRstate r p true (Some c)) (mkEst m t) = (Some ((d, x), mkRstate r p true (Some c)), mkEst m' t')).
    { unfold check_one_rule, mbind, ensure_prepared. cbn [rs_ready rs_prepared]. unfold mret. rewrite HE. reflexivity. }
    pose proof (check_one_rule_msg L ord g _ _ _ _ E) as EM. cbn in EM. subst m'.
    destruct (IH HC2 t') as (xs & e & E2 & HX). exists ((d, x) :: xs), e. split; [|constructor; auto].
    unfold mbind. rewrite E. rewrite E2. reflexivity.
Qed.

Theorem loaded_check ord ord' g rs m t u ss t' : fair ord -> fair ord' -> ascii_message m ->
  Forall (ordinary L p) rs -> Forall (fun r => rule_covered L p r m) rs ->
  load_with_predefined L ord' p rs u = (Ok ss, t') ->
  exists o e, check L ord g ss (mkEst m t) = (Some o, e) /\
    Forall2 (fun r d => verdict L p r m d) rs (out_results o) /\ decision_is_strictest (out_results o) (out_decision o).
Proof.
  intros HF HF' HA HO HC HL. pose proof (load_states ord' rs HF' HO u ss t' HL) as HS.
  destruct (run_states ord g rs ss m HF HA HC HS t) as (xs & e & E & HX).
  assert (EC : check L ord g ss (mkEst m t) = (Some (summarise L ss xs), e)) by (unfold check, mbind; rewrite E; reflexivity).
  eexists _, e. split; [exact EC|]. split.
  - cbn [summarise out_results]. clear - HX. induction HX; constructor; auto.
  - apply (check_decision _ _ _ _ _ _ _ _ EC).
Qed.
End Checks.

(** ** Plain values *)
Theorem plain_preparable L att method value k : RegexSpec L -> method_is method k -> k <> KIn -> k <> KNin -> ~ starts "jsonpath:" att ->
  all_chars plain_char value -> ~ starts "#" value -> acceptable L att method value -> forall p, preparable L p att method value.
Proof.
  intros HR HM N1 N2 HJ HV HH HA p. exists value. split; [apply rp_plain; exact HH|]. split; [exact HA|]. 
  assert (HI : ~ In method ["IN"; "NIN"; "IS"]) by (intro HI; clear -HM N1 N2 HI; method_cases HM; simpl in HI; intuition congruence).
  split; [intro E; exfalso; apply HI; rewrite E; simpl; tauto|]. split.
  - intros _. unfold whole_value. replace (is_any method ["IN"; "NIN"]) with false by (symmetry; apply is_any_false; simpl in *; tauto).
    replace (String.eqb method "IS") with false by (symmetry; apply String.eqb_neq; simpl in HI; intuition congruence).
    destruct (HR ("^" ++ value ++ "$") (exact value)) as (re & E & _); [|congruence]. apply pt_alt, al_one, exact_text. exact HV.
  - intros path rel q E. exfalso. apply HJ. exists path. exact E.
Qed.

(** ** Statements about texts *)
Lemma validate_keeps (L : Lib) (c c' : cond L) : validate_condition L c = Ok c' ->
  c_attr c' = c_attr c /\ c_method c' = c_method c /\ c_value c' = c_value c /\ c_jp c' = c_jp c.
Proof.
  intro H. unfold validate_condition, validate_numerical in H.
  destruct (validate_attribute _ _ _) as [[]| |]; try discriminate. cbn [rbind] in *. destruct (validate_method L _ _) as [[]| |]; try discriminate. cbn [rbind] in *.
  destruct (negb _ && _); [discriminate|]. destruct (negb _ && _); [discriminate|]. injection H as <-. destruct c. repeat split.
Qed.
Lemma prepares_iff (L : Lib) p att method value ret : well_quoted att ->
  ((exists c, prepares L p att method value ret c) <-> acceptable L att method value /\ preparable L p att method value).
Proof.
  intro HQ. unfold prepares. split.
  - intros (c & c0 & HV & HP). split; [apply (condition_accepted L _ _ _ ret); eauto|]. destruct (validate_keeps L _ _ HV) as (E1 & E2 & E3 & E4). cbn in E1, E2, E3, E4.
    rewrite <- E1, <- E2, <- E3. apply condition_prepares; [exact E4|rewrite E1; exact HQ|eauto].
  - intros [HA HP]. apply (condition_accepted L _ _ _ ret) in HA. destruct HA as [c0 HV]. destruct (validate_keeps L _ _ HV) as (E1 & E2 & E3 & E4). cbn in E1, E2, E3, E4.
    rewrite <- E1, <- E2, <- E3 in HP. apply condition_prepares in HP; [|exact E4|rewrite E1; exact HQ]. destruct HP as [c HP]. eauto.
Qed.
Lemma read_preparable (L : Lib) p v n : go_value v -> reads L "" v n -> well_quoted_tree L n ->
  ((exists n', prepare_node L p n = Ok n') <-> preparable_tree L p n).
Proof.
  intros HG HR HW. destruct (grammar_some_order L v n 0 HG HR) as (ord & t & HF & HL). apply tree_preparable; [|exact HW]. eapply tree_made; eauto.
Qed.
Lemma check_written (L : Lib) p ord rules m t : RegexSpec L -> CidrSpec L -> NumberSpec L -> jp_prepare L "$.*" <> None ->
  (forall rest, jp_prepare L ("$RELATIVE" ++ rest) = None) -> fair ord -> ascii_message m ->
  (forall r, In r rules -> ordinary L p r /\ preparable_rule L p r /\ rule_covered L p r m) ->
  exists o e, check L ord p (map (load_rule L) rules) (mkEst m t) = (Some o, e) /\
    Forall2 (fun r d => verdict L p r m d) rules (out_results o) /\ decision_is_strictest (out_results o) (out_decision o).
Proof.
  intros H1 H2 H3 H4 H5 HF HA HG. apply check_verdict; auto. intros r HR. destruct (HG r HR) as (HO & HP & HC).
  split; [exact HC|]. apply (ordinary_preparable L p H1 r HO). exact HP.
Qed.
Lemma loaded_check_written (L : Lib) p ord ord' g rules m t u : RegexSpec L -> CidrSpec L -> NumberSpec L -> jp_prepare L "$.*" <> None ->
  (forall rest, jp_prepare L ("$RELATIVE" ++ rest) = None) -> fair ord -> fair ord' -> ascii_message m ->
  Forall (ordinary L p) rules -> Forall (preparable_rule L p) rules -> Forall (fun r => rule_covered L p r m) rules ->
  exists ss t' o e, load_with_predefined L ord' p rules u = (Ok ss, t') /\ check L ord g ss (mkEst m t) = (Some o, e) /\
    Forall2 (fun r d => verdict L p r m d) rules (out_results o) /\ decision_is_strictest (out_results o) (out_decision o).
Proof.
  intros H1 H2 H3 H4 H5 HF HF' HA HO HP HC. destruct (list_loads L p H1 ord' rules HF' HO u) as ([_ HL] & _ & _).
  destruct (HL HP) as (ss & t' & E). destruct (loaded_check L H1 H2 H3 H4 H5 p ord ord' g rules m t u ss t' HF HF' HA HO HC E) as (o & e & R).
  exists ss, t', o, e. split; [exact E|exact R].
Qed.

(** ** The prepared rule, and preparation of lists in place *)
Section Prepared.
Variable L : Lib.
Variable p : predef.
Hypothesis HRegex : RegexSpec L.
Lemma prepared_from_ok (r r' : rule L) : prepare_rule L p r = Ok r' -> prepared_from L p r r'.
Proof.
  intro H. apply rule_texts in H. destruct H as (H1 & H2 & H3 & E1 & E2 & E3 & E4 & E5 & E6 & E7 & E8 & E9 & E10).
  constructor; auto. congruence.
Qed.
Lemma prepared_get (r : rule L) s ord t : fair ord -> ordinary L p r -> rs_rule s = r ->
  match set_predefined L ord p s t with
  | (Ok _, s', _) => exists c, get_prepared L s' = Some c /\ prepared_from L p r c
  | (_, s', _) => get_prepared L s' = Some (empty_rule L)
  end.
Proof.
  intros HF HO <-. destruct (rule_copied L ord (rs_rule s) HF (or_new _ _ _ HO) (ordinary_faithful L p _ HO) t) as [t' E].
  unfold set_predefined. rewrite E. destruct (prepare_rule L p (rs_rule s)) as [c| |] eqn:EP; try reflexivity. exists c. split; [reflexivity|]. apply prepared_from_ok. exact EP.
Qed.
Lemma prepares_list (rs : list (rule L)) : Forall (ordinary L p) rs ->
  ((exists rs', prepare_rules L p rs = Ok rs') <-> Forall (preparable_rule L p) rs) /\
  (Forall (complete L) rs -> ~ Forall (preparable_rule L p) rs -> prepare_rules L p rs = Err) /\
  (forall rs', prepare_rules L p rs = Ok rs' -> Forall2 (prepared_from L p) rs rs').
Proof.
  induction 1 as [|r rs HO HOs (IH1 & IH2 & IH3)]; cbn [prepare_rules].
  - split; [split; [constructor|eauto]|]. split; [intros _ H; exfalso; apply H; constructor|]. intros rs' H. injection H as <-. constructor.
  - pose proof (ordinary_preparable L p HRegex r HO) as HP. pose proof (rule_no_panic L p r) as NP. destruct (prepare_rule L p r) as [c| |] eqn:EP; cbn [rbind].
    + assert (HR : preparable_rule L p r) by (apply HP; eauto). split; [|split].
      * split.
        -- intros [rs' H]. apply rbind_ok in H. destruct H as (x & H & _). constructor; [exact HR|]. apply IH1. eauto.
        -- intro H. inversion H; subst. destruct (proj2 IH1) as [x E]; [assumption|]. rewrite E. cbn [rbind]. eauto.
      * intros HC HN. inversion HC; subst. rewrite IH2; [reflexivity|assumption|]. intro H. apply HN. constructor; assumption.
      * intros rs' H. apply rbind_ok in H. destruct H as (x & H & E). injection E as <-. constructor; [apply prepared_from_ok; exact EP|apply IH3; exact H].
    + assert (HR : ~ preparable_rule L p r) by (rewrite <- HP; intros [x E]; discriminate E). split; [|split].
      * split; [intros [x E]; discriminate E|intro H; inversion H; subst; contradiction].
      * reflexivity.
      * intros rs' E. discriminate E.
    + assert (HR : ~ preparable_rule L p r) by (rewrite <- HP; intros [x E]; discriminate E). split; [|split].
      * split; [intros [x E]; discriminate E|intro H; inversion H; subst; contradiction].
      * intros HC _. inversion HC as [|? ? HC1 _]; subst. destruct (NP eq_refl) as (n & E1 & E2). exfalso. exact (HC1 n E1 E2).
      * intros rs' E. discriminate E.
Qed.
End Prepared.
