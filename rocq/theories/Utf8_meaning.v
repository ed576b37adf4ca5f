(** Checks of freshly loaded rules whose texts are UTF-8 agree with the meaning of the rules as written. *)
From Coq Require Import List String Ascii Bool Arith ZArith Permutation Lia.
From Verif Require Import Base GoStr GoStr_facts GoFloat Types Json StrUtils Validate Prepare Parse Marshal Lifecycle Eval Check Spec_Tree Tree_proofs Tree_truth Spec_Extra Tree_laws
  Spec_Decision Check_proofs Spec_Regex Spec_Glob Glob_proofs Spec_Match Match_proofs Names_proofs Spec_Leaf Number_proofs Leaf_proofs Leaf_laws Spec_Validate Validate_proofs Prepare_proofs
  Spec_Load Load_proofs Spec_Copy Copy_proofs Spec_Grammar Grammar_proofs Grammar_tree Spec_Meaning Meaning_proofs Meaning_rules Spec_Utf8 Spec_Utf8Meaning Utf8_proofs Utf8_names.
Import ListNotations.
Open Scope string_scope.

Section WithLib.
Variable L : Lib.
Hypothesis HRegex : Utf8RegexSpec L.
Hypothesis HCidr : CidrSpec L.
Hypothesis HNum : NumberSpec L.
Hypothesis HStar : jp_prepare L "$.*" <> None.
Hypothesis HRel : forall rest, jp_prepare L ("$RELATIVE" ++ rest) = None.
Variable p : predef.

Lemma sender_iff8 r c m : ru_converted r = false -> prepare_rule L p r = Ok c -> side_covered8 p (ru_sender_type r) (ru_sender_name r) -> utf8_message m ->
  (sender_matches L c m <-> sender_accepts8 L p r m).
Proof.
  intros HV HP HC HA. pose proof (rule_texts L p _ _ HP) as (HN & _).
  assert (A : utf8 (m_source_service m)) by (inversion HA; auto).
  assert (U : forall name, replaced_name p (ru_sender_name r) name -> name = ru_sender_name c) by (intros; eapply replaced_name_unique; eauto).
  unfold sender_accepts8, side_accepts8. destruct (in_dec string_dec (ru_sender_type r) ["*"; "workload"]) as [I|I].
  - assert (NS : ru_sender_type r <> "subnet") by (intro E; rewrite E in I; simpl in I; intuition discriminate).
    destruct HC as [HC|HC]; [congruence|].
    rewrite (sender_names8 L HRegex p r c m HV HP I (HC _ HN) A). split.
    + intro H. exists (ru_sender_name c). split; auto. left. exists (m_source_service m). split; auto. destruct I as [<-|[<-|[]]]; [left|right; left]; reflexivity.
    + intros (name & HR & [(text & HI & HX)|[E _]]); [|congruence]. rewrite (U _ HR) in HX.
      simpl in HI. destruct HI as [E|[E|[]]]; injection E as _ <-; auto.
  - destruct (string_dec (ru_sender_type r) "subnet") as [E|E].
    + rewrite (sender_subnets L p r c m HV HP E). split.
      * intro H. exists (ru_sender_name c). split; auto.
      * intros (name & HR & [(text & HI & HX)|[_ HX]]).
        -- simpl in HI. destruct HI as [E'|[E'|[]]]; injection E' as E' _; congruence.
        -- rewrite (U _ HR) in HX. auto.
    + split.
      * intro H. exfalso. revert H. apply (sender_other_type L p r c m HV HP). simpl in I |- *. intuition congruence.
      * intros (name & HR & [(text & HI & HX)|[E' _]]); [|congruence]. exfalso. apply I. simpl in HI |- *. intuition congruence.
Qed.
Lemma receiver_iff8 r c m : ru_converted r = false -> prepare_rule L p r = Ok c -> side_covered8 p (ru_receiver_type r) (ru_receiver_name r) -> utf8_message m ->
  (receiver_matches L c m <-> receiver_accepts8 L p r m).
Proof.
  intros HV HP HC HA. pose proof (rule_texts L p _ _ HP) as (_ & HN & _).
  assert (A : utf8 (m_dest_service m) /\ utf8 (m_host m)) by (unfold utf8_message in HA; rewrite Forall_forall in HA; split; apply HA; simpl; tauto).
  destruct A as [A A'].
  assert (U : forall name, replaced_name p (ru_receiver_name r) name -> name = ru_receiver_name c) by (intros; eapply replaced_name_unique; eauto).
  unfold receiver_accepts8, side_accepts8. destruct (in_dec string_dec (ru_receiver_type r) ["*"; "workload"]) as [I|I].
  - assert (NS : ru_receiver_type r <> "subnet" /\ ru_receiver_type r <> "hostname") by (split; intro E; rewrite E in I; simpl in I; intuition discriminate).
    destruct NS as [NS NH]. destruct HC as [HC|HC]; [congruence|].
    rewrite (receiver_names8 L HRegex p r c m HV HP I (HC _ HN) A). split.
    + intro H. exists (ru_receiver_name c). split; auto. left. exists (m_dest_service m). split; auto. destruct I as [<-|[<-|[]]]; [left|right; left]; reflexivity.
    + intros (name & HR & [(text & HI & HX)|[E _]]); [|congruence]. rewrite (U _ HR) in HX.
      simpl in HI. destruct HI as [E|[E|[E|[]]]]; injection E as E <-; auto. congruence.
  - destruct (string_dec (ru_receiver_type r) "hostname") as [EH|EH].
    { destruct HC as [HC|HC]; [congruence|]. rewrite (receiver_hosts8 L HRegex p r c m HV HP EH (HC _ HN) A'). split.
      - intro H. exists (ru_receiver_name c). split; auto. left. exists (m_host m). split; auto. simpl. rewrite EH. auto.
      - intros (name & HR & [(text & HI & HX)|[E _]]); [|congruence]. rewrite (U _ HR) in HX.
        simpl in HI. destruct HI as [E|[E|[E|[]]]]; injection E as E <-; auto; congruence. }
    destruct (string_dec (ru_receiver_type r) "subnet") as [E|E].
    + rewrite (receiver_subnets L p r c m HV HP E). split.
      * intro H. exists (ru_receiver_name c). split; auto.
      * intros (name & HR & [(text & HI & HX)|[_ HX]]).
        -- simpl in HI. destruct HI as [E'|[E'|[E'|[]]]]; injection E' as E' _; congruence.
        -- rewrite (U _ HR) in HX. auto.
    + split.
      * intro H. exfalso. revert H. apply (receiver_other_type L p r c m HV HP). simpl in I |- *. intuition congruence.
      * intros (name & HR & [(text & HI & HX)|[E' _]]); [|congruence]. exfalso. simpl in HI, I. intuition congruence.
Qed.

(** ** A prepared rule *)
Theorem prepared_verdict8 ord r c m t : fair ord -> utf8_message m -> rule_covered8 L p r m -> prepare_rule L p r = Ok c ->
  exists d x e, check_prepared L ord c (mkEst m t) = (Some (d, x), e) /\ verdict8 L p r m d.
Proof.
  intros HF HA HC HP. destruct HC as [HU HS HR HO (HE & HE1) HT].
  assert (HV : ru_converted r = false) by (destruct HU as (_ & _ & _ & _ & E); exact E).
  pose proof (prepared_ready L HCidr p r c HV HP) as RDY.
  pose proof (rule_texts L p _ _ HP) as (_ & _ & _ & _ & _ & _ & _ & _ & _ & _ & ED & _).
  pose proof (prepared_rule_tree L p _ _ HP) as TR.
  assert (A : utf8 (m_method m) /\ utf8 (m_path m) /\ utf8 (m_dest_port m))
    by (unfold utf8_message in HA; rewrite Forall_forall in HA; repeat split; apply HA; simpl; tauto).
  destruct A as (A1 & A2 & A3).
  pose proof (sender_iff8 r c m HV HP HS HA) as I1. pose proof (receiver_iff8 r c m HV HP HR HA) as I2.
  pose proof (operation_texts8 L HRegex p r c m HV HP HO A1) as I3.
  pose proof (resource_texts8 L HRegex p r c m HV HP HE HE1 A2 A3) as I4. fold (resource_accepts8 L r m) in I4.
  destruct (check_prepared L ord c (mkEst m t)) as [[[d x]|] e] eqn:E.
  2:{ exfalso. destruct (rule_panic L ord c m t e RDY E) as (n' & E1 & E2). destruct (ru_tree r) as [n|] eqn:ET; [|congruence].
      destruct TR as (n'' & E3 & E4). assert (n'' = n') as -> by congruence. destruct (HT n eq_refl) as [HL HCv].
      apply (tree_no_panic L HNum HStar p n n' m HRel (loaded_made L _ HL) E4 HCv).
      exists ord, t, (snd (eval L ord n' (mkEst m t))). split; auto. rewrite <- E2. apply surjective_pairing. }
  exists d, x, e. split; auto. destruct (rule_result L ord c m t d x e RDY E) as (R0 & R1 & R2).
  assert (I5 : (d <> 0 \/ (sender_matches L c m /\ receiver_matches L c m /\ operation_matches L c m /\ resource_matches L c m)) ->
     ((exists y, conditions_hold L ord c m t y) <-> match ru_tree r with None => True | Some n => means L p n m end)).
  { intros _. unfold conditions_hold. destruct (ru_tree r) as [n|] eqn:ET.
    - destruct TR as (n' & E3 & E4). rewrite E3. destruct (HT n eq_refl) as [HL HCv].
      pose proof (tree_no_panic L HNum HStar p n n' m HRel (loaded_made L _ HL) E4 HCv) as NP.
      destruct (eval L ord n' (mkEst m t)) as [[[b y]|] e'] eqn:EE; [|exfalso; apply NP; exists ord, t, e'; auto].
      assert (HB : may_return L n' m b) by (exists ord, t, y, e'; auto).
      rewrite <- (tree_meaning L HNum HStar p n n' m b (loaded_made L _ HL) E4 HCv HB). cbn [fst]. split.
      + intros [z Ez]. congruence.
      + intros ->. eauto.
    - rewrite TR. split; auto. intros _. exists []. auto. }
  rewrite ED in *. destruct (Nat.eq_dec d 0) as [->|ND].
  - right. split; auto.
    destruct (word_or_not (ru_decision r)) as [W|W]; [left|right; exact W].
    intros (H1 & H2 & H3 & H4 & H5). assert (X : 0 <> 0); [|congruence]. apply R1.
    apply I1 in H1. apply I2 in H2. apply I3 in H3. apply I4 in H4. repeat (split; [assumption|]). split; [apply I5; auto|exact W].
  - left. destruct (R2 ND) as [W _]. split; auto. apply R1 in ND. destruct ND as (H1 & H2 & H3 & H4 & H5 & _).
    repeat split; [apply I1; auto|apply I2; auto|apply I3; auto|apply I4; auto|]. apply I5; auto.
Qed.

(** ** Freshly loaded rules *)
Definition good_rule8 (r : rule L) (m : message) : Prop := rule_covered8 L p r m /\ exists c, prepare_rule L p r = Ok c.

Theorem loaded_verdict8 ord r m t : fair ord -> utf8_message m -> good_rule8 r m ->
  exists d x s e, check_one_rule L ord p (load_rule L r) (mkEst m t) = (Some ((d, x), s), e) /\ verdict8 L p r m d.
Proof.
  intros HF HA [HC [c HP]].
  assert (FT : faithful_tree L (ru_tree r)).
  { destruct (ru_tree r) as [n|] eqn:ET; [|exact I]. apply loaded_faithful. apply (rc8_tree _ _ _ _ HC n ET). }
  destruct (rule_copied L ord r HF (rc8_new _ _ _ _ HC) FT t) as [t' E].
  destruct (prepared_verdict8 ord r c m t' HF HA HC HP) as (d & x & e & HE & HV).
  exists d, x. unfold check_one_rule, mbind, ensure_prepared, set_predefined. cbn [load_rule rs_rule rs_ready e_tick e_msg]. rewrite E, HP. cbn [rs_prepared].
  rewrite HE. eexists _, _. split; [reflexivity|exact HV].
Qed.
Lemma run_loaded8 ord rules m t : fair ord -> utf8_message m -> (forall r, In r rules -> good_rule8 r m) ->
  exists xs e, run_rules L ord p (map (load_rule L) rules) (mkEst m t) = (Some xs, e) /\ Forall2 (fun r x => verdict8 L p r m (fst x)) rules xs.
Proof.
  intros HF HA. revert t. induction rules as [|r rules IH]; intros t HG; cbn [map run_rules].
  - exists [], (mkEst m t). split; [reflexivity|constructor].
  - destruct (loaded_verdict8 ord r m t HF HA (HG r (or_introl eq_refl))) as (d & x & s & e & E & HV).
    pose proof (check_one_rule_msg L ord p _ _ _ _ E) as EM. cbn in EM. destruct e as [m' t']. cbn in EM. subst m'.
    destruct (IH t' (fun r H => HG r (or_intror H))) as (xs & e & E2 & HX). exists ((d, x) :: xs), e. split; [|constructor; auto].
    unfold mbind. rewrite E. rewrite E2. reflexivity.
Qed.

Theorem check_verdict8 ord rules m t : fair ord -> utf8_message m -> (forall r, In r rules -> good_rule8 r m) ->
  exists o e, check L ord p (map (load_rule L) rules) (mkEst m t) = (Some o, e) /\
    Forall2 (fun r d => verdict8 L p r m d) rules (out_results o) /\ decision_is_strictest (out_results o) (out_decision o).
Proof.
  intros HF HA HG. destruct (run_loaded8 ord rules m t HF HA HG) as (xs & e & E & HX).
  assert (EC : check L ord p (map (load_rule L) rules) (mkEst m t) = (Some (summarise L (map (load_rule L) rules) xs), e)) by (unfold check, mbind; rewrite E; reflexivity).
  eexists _, e. split; [exact EC|]. split.
  - cbn [summarise out_results]. clear - HX. induction HX; constructor; auto.
  - apply (check_decision _ _ _ _ _ _ _ _ EC).
Qed.

(** the meaning leaves no choice *)
Lemma verdict_unique8 r m d d' : verdict8 L p r m d -> verdict8 L p r m d' -> d = d'.
Proof.
  intros [[H1 H2]|[H1 ->]] [[H3 H4]|[H3 ->]]; auto.
  - destruct H2 as [[-> H2]|[[-> H2]|[-> H2]]], H4 as [[-> H4]|[[-> H4]|[-> H4]]]; auto; intuition congruence.
  - destruct H3 as [H3|H3]; [tauto|]. exfalso. eapply H3; eauto.
  - destruct H1 as [H1|H1]; [tauto|]. exfalso. eapply H1; eauto.
Qed.
End WithLib.

(** preparing a covered rule through the API *)
Lemma set_prepares8 L p ord r m t u s t' : fair ord -> rule_covered8 L p r m -> set_predefined L ord p (load_rule L r) t = (Ok u, s, t') -> good_rule8 L p r m.
Proof.
  intros HF HC HS. split; auto.
  assert (FT : faithful_tree L (ru_tree r)).
  { destruct (ru_tree r) as [n|] eqn:ET; [|exact I]. apply loaded_faithful. apply (rc8_tree _ _ _ _ HC n ET). }
  destruct (prepared_copy L ord p r HF (rc8_new _ _ _ _ HC) FT t) as [E _]. rewrite HS in E. cbn [fst] in E.
  destruct (prepare_rule L p r) as [c| |]; try discriminate E. eauto.
Qed.
