(** The rules of a JSON document are determined, and Check on them. *)
From Coq Require Import List String Ascii Bool Arith ZArith Permutation Lia.
From Verif Require Import Base GoStr GoFloat Types Json StrUtils Validate Prepare Parse Marshal Lifecycle Lifecycle_proofs Eval Check
  Spec_Tree Spec_Leaf Spec_Regex Spec_Load Load_proofs Decode_proofs Spec_Copy Spec_Grammar Grammar_proofs Grammar_tree Grammar_loads Spec_Lifecycle Prepare_proofs Spec_Decision Spec_Meaning Spec_Match Spec_Accept Accept_proofs Accept_rules
  JsonDoc Spec_JsonDoc JsonDoc_proofs JsonDoc_structs JsonDoc_rules.
From Verif Require Spec_Json Json_proofs.
Import ListNotations.
Open Scope string_scope.
Local Arguments String.prefix : simpl never.

Section WithLib.
Variable L : Lib.
Lemma opt_text_fun m k s s' : distinct m -> opt m k "" says_text s -> opt m k "" says_text s' -> s' = s.
Proof. intros HD. apply opt_fun; auto. intros y z z' _. apply text_fun. Qed.
Lemma names_fun nk tk j x x' : (forall raw m, j = JObj raw m -> distinct m) -> says_names nk tk j x -> says_names nk tk j x' -> x' = x.
Proof.
  intros HC [(-> & ->)|(raw & m & -> & H1 & H2)] [(E & ->)|(raw' & m' & E & H1' & H2')]; try discriminate E; auto.
  injection E as <- <-. specialize (HC raw m eq_refl). rewrite (surjective_pairing x), (surjective_pairing x'). f_equal; eapply opt_text_fun; eauto.
Qed.
Lemma tree_fun j x x' : (forall v, Spec_Json.document L v (raw_of j) -> single v) -> says_tree L j x -> says_tree L j x' -> x' = x.
Proof.
  intros HS H H'. destruct H as [j HI|j v n HI HD HR]; destruct H' as [j HI'|j v' n' HI' HD' HR']; try contradiction; auto.
  pose proof (HS v HD) as HV. apply Json_proofs.parse_iff in HD. apply Json_proofs.parse_iff in HD'. assert (v' = v) as -> by congruence. pose proof (parsed_go_value _ _ _ HD) as HG.
  assert (HF : fair (fun (_ : nat) (ks : list string) => ks)) by (intros t ks; apply Permutation_refl).
  destruct (grammar_every_order L _ v n 0 HF HG HV HR) as [t1 E1]. destruct (grammar_every_order L _ v n' 0 HF HG HV HR') as [t2 E2]. congruence.
Qed.
Lemma rule_fun m r r' : distinct_rule m -> (forall c v, at_key m "conditions" c -> Spec_Json.document L v (raw_of c) -> single v) ->
  says_rule L m r -> says_rule L m r' -> underived L r -> underived L r' -> r' = r.
Proof.
  intros (HD & HC & HM) HS [R1 R2 R3 R4 R5 R6 R7 R8 R9 R10] [Q1 Q2 Q3 Q4 Q5 Q6 Q7 Q8 Q9 Q10] (U1 & U2 & U3 & U4 & U5) (V1 & V2 & V3 & V4 & V5).
  pose proof (opt_text_fun _ _ _ _ HD R1 Q1) as E1. pose proof (opt_text_fun _ _ _ _ HD R4 Q4) as E4. pose proof (opt_text_fun _ _ _ _ HD R6 Q6) as E6.
  pose proof (opt_text_fun _ _ _ _ HD R8 Q8) as E8. pose proof (opt_text_fun _ _ _ _ HD R10 Q10) as E10.
  assert (N : forall k nk tk x x', In k ["sender"; "receiver"; "resource"] -> opt m k ("", "") (says_names nk tk) x -> opt m k ("", "") (says_names nk tk) x' -> x' = x).
  { intros k nk tk x x' HI. apply opt_fun; auto. intros y z z' HY. apply names_fun. intros raw s ->. eauto. }
  pose proof (N _ _ _ _ _ (or_introl eq_refl) R2 Q2) as E2. pose proof (N _ _ _ _ _ (or_intror (or_introl eq_refl)) R3 Q3) as E3.
  pose proof (N _ _ _ _ _ (or_intror (or_intror (or_introl eq_refl))) R5 Q5) as E5.
  assert (E7 : ru_tree r' = ru_tree r).
  { revert R7 Q7. apply opt_fun; auto. intros y z z' HY. apply tree_fun. intros v HV. exact (HS y v HY HV). }
  assert (E9 : ru_metadata r' = ru_metadata r).
  { revert R9 Q9. apply opt_fun; auto. intros y z z' HY HZ HZ'. assert (HK : forall raw s, y = JObj raw s -> NoDup (keys s)) by (intros raw s ->; eauto).
    apply map_exact in HZ; auto. apply map_exact in HZ'; auto. congruence. }
  clear R1 R2 R3 R4 R5 R6 R7 R8 R9 R10 Q1 Q2 Q3 Q4 Q5 Q6 Q7 Q8 Q9 Q10 N. destruct r, r'. cbn in *. injection E2 as ? ?. injection E3 as ? ?. injection E5 as ? ?. subst. reflexivity.
Qed.
Lemma one_fun j r r' : (forall raw m, j = JObj raw m -> distinct_rule m) -> (forall raw m c v, j = JObj raw m -> at_key m "conditions" c -> Spec_Json.document L v (raw_of c) -> single v) ->
  says_one L j r -> says_one L j r' -> underived L r -> underived L r' -> r' = r.
Proof.
  intros HC HS [(-> & HR)|(raw & m & -> & HR)] [(E & HR')|(raw' & m' & E & HR')] HU HU'; try discriminate E.
  - destruct HU as (U1 & U2 & U3 & U4 & U5), HU' as (V1 & V2 & V3 & V4 & V5).
    destruct HR as (R1 & R2 & R3 & R4 & R5 & R6 & R7 & R8 & R9 & R10 & R11 & R12 & R13), HR' as (Q1 & Q2 & Q3 & Q4 & Q5 & Q6 & Q7 & Q8 & Q9 & Q10 & Q11 & Q12 & Q13).
    clear HC HS E. destruct r, r'. cbn in *. subst. reflexivity.
  - injection E as <- <-. apply (rule_fun m); auto; [eauto|]. intros c v. eapply HS. reflexivity.
Qed.
Theorem rules_unique j rs rs' : distinct_rules j -> single_trees L j -> says_rules L j rs -> says_rules L j rs' -> Forall (underived L) rs -> Forall (underived L) rs' -> rs' = rs.
Proof.
  intros [HD HR] HS [(-> & ->)|(raw & m & -> & HO)] [(E & ->)|(raw' & m' & E & HO')] HU HU'; try discriminate E; auto.
  injection E as <- <-. specialize (HD raw m eq_refl). destruct HO as [[HN ->]|(j & HJ & HL)].
  - symmetry. destruct HO' as [[_ ->]|(j & HJ & _)]; auto. destruct (HN j HJ).
  - pose proof (opt_at _ _ _ _ _ _ HD HO' HJ) as HX. destruct HL as [|raw' l xs HF]; inversion HX as [|? ? xs' HF']; subst; auto.
    assert (HI : forall raw'' m', In (JObj raw'' m') l -> rule_in (JObj raw m) m') by (intros; exists raw, m, raw', l, raw''; auto).
    assert (HRl : forall raw'' m', In (JObj raw'' m') l -> distinct_rule m') by (intros; apply HR; eauto).
    assert (HSl : forall raw'' m' c v, In (JObj raw'' m') l -> at_key m' "conditions" c -> Spec_Json.document L v (raw_of c) -> single v).
    { intros raw'' m' c v H1 H2 H3. apply (HS c v); auto. exists m'. eauto. }
    clear -HF HF' HU HU' HRl HSl. revert rs' HF' HU'. induction HF as [|y r l rs HR _ IH]; intros rs' HF' HU'; inversion HF'; subst; auto.
    inversion HU; inversion HU'; subst. f_equal.
    * eapply one_fun; eauto; [intros raw m ->; eapply HRl; left; reflexivity|intros raw m c v ->; eapply HSl; left; reflexivity].
    * apply IH; auto; [intros raw m HI; eapply HRl; right; eauto|intros raw m c v HI; eapply HSl; right; eauto].
Qed.
Theorem rules_exact ord re_text exp_in s j t rs : fair ord -> is_document j s -> distinct_rules j -> plain_document j -> single_trees L j ->
  (exists t', json_rules L ord re_text exp_in s t = (Ok rs, t')) <-> says_rules L j rs /\ Forall (underived L) rs.
Proof.
  intros HF HJ HC HP HS. split.
  - intros [t' E]. destruct (rules_sound L ord re_text exp_in HF s j t rs t' HJ HC E) as [H1 H2]. auto.
  - intros [H1 H2]. destruct (rules_accepted L ord re_text exp_in HF s j rs t HJ HC HP H1) as (rs' & t' & E). exists t'.
    destruct (rules_sound L ord re_text exp_in HF s j t rs' t' HJ HC E) as [H1' H2']. rewrite (rules_unique j rs' rs HC HS H1' H1 (H2' HP) H2). exact E.
Qed.
(** Check on the rules of a document *)
Theorem texts_check p ord ord' g re_text exp_in s j m t u : RegexSpec L -> CidrSpec L -> NumberSpec L -> jp_prepare L "$.*" <> None ->
  (forall rest, jp_prepare L ("$RELATIVE" ++ rest) = None) -> fair ord -> fair ord' -> ascii_message m ->
  is_document j s -> distinct_rules j -> plain_document j -> (exists rs, says_rules L j rs) ->
  (forall rs, says_rules L j rs -> Forall (underived L) rs -> Forall (ordinary L p) rs /\ Forall (preparable_rule L p) rs /\ Forall (fun r => rule_covered L p r m) rs) ->
  exists rs ss t' o e, says_rules L j rs /\ (pdo rs <- json_rules L ord' re_text exp_in s; load_with_predefined L ord' p rs) u = (Ok ss, t') /\ check L ord g ss (mkEst m t) = (Some o, e) /\
    Forall2 (fun r d => verdict L p r m d) rs (out_results o) /\ decision_is_strictest (out_results o) (out_decision o).
Proof.
  intros H1 H2 H3 H4 H5 HF HF' HM HJ HC HP [rs0 HR0] HX. destruct (rules_accepted L ord' re_text exp_in HF' s j rs0 u HJ HC HP HR0) as (rs & u1 & E).
  destruct (rules_sound L ord' re_text exp_in HF' s j u rs u1 HJ HC E) as [HR HU]. specialize (HU HP). destruct (HX rs HR HU) as (O1 & O2 & O3).
  destruct (loaded_check_written L p ord ord' g rs m t u1 H1 H2 H3 H4 H5 HF HF' HM O1 O2 O3) as (ss & t' & o & e & E1 & E2 & E3 & E4).
  exists rs, ss, t', o, e. split; auto. split; auto. unfold pbind at 1. rewrite E. exact E1.
Qed.
End WithLib.
