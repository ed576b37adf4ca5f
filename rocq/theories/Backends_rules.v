(** Checks of rules that see no difference between a parsed document and its bytes. *)
From Coq Require Import List String Ascii Bool Arith ZArith Lia.
From Verif Require Import Base GoStr GoStr_facts GoFloat Types Json StrUtils Validate Prepare Parse Lifecycle Eval Check Spec_Tree Spec_Decision Spec_Regex Spec_Glob Spec_Match Spec_Leaf
  Spec_Validate Spec_Load Spec_Grammar Grammar_tree Load_proofs Spec_Json Spec_MongoMatch Spec_Meaning Meaning_proofs Meaning_rules Spec_Accept Accept_rules Spec_Backends Backends_proofs.
Import ListNotations.
Open Scope string_scope.

Section WithLib.
Variable L : Lib.
Variable p : predef.
Hypothesis HPath : PathSpec L.
Hypothesis HText : TextSpec L.
Hypothesis HAcc : PathsAccepted L.
Hypothesis HEnt : EntriesSpec L.

(** ** Rules *)
Lemma applies_twins r m m' : indifferent_rule L p r m -> twins L m m' -> (applies L p r m <-> applies L p r m').
Proof.
  intros HI HT. assert (HW : without_document m = without_document m') by apply HT.
  pose proof (f_equal m_source_service HW) as E1. pose proof (f_equal m_dest_service HW) as E2. pose proof (f_equal m_host HW) as E3.
  pose proof (f_equal m_source_ip HW) as E4. pose proof (f_equal m_dest_ip HW) as E5. pose proof (f_equal m_source_netip HW) as E6.
  pose proof (f_equal m_dest_netip HW) as E7. pose proof (f_equal m_dest_port HW) as E8. pose proof (f_equal m_protocol HW) as E9.
  pose proof (f_equal m_context_type HW) as E10. pose proof (f_equal m_path HW) as E11. pose proof (f_equal m_method HW) as E12.
  cbn [without_document m_source_service m_dest_service m_host m_source_ip m_dest_ip m_source_netip m_dest_netip m_dest_port m_protocol m_context_type m_path m_method] in *.
  assert (TR : match ru_tree r with None => True | Some n => means L p n m end <-> match ru_tree r with None => True | Some n => means L p n m' end).
  { destruct (ru_tree r) as [n|] eqn:ET; [|tauto]. apply (twins_agree L p HPath HText HAcc HEnt n m m' (HI n ET) HT). }
  unfold applies, sender_accepts, receiver_accepts, resource_accepts. rewrite E1, E2, E3, E4, E5, E6, E7, E8, E9, E10, E11, E12. tauto.
Qed.
Lemma verdict_twins r m m' d : indifferent_rule L p r m -> twins L m m' -> (verdict L p r m d <-> verdict L p r m' d).
Proof. intros HI HT. unfold verdict. rewrite (applies_twins r m m' HI HT). tauto. Qed.
Lemma ordinary_covered r m : ordinary L p r -> (forall n, ru_tree r = Some n -> covered L p n m) -> rule_covered L p r m.
Proof.
  intros [H1 H2 H3] HC. destruct H3 as [P1 P2 P3 P4]. constructor; auto; try (right; auto; fail).
  intros n E. split; auto. apply (H2 n E).
Qed.
Lemma covered_twins r m m' : ordinary L p r -> indifferent_rule L p r m -> twins L m m' -> rule_covered L p r m /\ rule_covered L p r m'.
Proof.
  intros HO HI HT. split; apply ordinary_covered; auto; intros n E; apply (twins_agree L p HPath HText HAcc HEnt n m m' (HI n E) HT).
Qed.
Lemma ascii_twins m m' : twins L m m' -> ascii_message m -> ascii_message m'.
Proof.
  intros HT. assert (HW : without_document m = without_document m') by apply HT. unfold ascii_message.
  change (Forall ascii_text [m_source_service (without_document m); m_dest_service (without_document m); m_host (without_document m); m_method (without_document m);
    m_path (without_document m); m_dest_port (without_document m)] -> Forall ascii_text [m_source_service (without_document m'); m_dest_service (without_document m');
    m_host (without_document m'); m_method (without_document m'); m_path (without_document m'); m_dest_port (without_document m')]). rewrite HW. auto.
Qed.

(** ** Checks *)
Lemma outcome_same ord g rules e e' o o' f f' : check L ord g rules e = (Some o, f) -> check L ord g rules e' = (Some o', f') -> out_results o = out_results o' -> same_outcome o o'.
Proof.
  unfold check, mbind. destruct (run_rules L ord g rules e) as [[xs|] e1]; [|discriminate]. destruct (run_rules L ord g rules e') as [[xs'|] e2]; [|discriminate].
  intros E1 E2. injection E1 as <- _. injection E2 as <- _. cbn. intro E. unfold same_outcome, summarise. cbn. rewrite E. auto 10.
Qed.
Lemma results_same rules m m' l l' : (forall r, In r rules -> indifferent_rule L p r m) -> twins L m m' ->
  Forall2 (fun r d => verdict L p r m d) rules l -> Forall2 (fun r d => verdict L p r m' d) rules l' -> l = l'.
Proof.
  intros HI HT H. revert l' HI. induction H as [|r d rules l HV _ IH]; intros l' HI H'; inversion H' as [|? d' ? l0 HV' H2]; subst; auto. f_equal.
  - apply (verdict_twins r m m' d (HI r (or_introl eq_refl)) HT) in HV. eapply verdict_unique; eauto.
  - apply IH; auto. intros r' HR. apply HI. right. auto.
Qed.
Theorem check_twins ord rules m m' t t' : RegexSpec L -> CidrSpec L -> NumberSpec L -> (forall rest, jp_prepare L ("$RELATIVE" ++ rest) = None) ->
  fair ord -> ascii_message m -> twins L m m' -> (forall r, In r rules -> ordinary L p r /\ preparable_rule L p r /\ indifferent_rule L p r m) ->
  exists o e o' e', check L ord p (map (load_rule L) rules) (mkEst m t) = (Some o, e) /\ check L ord p (map (load_rule L) rules) (mkEst m' t') = (Some o', e') /\
    same_outcome o o'.
Proof.
  pose proof (proj1 HEnt) as H4. intros H1 H2 H3 H5 HF HA HT HR.
  destruct (check_written L p ord rules m t) as (o & e & EO & HV & _); auto.
  { intros r H. destruct (HR r H) as (A & B & C). destruct (covered_twins r m m' A C HT). auto. }
  destruct (check_written L p ord rules m' t') as (o' & e' & EO' & HV' & _); auto.
  { eapply ascii_twins; eauto. }
  { intros r H. destruct (HR r H) as (A & B & C). destruct (covered_twins r m m' A C HT). auto. }
  exists o, e, o', e'. split; auto. split; auto. eapply outcome_same; eauto. eapply results_same; eauto. intros r H. apply HR. auto.
Qed.
Theorem loaded_check_twins ord ord' g rules m m' t t' u : RegexSpec L -> CidrSpec L -> NumberSpec L ->  (forall rest, jp_prepare L ("$RELATIVE" ++ rest) = None) -> fair ord -> fair ord' -> ascii_message m -> twins L m m' ->
  Forall (ordinary L p) rules -> Forall (preparable_rule L p) rules -> Forall (fun r => indifferent_rule L p r m) rules ->
  exists ss u' o e o' e', load_with_predefined L ord' p rules u = (Ok ss, u') /\
    check L ord g ss (mkEst m t) = (Some o, e) /\ check L ord g ss (mkEst m' t') = (Some o', e') /\ same_outcome o o'.
Proof.
  pose proof (proj1 HEnt) as H4. intros H1 H2 H3 H5 HF HF' HA HT R1 R2 R3. rewrite Forall_forall in R1, R3.
  destruct (loaded_check_written L p ord ord' g rules m t u) as (ss & u' & o & e & EL & EO & HV & _); auto.
  { apply Forall_forall. auto. }
  { apply Forall_forall. intros r H. apply (covered_twins r m m'); auto. }
  destruct (loaded_check_written L p ord ord' g rules m' t' u) as (ss' & u'' & o' & e' & EL' & EO' & HV' & _); auto.
  { eapply ascii_twins; eauto. }
  { apply Forall_forall. auto. }
  { apply Forall_forall. intros r H. apply (covered_twins r m m'); auto. }
  rewrite EL in EL'. injection EL' as <- <-. exists ss, u', o, e, o', e'. split; auto. split; auto. split; auto. eapply outcome_same; eauto. eapply results_same; eauto.
Qed.

(** ** Prepared trees *)
Theorem tree_twins n0 n ord m m' t t' : NumberSpec L -> (forall rest, jp_prepare L ("$RELATIVE" ++ rest) = None) ->
  loaded_tree L n0 -> prepare_node L p n0 = Ok n -> fair ord -> indifferent L p n0 m -> twins L m m' ->
  exists b x e x' e', eval L ord n (mkEst m t) = (Some (b, x), e) /\ eval L ord n (mkEst m' t') = (Some (b, x'), e').
Proof.
  pose proof (proj1 HEnt) as H2. intros H1 H3 HL HP HF HI HT. pose proof (loaded_made L n0 HL) as HM.
  destruct (twins_agree L p HPath HText HAcc HEnt n0 m m' HI HT) as (C1 & C2 & HE).
  assert (X : forall y s, covered L p n0 y -> exists b x e, eval L ord n (mkEst y s) = (Some (b, x), e) /\ (b = true <-> means L p n0 y)).
  { intros y s HC. destruct (eval L ord n (mkEst y s)) as [[[b x]|] e] eqn:E.
    - exists b, x, e. split; auto. eapply tree_meaning; eauto. exists ord, s, x, e. auto.
    - exfalso. eapply (tree_no_panic L H1 H2 p n0 n y); eauto. exists ord, s, e. auto. }
  destruct (X m t C1) as (b & x & e & E1 & B1). destruct (X m' t' C2) as (b' & x' & e' & E2 & B2).
  assert (b = b') as <- by (destruct b, b'; auto; intuition congruence). exists b, x, e, x', e'. auto.
Qed.

(** ** ANY and ALL over the entries of an object *)
Theorem entries_twins q a c n ord m m' t t' d o ks k v (value : bool) : NumberSpec L -> (forall rest, jp_prepare L ("$RELATIVE" ++ rest) = None) ->
  loaded_tree L (NQuant q a (NCond c)) -> prepare_node L p (NQuant q a (NCond c)) = Ok n -> fair ord ->
  a_parent a = "$." ++ dotted ks -> ks <> [] -> Forall field_name ks -> c_attr c = (if value then "jsonpath:$VALUE" else "jsonpath:$KEY") ->
  method_is (c_method c) k -> replaced p (c_method c) (c_value c) v -> plain_value v ->
  twins L m m' -> m_raw m = Some d -> at_path ks d (Some (GMapS o)) -> Forall (fun kx => no_html (fst kx) /\ as_printed L (snd kx)) o ->
  Forall (fun kx => agreeable L k v (Some (if value then snd kx else GStr (fst kx)))) o ->
  exists b x e x' e', eval L ord n (mkEst m t) = (Some (b, x), e) /\ eval L ord n (mkEst m' t') = (Some (b, x'), e') /\
    (b = true <-> match q with QAny => Exists (entry_has L value k v) o | QAll => Forall (entry_has L value k v) o end).
Proof.
  intros HNum HRel HL HP HF EP HN HFN EA HK HR HV HT HD HA HPr HAg.
  assert (HI : indifferent L p (NQuant q a (NCond c)) m).
  { apply (id_entries L p q a (NCond c) m false ks d o); auto. rewrite Forall_forall in HPr, HAg |- *. intros [key x] HIn. specialize (HAg _ HIn). destruct (HPr _ HIn) as [_ HX]. cbn [fst snd] in *.
    destruct value; [eapply id_value|eapply id_key]; eauto; reflexivity. }
  assert (RW : m_raw m <> None) by congruence.
  destruct (twins_agree L p HPath HText HAcc HEnt _ m m' HI HT) as (C1 & C2 & HE).
  destruct (tree_twins _ n ord m m' t t' HNum HRel HL HP HF HI HT) as (b & x & e & x' & e' & E1 & E2).
  exists b, x, e, x', e'. split; auto. split; auto.
  assert (HB : b = true <-> means L p (NQuant q a (NCond c)) m).
  { eapply tree_meaning; eauto; [apply HEnt|apply loaded_made; auto|exists ord, t, x, e; auto]. }
  rewrite HB.
  assert (ND : NoDup (map fst o)).
  { destruct (twin_document L false m m' d HT HD) as (u & _ & HO). destruct (proj1 HText ks d u _ HN HFN HO HA) as (s & _ & HS). eapply object_distinct; eauto. }
  pose proof (parsed_entries L HPath HAcc a false ks m d o EP HN HFN RW HD HA ND) as RG.
  assert (ME : forall kx, means L p (NCond c) (set_raw_rel m (Some (GMapS [kx]))) <-> entry_has L value k v kx).
  { intros [key y]. destruct (entry_parsed L (set_raw_rel m (Some (GMapS [(key, y)]))) key y RW (proj1 HEnt) eq_refl) as [S1 S2].
    apply (shown_means L p c k v); auto; [rewrite EA; destruct value; eexists; reflexivity|]. rewrite EA. destruct value; auto. }
  destruct q.
  - rewrite (ranges_any L p a m _ (NCond c) RG). rewrite Exists_exists. setoid_rewrite in_map_iff. rewrite Exists_exists. split.
    + intros (z & (kx & <- & HIn) & HM). exists kx. split; auto. apply ME. auto.
    + intros (kx & HIn & HM). exists (set_raw_rel m (Some (GMapS [kx]))). split; [eauto|]. apply ME. auto.
  - rewrite (ranges_all L p a m _ (NCond c) RG). rewrite !Forall_forall. setoid_rewrite in_map_iff. split.
    + intros H kx HIn. apply ME. apply H. eauto.
    + intros H z (kx & <- & HIn). apply ME. auto.
Qed.
End WithLib.
