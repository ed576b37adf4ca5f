(** Evaluation of prepared trees agrees with the meaning of the trees as written. *)
From Coq Require Import List String Ascii Bool Arith ZArith Permutation Lia.
From Verif Require Import Base GoStr GoStr_facts GoFloat Types Json StrUtils Validate Prepare Parse Eval Spec_Tree Tree_proofs Tree_truth Spec_Extra Tree_laws
  Match_proofs Spec_Regex Spec_Glob Glob_proofs Spec_Match Names_proofs Spec_Leaf Number_proofs Leaf_proofs Leaf_laws Attr_proofs Spec_Validate Validate_proofs Prepare_proofs
  Spec_Load Load_proofs Mongo_proofs Spec_Panic Panic_proofs Spec_Outcome Outcome_proofs Spec_Raw Raw_pieces Raw_proofs Raw_panic Spec_Grammar Grammar_proofs Spec_Meaning.
Import ListNotations.
Open Scope string_scope.

Section WithLib.
Variable L : Lib.
Hypothesis HNum : NumberSpec L.
Hypothesis HStar : jp_prepare L "$.*" <> None.
Variable p : predef.

(** ** Conditions *)
Lemma constant_attribute att method value ret c m b : prepares L p att method value ret c -> In att ["true"; "TRUE"; "false"; "FALSE"] ->
  may_return L (NCond c) m b -> (b = true <-> In att ["true"; "TRUE"]).
Proof.
  intros HP HA HB. destruct (prepared_parts L _ _ _ _ _ _ HP) as (v & k & HR & HK & HO & _).
  assert (NP : ~ starts "jsonpath:" att /\ ~ starts "senderLabel[" att /\ ~ starts "receiverLabel[" att /\ ~ starts "$sender." att /\ ~ starts "$receiver." att).
  { simpl in HA. repeat (destruct HA as [<-|HA]; [repeat split; intros [r E]; discriminate|]). destruct HA. }
  destruct NP as (N1 & N2 & N3 & N4 & N5).
  destruct (prepared_attribute _ _ _ _ _ _ _ _ HP HR N1) as (c0 & c1 & B & H1 & H2 & HS & HRE & _).
  pose proof (b_attr _ _ _ _ _ _ B) as EA.
  apply labels_kept in H1; [|rewrite EA; auto..]. destruct H1 as (A1 & A2 & A3 & A4 & A5 & _).
  apply objects_kept in H2; [|rewrite A1, EA; auto..]. destruct H2 as (C1 & C2 & C3 & C4 & C5).
  assert (E : c_attr c = att) by congruence.
  assert (R : plain_run L c m (Some (is_any att ["true"; "TRUE"]))).
  { intros ord t. unfold test_condition. rewrite E. simpl in HA. destruct HA as [<-|[<-|[<-|[<-|[]]]]]; reflexivity. }
  pose proof (run_plain _ _ _ _ _ HB R) as EB. assert (b = is_any att ["true"; "TRUE"]) as -> by congruence. apply is_any_in.
Qed.

Theorem condition_meaning att method value ret c m P b : prepares L p att method value ret c -> condition_says L p att method value m P ->
  may_return L (NCond c) m b -> (b = true <-> P).
Proof.
  intros HP HS HB. destruct HS as [k v s HK HR HV HS|rel query HO HN|field k v HF HK HR HV|key k v -> HK HM HR HV|key k v -> HK HM HR|key key' k -> HK HK' HM N1 N2 HR
    |sd rc k x y HX HY -> HM N1 N2 HR|k v -> HM HR HI|k v -> HM HR HI|k v a -> HM HR HV HI|HA|HA].
  - eapply condition_iff; eauto.
  - split; [|tauto]. intro E. assert (b = false) by (eapply nothing_false; eauto). congruence.
  - eapply text_attribute; eauto.
  - eapply sender_label_condition; eauto.
  - eapply receiver_label_condition; eauto.
  - eapply label_pair_condition; eauto.
  - assert (IX : In x ["namespace"; "cluster"]) by (simpl in HX |- *; destruct HX as [E|[E|[]]]; injection E as <- _; tauto).
    assert (IY : In y ["namespace"; "cluster"]) by (simpl in HY |- *; destruct HY as [E|[E|[]]]; injection E as <- _; tauto).
    rewrite (sender_receiver_attribute L p x y method value ret c k m b IX IY HP HR HM N1 N2 HB).
    simpl in HX, HY. destruct HX as [E|[E|[]]]; injection E as <- <-; destruct HY as [E|[E|[]]]; injection E as <- <-; cbn; tauto.
  - destruct (size_attribute L p method value ret c v k m HNum HP HR HM) as [H _]. auto.
  - destruct (hours_attribute L p method value ret c v k m HNum HP HR HM) as [H _]. auto.
  - destruct (version_attribute L p method value ret c v k m HNum HP HR HM) as [H _]. rewrite (H b HB). split.
    + intros (a' & x & E & H1 & H2). rewrite HV in E. injection E as <-. eauto.
    + intros (x & H1 & H2). eauto.
  - rewrite (constant_attribute _ _ _ _ _ _ _ HP) by (eauto; simpl in *; tauto). tauto.
  - rewrite (constant_attribute _ _ _ _ _ _ _ HP) by (eauto; simpl in *; tauto). simpl in *. intuition (subst; discriminate).
Qed.

Lemma method_kind method k k' : method_is method k -> method_is method k' -> k' = k.
Proof.
  intros HK HK'. unfold method_is, method_words in *. simpl in HK, HK'.
  repeat (destruct HK as [HK|HK]; [injection HK as E1 E2; rewrite <- E1, <- E2 in *; clear E1;
      repeat (destruct HK' as [HK'|HK']; [first [discriminate HK' | injection HK'; congruence]|]); destruct HK'|]). destruct HK.
Qed.
Lemma replaced_unique method value v v' : replaced p method value v -> replaced p method value v' -> v' = v.
Proof.
  intros H H'. destruct H as [N|name l E A|name w E A B], H' as [N'|name' l' E' A'|name' w' E' A' B']; try congruence;
    try (exfalso; apply N; eexists; eauto; fail); try (exfalso; apply N'; eexists; eauto; fail);
    assert (EE : "#" ++ name = "#" ++ name') by congruence; injection EE as ->; congruence.
Qed.

(** such conditions do not panic *)
Lemma condition_safe att method value ret c m P : m_raw m <> None \/ ~ starts "jsonpath:" att -> (forall rest, jp_prepare L ("$RELATIVE" ++ rest) = None) ->
  prepares L p att method value ret c -> condition_says L p att method value m P -> ~ condition_cause L c m.
Proof.
  intros HRaw HRel HP HS HC. destruct (prepared_parts L _ _ _ _ _ _ HP) as (v0 & k0 & HR0 & HK0 & EO & _).
  destruct HC as [k' E HK' HI HX|k' E HK' HI HX|k' E HK' HI HX|E HX|d E HE HO|rets name rest HS' HRE HI HJ HE HB]; rewrite ?EO in *; cbn [og_attr og_method og_value] in *.
  - subst att. rewrite (method_kind _ _ _ HK0 HK') in HI.
    destruct HS as [k v s HK HR HV HS|rel query HO HN|field k v HF HK HR HV|key k v EQ|key k v EQ|key key' k EQ|sd rc k x y HX' HY EQ|k v EQ HM HR HI'|k v EQ|k v a EQ|HA|HA];
      try discriminate.
    + destruct HS as (rel & q & HS & _). inversion HS.
    + inversion HO.
    + simpl in HF. intuition discriminate.
    + rewrite (replaced_unique _ _ _ _ HR0 HR) in HI'. rewrite (method_kind _ _ _ HK0 HM) in HI'. apply HI'; auto.
    + simpl in HA. intuition discriminate.
    + simpl in HA. intuition discriminate.
  - subst att. rewrite (method_kind _ _ _ HK0 HK') in HI.
    destruct HS as [k v s HK HR HV HS|rel query HO HN|field k v HF HK HR HV|key k v EQ|key k v EQ|key key' k EQ|sd rc k x y HX' HY EQ|k v EQ HM HR HI'|k v EQ HM HR HI'|k v a EQ|HA|HA];
      try discriminate.
    + destruct HS as (rel & q & HS & _). inversion HS.
    + inversion HO.
    + simpl in HF. intuition discriminate.
    + rewrite (replaced_unique _ _ _ _ HR0 HR) in HI'. rewrite (method_kind _ _ _ HK0 HM) in HI'. destruct (HI' HI) as [x Hx]. exact (HX x Hx).
    + simpl in HA. intuition discriminate.
    + simpl in HA. intuition discriminate.
  - subst att. rewrite (method_kind _ _ _ HK0 HK') in HI.
    destruct HS as [k v s HK HR HV HS|rel query HO HN|field k v HF HK HR HV|key k v EQ|key k v EQ|key key' k EQ|sd rc k x y HX' HY EQ|k v EQ HM HR HI'|k v EQ HM HR HI'|k v a EQ HM HR HV HI'|HA|HA];
      try discriminate.
    + destruct HS as (rel & q & HS & _). inversion HS.
    + inversion HO.
    + simpl in HF. intuition discriminate.
    + rewrite (replaced_unique _ _ _ _ HR0 HR) in HI'. rewrite (method_kind _ _ _ HK0 HM) in HI'. destruct (HI' HI) as [x Hx]. exact (HX x Hx).
    + simpl in HA. intuition discriminate.
    + simpl in HA. intuition discriminate.
  - subst att.
    destruct HS as [k v s HK HR HV HS|rel query HO HN|field k v HF HK HR HV|key k v EQ|key k v EQ|key key' k EQ|sd rc k x y HX' HY EQ|k v EQ HM HR HI'|k v EQ HM HR HI'|k v a EQ HM HR HV HI'|HA|HA];
      try discriminate.
    + destruct HS as (rel & q & HS & _). inversion HS.
    + inversion HO.
    + simpl in HF. intuition discriminate.
    + congruence.
    + simpl in HA. intuition discriminate.
    + simpl in HA. intuition discriminate.
  - destruct HRaw as [HRaw|HRaw]; [|exfalso; apply HRaw; destruct E as [->|[y ->]]; eexists; reflexivity].
    assert (PO : forall rel query, path_of att rel query -> rel = true /\ In query ["$KEY"; "$VALUE"]).
    { intros rel query HPO. destruct HPO as [rest [x ->] _|rest [x ->] _|rest [x ->] _| | |]; destruct E as [E|[y E]]; try discriminate; simpl; tauto. }
    destruct HS as [k v s HK HR HV HS|rel query HPO HN|field k v HF HK HR HV|key k v EQ|key k v EQ|key key' k EQ|sd rc k x y HX' HY EQ|k v EQ HM HR HI'|k v EQ HM HR HI'|k v a EQ HM HR HV HI'|HA|HA];
      try (subst att; destruct E as [E|[y' E]]; discriminate).
    + destruct HS as (rel & q & HPO & HA). apply PO in HPO. destruct HPO as [-> HQ].
      destruct HA as [q' d' HM HN|k1 x1 HM EQ HJ HE'|k1 x1 HM EQ HJ HE'|d' HM HN|d' HM HN HE']; try tauto.
      * rewrite HE in HE'. injection HE' as ->. exact (HO _ eq_refl).
      * rewrite HE in HE'. injection HE' as ->. exact (HO _ eq_refl).
    + apply PO in HPO. destruct HPO as [-> _]. destruct HN as [HN _]. rewrite (HN HRaw) in HE. discriminate.
    + simpl in HF. repeat (destruct HF as [HF|HF]; [injection HF as EA _; subst att; destruct E as [E|[y' E]]; discriminate|]). destruct HF.
    + simpl in HA. repeat (destruct HA as [<-|HA]; [destruct E as [E|[y' E]]; discriminate|]). destruct HA.
    + simpl in HA. repeat (destruct HA as [<-|HA]; [destruct E as [E|[y' E]]; discriminate|]). destruct HA.
  - apply HJ. apply HRel.
Qed.

(** ** Parent paths *)
Lemma prepared_ranges a a' m vs : a_prep a = [] -> prepare_aa L a = Ok a' -> (parsed_elements L a m vs <-> selected L a' m vs).
Proof.
  intros HE HA. unfold prepare_aa in HA. apply rbind_ok in HA. destruct HA as (qs & HQ & HA). injection HA as <-. rewrite HE. cbn [List.app].
  unfold parsed_elements, selected. cbn [a_parent a_prep].
  destruct (String.eqb (a_parent a) "$RELATIVE*") eqn:EP.
  - apply String.eqb_eq in EP. split; [intros [[_ H]|[H _]]; [exact H|congruence]|]. intro H. left. auto.
  - apply String.eqb_neq in EP. apply Names_proofs.rmapM_Forall2 in HQ.
    assert (NE : qs <> []) by (intros ->; inversion HQ as [HX|]; symmetry in HX; exact (split_char_cons _ _ HX)).
    assert (FF : forall doc parts, Forall2 (fun path part => exists q, query_for L path (Some q) /\ arranged (fst (jp_query L q doc)) part) (split_char "," (a_parent a)) parts <->
      Forall2 (fun q part => exists f, q = Some f /\ arranged (fst (jp_query L f doc)) part) qs parts).
    { intros doc. clear NE. generalize (split_char "," (a_parent a)), qs, HQ. clear. intros items qs HQ. induction HQ as [|x q items qs HX HQ IH]; intro parts.
      - split; intro H; inversion H; constructor.
      - split; intro H; inversion H as [|? ? ? ? (f & H1 & H2) H3]; subst; constructor; try (apply IH; auto).
        + exists f. split; auto. apply query_for_iff in H1. rewrite HX in H1. auto.
        + exists f. split; auto. apply query_for_iff. rewrite HX. auto. }
    split.
    + intros [[H _]|(_ & doc & items & parts & H1 & H2 & HI & HF & ->)]; [congruence|]. apply comma_items_iff in HI. subst items.
      exists doc, parts. split; [auto|]. split; [apply FF; auto|auto].
    + intros (doc & parts & HD & HF & ->). right. split; auto. destruct (HD NE) as [H1 H2]. exists doc, (split_char "," (a_parent a)), parts.
      split; auto. split; auto. split; [apply comma_items_iff; auto|]. split; [apply FF; auto|auto].
Qed.

Lemma prepared_parents a a' : prepare_aa L a = Ok a' -> a_parents a' = split_char "," (a_parent a') /\ a_parent a' = a_parent a.
Proof. unfold prepare_aa. intro HA. apply rbind_ok in HA. destruct HA as (qs & _ & HA). injection HA as <-. auto. Qed.
Lemma raw_elements_text a a' m r : a_parent a' = a_parent a -> (raw_elements L a m r <-> raw_elements L a' m r).
Proof.
  intro E. assert (F : forall rs, raw_found L a m rs <-> raw_found L a' m rs) by (intro rs; unfold raw_found; rewrite E; tauto).
  split; (intros [rs H1|rs t H1|rs t u os H1|rs t u obj es ts H1|rs t u obj es e H1|rs t u H1]; apply F in H1;
    [eapply rw_missing|eapply rw_deep|eapply rw_pieces|eapply rw_entries|eapply rw_unprintable|eapply rw_broken]; eauto).
Qed.
Lemma prepared_contexts a a' m r : a_prep a = [] -> prepare_aa L a = Ok a' -> (ranges_over L a m r <-> contexts L a' m r).
Proof.
  intros HE HA. assert (HQ : a_prep a' <> []).
  { unfold prepare_aa in HA. apply rbind_ok in HA. destruct HA as (qs & HQ & HA). injection HA as <-. cbn [a_prep]. rewrite HE. cbn.
    destruct (prep_queries _ HStar _ _ HQ) as [_ Q2]. apply Q2. apply split_char_cons. }
  destruct (prepared_parents _ _ HA) as [EP ET]. unfold ranges_over, contexts.
  destruct (m_raw m) as [d|] eqn:EM.
  - destruct (a_prep a') as [|q qs] eqn:EQ; [congruence|]. split.
    + intros [(_ & vs & HS & ->)|[E _]]; [|discriminate]. exists vs. split; auto. apply prepared_ranges with a; auto.
    + intros (vs & HS & ->). left. split; [discriminate|]. exists vs. split; auto. apply prepared_ranges with a'; auto.
  - split.
    + intros [[E _]|(_ & ts & HS & ->)]; [congruence|]. exists ts. split; auto. apply elements_iff; auto. apply raw_elements_text with a; auto.
    + intros (ts & HS & ->). right. split; auto. exists ts. split; auto. apply raw_elements_text with a'; auto. apply elements_iff; auto.
Qed.
Lemma ranges_raw a m ms m' : ranges_over L a m (Some ms) -> In m' ms -> m_raw m' = m_raw m.
Proof.
  intros [(_ & vs & _ & E)|(_ & [ts|] & _ & E)] HI; [| |discriminate]; cbn [option_map] in E; injection E as E; rewrite E in HI; apply in_map_iff in HI; destruct HI as (x & <- & _); reflexivity.
Qed.
Lemma ranges_same a a' m ms ms' : a_prep a = [] -> prepare_aa L a = Ok a' -> ranges_over L a m (Some ms) -> ranges_over L a m (Some ms') -> forall x, In x ms <-> In x ms'.
Proof.
  intros HE HA H H' x. apply (prepared_contexts _ _ _ _ HE HA) in H, H'. pose proof (contexts_perm _ _ _ _ _ H H') as HP. cbn in HP.
  split; apply Permutation_in; [|apply Permutation_sym]; exact HP.
Qed.
Lemma ranges_error a a' m ms : a_prep a = [] -> prepare_aa L a = Ok a' -> ranges_over L a m (Some ms) -> ~ ranges_over L a m None.
Proof. intros HE HA H H'. apply (prepared_contexts _ _ _ _ HE HA) in H, H'. exact (contexts_perm _ _ _ _ _ H H'). Qed.

(** ** Trees *)
Lemma made_prepares c c' : made L (NCond c) -> prepare_condition L p c = Ok c' -> prepares L p (c_attr c) (c_method c) (c_value c) (c_ret c) c'.
Proof.
  intros HM HP. inversion HM as [| | | |cn ? HD HV]; subst. exists c. split; auto.
  pose proof (accepted_fields _ _ _ HV) as (E1 & E2 & E3 & E4 & _). rewrite E1, E2, E3, E4. exact HV.
Qed.
Lemma fold_and_in {A} (F : A -> Prop) l : fold_right (fun x P => F x /\ P) True l <-> forall x, In x l -> F x.
Proof.
  induction l as [|x l IH]; simpl; [tauto|]. rewrite IH. split; [intros [H1 H2] y [<-|H]; auto|]. auto.
Qed.
Lemma fold_or_in {A} (F : A -> Prop) l : fold_right (fun x P => F x \/ P) False l <-> exists x, In x l /\ F x.
Proof.
  induction l as [|x l IH]; simpl; [split; [tauto|intros (y & [] & _)]|]. rewrite IH. split; [intros [H|(y & H1 & H2)]; eauto|].
  intros (y & [<-|H] & HF); [auto|right; eauto].
Qed.

Theorem truth_meaning n0 : made L n0 -> forall n m b, prepare_node L p n0 = Ok n -> covered L p n0 m ->
  truth L (leaf_truth L) (contexts L) n m b -> (b = true <-> means L p n0 m).
Proof.
  induction n0 as [ns IH|ns IH|n0 IH|q a n0 IH| | |c|] using node_ind'; intros HMD n m b HP HC HT; cbn [prepare_node] in HP.
  - apply rmap_ok in HP. destruct HP as (ns' & HP & ->). apply rseq_map_ok in HP. inversion HMD as [? HF| | | |]; subst. clear HMD.
    cbn [covered means] in *. rewrite fold_and_in in HC. rewrite fold_and_in.
    assert (HE : Forall2 (fun n0 n => forall b, truth L (leaf_truth L) (contexts L) n m b -> (b = true <-> means L p n0 m)) ns ns').
    { clear HT b. induction HP as [|x y ns ns' HXY HR IHR]; constructor; inversion IH; inversion HF; subst.
      - intros b HT. eapply H1; eauto. apply HC. left; auto.
      - apply IHR; auto. intros z HZ. apply HC. right; auto. }
    clear - HT HE. cbn [truth] in HT. destruct b.
    + split; auto. intros _. apply fold_and_in in HT || rewrite fold_and_in in HT. intros x HX.
      induction HE as [|y z ns ns' H HE IHE]; [destruct HX|]. destruct HX as [<-|HX]; [apply (H true); [apply HT; left; auto|auto]|].
      apply IHE; auto. intros w HW. apply HT. right; auto.
    + split; [discriminate|]. intro HA. exfalso. rewrite fold_or_in in HT. destruct HT as (y & HY & HT).
      induction HE as [|x z ns ns' H HE IHE]; [destruct HY|]. destruct HY as [->|HY].
      * assert (false = true) by (apply (H false); auto; apply HA; left; auto). discriminate.
      * apply IHE; auto. intros w HW. apply HA. right; auto.
  - apply rmap_ok in HP. destruct HP as (ns' & HP & ->). apply rseq_map_ok in HP. inversion HMD as [|? HF| | |]; subst. clear HMD.
    cbn [covered means] in *. rewrite fold_and_in in HC. rewrite fold_or_in.
    assert (HE : Forall2 (fun n0 n => forall b, truth L (leaf_truth L) (contexts L) n m b -> (b = true <-> means L p n0 m)) ns ns').
    { clear HT b. induction HP as [|x y ns ns' HXY HR IHR]; constructor; inversion IH; inversion HF; subst.
      - intros b HT. eapply H1; eauto. apply HC. left; auto.
      - apply IHR; auto. intros z HZ. apply HC. right; auto. }
    clear - HT HE. cbn [truth] in HT. destruct b.
    + split; auto. intros _. rewrite fold_or_in in HT. destruct HT as (y & HY & HT).
      induction HE as [|x z ns ns' H HE IHE]; [destruct HY|]. destruct HY as [->|HY].
      * exists x. split; [left; auto|]. apply (H true); auto.
      * destruct (IHE HY) as (w & W1 & W2). exists w. split; [right; auto|auto].
    + split; [discriminate|]. intros (x & HX & HA). exfalso. rewrite fold_and_in in HT.
      induction HE as [|y z ns ns' H HE IHE]; [destruct HX|]. destruct HX as [->|HX].
      * assert (false = true) by (apply (H false); auto; apply HT; left; auto). discriminate.
      * apply IHE; auto. intros w HW. apply HT. right; auto.
  - apply rmap_ok in HP. destruct HP as (n' & HP & ->).
    assert (HI : made L n0) by (inversion HMD as [| |? [->|HX]| |]; subst; [discriminate|auto]).
    cbn [covered means truth] in *. pose proof (IH HI n' m (negb b) HP HC HT) as H. destruct b; cbn [negb] in H.
    + split; auto. intros _ HX. apply H in HX. discriminate.
    + split; [discriminate|]. intro HX. exfalso. apply HX. apply H. auto.
  - apply rbind_ok in HP. destruct HP as (n' & HP & H). apply rbind_ok in H. destruct H as (a' & HA & H). injection H as <-.
    assert (HI : made L n0 /\ a_prep a = []) by (inversion HMD as [| | |q' s r n'' [->|HX] HV HE HR|]; subst; [discriminate|auto]). destruct HI as [HI HE].
    pose proof (fun r => prepared_contexts a a' m r HE HA) as HR.
    cbn [covered truth] in *. destruct HC as [_ HC]. destruct HT as [(ms & HCt & HT)|[HCt ->]]; apply HR in HCt.
    + assert (HV : forall m', In m' ms -> forall b, truth L (leaf_truth L) (contexts L) n' m' b -> (b = true <-> means L p n0 m')).
      { intros m' HI' b' HT'. eapply IH; eauto. }
      pose proof (fun ms' H => ranges_same a a' m ms' ms HE HA H HCt) as HS. rewrite <- Forall_forall in HV.
      destruct q; cbn [means]; destruct b.
      * split; auto. intros _. apply Exists_exists in HT. destruct HT as (w & HW & HT). exists ms, w. split; auto. split; auto. rewrite Forall_forall in HV. apply (HV w HW true); auto.
      * split; [discriminate|]. intros (ms' & w & H1 & H2 & H3). apply (HS _ H1) in H2. rewrite Forall_forall in HV, HT. apply (HV w H2 false) in H3; auto.
      * split; auto. intros _. split; [eauto|]. intros ms' w H1 H2. apply (HS _ H1) in H2. rewrite Forall_forall in HV, HT. apply (HV w H2 true); auto.
      * split; [discriminate|]. intros [_ H]. exfalso. apply Exists_exists in HT. destruct HT as (w & HW & HT). pose proof (H ms w HCt HW) as HX. rewrite Forall_forall in HV. apply (HV w HW false) in HX; auto. discriminate.
    + split; [discriminate|]. intro H. exfalso. destruct q; cbn [means] in H.
      * destruct H as (ms & m' & H1 & _). exact (ranges_error _ _ _ _ HE HA H1 HCt).
      * destruct H as [(ms & H1) _]. exact (ranges_error _ _ _ _ HE HA H1 HCt).
  - injection HP as <-. cbn in *. subst. tauto.
  - injection HP as <-. cbn in *. subst. split; [discriminate|tauto].
  - apply rmap_ok in HP. destruct HP as (c' & HP & ->). cbn [covered means truth] in *. destruct HC as [[P HC] _].
    pose proof (made_prepares _ _ HMD HP) as HPR.
    assert (HB : may_return L (NCond c') m b) by (destruct HT as (x & ord & t & s' & HF & HT); exists ord, t, x, s'; auto).
    rewrite (condition_meaning _ _ _ _ _ _ _ _ HPR HC HB). split; [eauto|]. intros (Q & HQ & HX).
    apply (condition_meaning _ _ _ _ _ _ _ _ HPR HC HB). apply (condition_meaning _ _ _ _ _ _ _ _ HPR HQ HB). auto.
  - discriminate.
Qed.

Lemma arranged_not_scalar v es : arranged v es -> ~ scalar v.
Proof. intros H (H1 & H2 & H3). inversion H; subst; [eapply H3|apply H1|eapply H2|eapply H2]; reflexivity. Qed.

Lemma parent_safe a' m vs : selected L a' m vs -> a_prep a' <> [] -> ~ parent_cause L a' m.
Proof.
  unfold selected. intros HS HE HC. destruct (String.eqb (a_parent a') "$RELATIVE*") eqn:EP.
  - apply String.eqb_eq in EP. destruct HS as (obj & HO & _). destruct HC as [_ H|d _ H N|d f N _]; [congruence| |congruence].
    apply (N obj). congruence.
  - apply String.eqb_neq in EP. destruct HS as (doc & parts & HD & HF & _). destruct (HD HE) as [D1 D2]. destruct HC as [HR H|d H|d f _ H1 H2 HI HX].
    + specialize (D1 HR). congruence.
    + congruence.
    + assert (doc = d) as ->.
      { destruct (relative_parent (a_parent a')) eqn:ER.
        - apply refers_iff in ER. specialize (D1 ER). specialize (H1 ER). congruence.
        - assert (NR : ~ refers_to_element (a_parent a')) by (rewrite <- refers_iff, ER; discriminate). specialize (D2 NR). specialize (H2 NR). congruence. }
      clear - HF HI HX. induction HF as [|q part qs parts (g & -> & HG) HF IH]; [destruct HI|]. destruct HI as [E|HI]; [|auto].
      injection E as ->. apply arranged_not_scalar in HG. auto.
Qed.

Theorem tree_safe n0 : (forall rest, jp_prepare L ("$RELATIVE" ++ rest) = None) -> made L n0 -> forall n m, prepare_node L p n0 = Ok n -> m_raw m <> None ->
  covered L p n0 m -> ~ crash L n m.
Proof.
  intro HRel. induction n0 as [ns IH|ns IH|n0 IH|q a n0 IH| | |c|] using node_ind'; intros HMD n m HP HM HC HT; cbn [prepare_node] in HP.
  - apply rmap_ok in HP. destruct HP as (ns' & HP & ->). apply rseq_map_ok in HP. inversion HMD as [? HF| | | |]; subst. clear HMD.
    cbn [covered] in HC. rewrite fold_and_in in HC. inversion HT as [| |before n after m' _ HX| | | |]; subst. clear HT.
    assert (HE : Forall (fun n => ~ crash L n m) (before ++ n :: after)).
    { clear HX. induction HP as [|x y ns ns' HXY HR IHR]; constructor; inversion IH; inversion HF; subst.
      - eapply H1; eauto. apply HC. left; auto.
      - apply IHR; auto. intros z HZ. apply HC. right; auto. }
    rewrite Forall_forall in HE. apply (HE n); auto. apply in_elt.
  - apply rmap_ok in HP. destruct HP as (ns' & HP & ->). apply rseq_map_ok in HP. inversion HMD as [|? HF| | |]; subst. clear HMD.
    cbn [covered] in HC. rewrite fold_and_in in HC. inversion HT as [| | |before n after m' _ HX| | |]; subst. clear HT.
    assert (HE : Forall (fun n => ~ crash L n m) (before ++ n :: after)).
    { clear HX. induction HP as [|x y ns ns' HXY HR IHR]; constructor; inversion IH; inversion HF; subst.
      - eapply H1; eauto. apply HC. left; auto.
      - apply IHR; auto. intros z HZ. apply HC. right; auto. }
    rewrite Forall_forall in HE. apply (HE n); auto. apply in_elt.
  - apply rmap_ok in HP. destruct HP as (n' & HP & ->).
    assert (HI : made L n0) by (inversion HMD as [| |? [->|HX]| |]; subst; [discriminate|auto]).
    inversion HT as [|? ? HX| | | | |]; subst. exact (IH HI n' m HP HM HC HX).
  - apply rbind_ok in HP. destruct HP as (n' & HP & H). apply rbind_ok in H. destruct H as (a' & HA & H). injection H as <-.
    assert (HI : made L n0 /\ a_prep a = []) by (inversion HMD as [| | |q' s r n'' [->|HX] HV HE HR|]; subst; [discriminate|auto]). destruct HI as [HI HE].
    pose proof (fun r => prepared_contexts a a' m r HE HA) as HR.
    assert (HQ : a_prep a' <> []).
    { unfold prepare_aa in HA. apply rbind_ok in HA. destruct HA as (qs & HQ & HA). injection HA as <-. cbn [a_prep]. rewrite HE. cbn.
      destruct (prep_queries _ HStar _ _ HQ) as [_ Q2]. apply Q2. apply split_char_cons. }
    cbn [covered] in HC. destruct HC as [(r & HV) HC].
    assert (SE : exists vs, selected L a' m vs) by (destruct HV as [(_ & vs & HV & _)|[HV _]]; [|congruence]; exists vs; apply prepared_ranges with a; auto).
    destruct SE as (vs & SE).
    assert (RG : forall vs, selected L a' m vs -> ranges_over L a m (Some (map (fun v => set_raw_rel m (Some v)) vs)))
      by (intros vs' HS; left; split; auto; exists vs'; split; auto; apply prepared_ranges with a'; auto).
    inversion HT as [| | | |? ? ? ? HX|? ? ? before v after HS HB HX|? ? ? before v after HS HB HX]; subst.
    + exact (parent_safe _ _ _ SE HQ HX).
    + apply RG in HS. eapply IH; [exact HI|exact HP| | |exact HX]; [exact HM|]. eapply HC; eauto. apply in_map_iff. exists v. split; auto. apply in_elt.
    + apply RG in HS. eapply IH; [exact HI|exact HP| | |exact HX]; [exact HM|]. eapply HC; eauto. apply in_map_iff. exists v. split; auto. apply in_elt.
  - injection HP as <-. inversion HT.
  - injection HP as <-. inversion HT.
  - apply rmap_ok in HP. destruct HP as (c' & HP & ->). cbn [covered] in HC. destruct HC as [[P HC] _]. inversion HT; subst.
    eapply condition_safe; eauto. apply made_prepares; auto.
  - discriminate.
Qed.


(** *** On raw bytes *)
Lemma raw_condition_safe c0 c m P : (forall rest, jp_prepare L ("$RELATIVE" ++ rest) = None) -> m_raw m = None ->
  prepares L p (c_attr c0) (c_method c0) (c_value c0) (c_ret c0) c -> condition_says L p (c_attr c0) (c_method c0) (c_value c0) m P -> answerable L p c0 m ->
  ~ raw_condition_cause L c m.
Proof.
  intros HRel HM HP HS HA HC. destruct (prepared_parts L _ _ _ _ _ _ HP) as (v & k & HR & HK & EO & ER & _).
  destruct HC as [NJ HC|k' t y SJ HK' HI NV HSR HQ|rets name path SJ HRE HI HX HB]; rewrite ?EO in *; cbn [og_attr og_method og_value] in *.
  - eapply condition_safe; eauto.
  - destruct (HA HM SJ) as [HN _]. apply (HN k' v t y HK' HI HR NV); auto.
    assert (SP : exists s, shows L (c_attr c0) m s).
    { destruct HS as [k1 v1 s _ _ _ HS|rel query HO HN'|field k1 v1 HF|key k1 v1 EQ|key k1 v1 EQ|key key' k1 EQ|sd rc k1 x1 y1 HX' HY EQ|k1 v1 EQ|k1 v1 EQ|k1 v1 a EQ|HA'|HA'];
        try (exfalso; rewrite EQ in SJ; destruct SJ as [r E]; discriminate E); [eauto| | | |].
      - exfalso. destruct (prepared_path_condition _ _ _ _ _ _ _ _ _ HP HO) as (_ & _ & _ & _ & E5 & _). destruct HSR as (_ & r & HRL & _). apply raw_looked_up_doc in HRL.
        rewrite E5 in HRL. destruct rel; destruct HRL as [D1 D2]; [destruct HN' as [_ HN']; destruct (HN' HM); congruence|destruct HN' as [_ [HN'|HN']]; congruence].
      - exfalso. destruct SJ as [r E]. rewrite E in HF. simpl in HF. repeat (destruct HF as [HF|HF]; [discriminate HF|]). destruct HF.
      - exfalso. destruct SJ as [r E]. rewrite E in HA'. simpl in HA'. repeat (destruct HA' as [HA'|HA']; [discriminate HA'|]). destruct HA'.
      - exfalso. destruct SJ as [r E]. rewrite E in HA'. simpl in HA'. repeat (destruct HA' as [HA'|HA']; [discriminate HA'|]). destruct HA'. }
    destruct SP as [s SP]. destruct (shows_seen _ _ _ _ _ _ _ _ _ HP SP) as (_ & _ & _ & [HSS|HSS]); [destruct HSS; congruence|].
    destruct HSS as (_ & r & R1 & R2), HSR as (_ & r' & R3 & R4). assert (r' = r) by (eapply raw_looked_up_fun; eauto). subst r'.
    destruct r; congruence.
  - destruct (HA HM SJ) as [_ HD]. rewrite ER in HRE. destruct (HD rets name path HRE HI) as [D1 D2]. destruct HX as [[X1 X2]|[X1 X2]]; [exact (D1 X1 X2)|exact (D2 X1 X2)].
Qed.
Lemma raw_parent_safe a a' m r : prepare_aa L a = Ok a' -> raw_elements L a m r -> ~ raw_parent_cause L a' m.
Proof.
  intros HA HE HC. destruct (prepared_parents _ _ HA) as [EP ET]. apply (raw_elements_text a a') in HE; auto.
  apply (raw_elements_can L a' m r EP) in HE. destruct HE as (ord & t & s & HF & HE & _).
  apply (elements_panic_iff L ord a' m t EP) in HC. rewrite HE in HC. discriminate.
Qed.
Theorem raw_tree_safe n0 : (forall rest, jp_prepare L ("$RELATIVE" ++ rest) = None) -> made L n0 -> forall n m, prepare_node L p n0 = Ok n -> m_raw m = None ->
  covered L p n0 m -> ~ Spec_Raw.raw_crash L n m.
Proof.
  intro HRel. induction n0 as [ns IH|ns IH|n0 IH|q a n0 IH| | |c|] using node_ind'; intros HMD n m HP HM HC HT; cbn [prepare_node] in HP.
  - apply rmap_ok in HP. destruct HP as (ns' & HP & ->). apply rseq_map_ok in HP. inversion HMD as [? HF| | | |]; subst. clear HMD.
    cbn [covered] in HC. rewrite fold_and_in in HC. inversion HT as [| |before n after m' _ HX| | | |]; subst. clear HT.
    assert (HE : Forall (fun n => ~ Spec_Raw.raw_crash L n m) (before ++ n :: after)).
    { clear HX. induction HP as [|x y ns ns' HXY HR IHR]; constructor; inversion IH; inversion HF; subst.
      - eapply H1; eauto. apply HC. left; auto.
      - apply IHR; auto. intros z HZ. apply HC. right; auto. }
    rewrite Forall_forall in HE. apply (HE n); auto. apply in_elt.
  - apply rmap_ok in HP. destruct HP as (ns' & HP & ->). apply rseq_map_ok in HP. inversion HMD as [|? HF| | |]; subst. clear HMD.
    cbn [covered] in HC. rewrite fold_and_in in HC. inversion HT as [| | |before n after m' _ HX| | |]; subst. clear HT.
    assert (HE : Forall (fun n => ~ Spec_Raw.raw_crash L n m) (before ++ n :: after)).
    { clear HX. induction HP as [|x y ns ns' HXY HR IHR]; constructor; inversion IH; inversion HF; subst.
      - eapply H1; eauto. apply HC. left; auto.
      - apply IHR; auto. intros z HZ. apply HC. right; auto. }
    rewrite Forall_forall in HE. apply (HE n); auto. apply in_elt.
  - apply rmap_ok in HP. destruct HP as (n' & HP & ->).
    assert (HI : made L n0) by (inversion HMD as [| |? [->|HX]| |]; subst; [discriminate|auto]).
    inversion HT as [|? ? HX| | | | |]; subst. exact (IH HI n' m HP HM HC HX).
  - apply rbind_ok in HP. destruct HP as (n' & HP & H). apply rbind_ok in H. destruct H as (a' & HA & H). injection H as <-.
    assert (HI : made L n0 /\ a_prep a = []) by (inversion HMD as [| | |q' s r n'' [->|HX] HV HE HR|]; subst; [discriminate|auto]). destruct HI as [HI HE].
    pose proof (fun r => prepared_contexts a a' m r HE HA) as HR.
    cbn [covered] in HC. destruct HC as [(r & HV) HC].
    assert (SE : exists ts, raw_elements L a m ts) by (destruct HV as [[HV _]|(_ & ts & HV & _)]; [congruence|eauto]). destruct SE as (ts & SE).
    destruct (prepared_parents _ _ HA) as [EP ET].
    assert (RG : forall ts, raw_elements L a' m (Some ts) -> ranges_over L a m (Some (map (fun t => set_json_rel m (Some t)) ts)))
      by (intros ts' HS; right; split; auto; exists (Some ts'); split; auto; apply raw_elements_text with a'; auto).
    inversion HT as [| | | |? ? ? ? HX|? ? ? before v after HS HB HX|? ? ? before v after HS HB HX]; subst.
    + exact (raw_parent_safe _ _ _ _ HA SE HX).
    + apply RG in HS. eapply IH; [exact HI|exact HP| | |exact HX]; [exact HM|]. eapply HC; eauto. apply in_map_iff. exists v. split; auto. apply in_elt.
    + apply RG in HS. eapply IH; [exact HI|exact HP| | |exact HX]; [exact HM|]. eapply HC; eauto. apply in_map_iff. exists v. split; auto. apply in_elt.
  - injection HP as <-. inversion HT.
  - injection HP as <-. inversion HT.
  - apply rmap_ok in HP. destruct HP as (c' & HP & ->). cbn [covered] in HC. destruct HC as [[P HC] HAn]. inversion HT; subst.
    eapply raw_condition_safe; eauto. apply made_prepares; auto.
  - discriminate.
Qed.

Theorem tree_meaning n0 n m b : made L n0 -> prepare_node L p n0 = Ok n -> covered L p n0 m ->
  may_return L n m b -> (b = true <-> means L p n0 m).
Proof. intros HMD HP HC HB. eapply truth_meaning; eauto. apply may_return_holds. auto. Qed.
Theorem tree_no_panic n0 n m : (forall rest, jp_prepare L ("$RELATIVE" ++ rest) = None) -> made L n0 -> prepare_node L p n0 = Ok n ->
  covered L p n0 m -> ~ may_panic L n m.
Proof.
  intros HR HMD HP HC HX. destruct (m_raw m) as [d|] eqn:HM.
  - eapply tree_panics in HX; eauto; [|congruence]. eapply tree_safe; eauto. congruence.
  - eapply raw_tree_panics in HX; eauto. eapply raw_tree_safe; eauto.
Qed.

End WithLib.
