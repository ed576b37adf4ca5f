(** Proofs about conditions on paths below the value of an entry. *)
From Coq Require Import List String Ascii Bool Arith ZArith Lia.
From Verif Require Import Base GoStr GoStr_facts GoFloat Types Json StrUtils Validate Prepare Parse Eval Lifecycle Spec_Tree Tree_laws
  Spec_Regex Spec_Glob Glob_proofs Match_proofs Spec_Names Validate_proofs Spec_Json Json_proofs Spec_Leaf Number_proofs Leaf_proofs Leaf_laws Spec_Load Load_proofs Spec_Shown Shown_proofs Decode_proofs
  Spec_Cleaned Cleaned_proofs Spec_Encoded Encoded_proofs Entry_proofs.
Import ListNotations.
Open Scope string_scope.
Local Arguments String.prefix : simpl never.

Section WithLib.
Variable L : Lib.

Lemma value_cleaned rest : path_chars rest ->
  replace_all (replace_all (remove_dot_quotes ("$VALUE" ++ rest)) sqs dqs) ".[" "[" = "$VALUE" ++ rest.
Proof.
  intros [HC HB]. apply path_char_parts in HC. destruct HC as (H1 & H2 & H3).
  unfold remove_dot_quotes. rewrite remove_dot_quotes_plain by (simpl; repeat split; try discriminate; auto).
  rewrite (replace_absent sqs) by (apply absent_char; simpl; repeat split; try discriminate; auto).
  apply replace_absent. repeat (apply absent_first; [|reflexivity]). exact HB.
Qed.
Lemma value_shape rest c c' : path_chars rest -> c_attr c = "jsonpath:$VALUE" ++ rest -> handle_jsonpath L c = Ok c' ->
  j_rel (c_jp c') = true /\ j_query (c_jp c') = "$VALUE" ++ rest.
Proof.
  intros HC EA H. unfold handle_jsonpath in H. rewrite EA in H.
  change ("jsonpath:$VALUE" ++ rest) with ("jsonpath:" ++ ("$VALUE" ++ rest)) in H.
  assert (EP : has_prefix ("jsonpath:" ++ ("$VALUE" ++ rest)) "jsonpath:" = true) by (apply has_prefix_iff; eauto).
  rewrite EP in H. rewrite slice_after_colon in H. cbn [rbind] in H.
  assert (E1 : slice_has_prefix ["$RELATIVE."; "$KEY"; "$VALUE"] ("$VALUE" ++ rest) = true).
  { unfold slice_has_prefix. cbn [existsb]. assert (EX : has_prefix ("$VALUE" ++ rest) "$VALUE" = true) by (apply has_prefix_iff; eauto). rewrite EX, !orb_true_r. reflexivity. }
  rewrite E1 in H.
  assert (E3 : replace_first ("$VALUE" ++ rest) "$RELATIVE." "$." = "$VALUE" ++ rest).
  { apply replace_first_iff; [discriminate|]. constructor. intros (a & b & E). destruct HC as [HC _]. apply path_char_parts in HC. destruct HC as (_ & _ & H3).
    destruct a as [|x a]; [discriminate E|]. injection E as _ E.
    assert (HA : all_chars (fun c => c <> "$"%char) (a ++ String "$" ("RELATIVE." ++ b))) by (cbn [append] in E; cbn [append]; rewrite <- E; simpl; repeat split; try discriminate; auto).
    apply all_chars_app in HA. destruct HA as [_ HA]. simpl in HA. tauto. }
  cbn iota in H. rewrite E3 in H. change (first_char ("$VALUE" ++ rest)) with (Some "$"%char) in H. cbn [rbind] in H.
  change (Ascii.eqb "$" ".") with false in H. cbn iota in H. rewrite value_cleaned in H by auto.
  injection H as <-. auto.
Qed.
Lemma value_prepared rest : path_chars rest -> prepare_query L ("$VALUE" ++ rest) = Ok (jp_prepare L "$.*").
Proof.
  intros [HC HB]. apply path_char_parts in HC. destruct HC as (_ & _ & H3). unfold prepare_query.
  rewrite (replace_absent "$RELATIVE").
  - change (String.eqb ("$VALUE" ++ rest) "$*") with false. cbn iota.
    assert (E : contains ("$VALUE" ++ rest) "$VALUE" = true) by (apply Validate_proofs.contains_iff; exists "", rest; reflexivity). rewrite E, orb_true_r. reflexivity.
  - intros a b E. destruct a as [|x a]; [discriminate E|]. injection E as _ E.
    assert (HA : all_chars (fun c => c <> "$"%char) (a ++ String "$" ("RELATIVE" ++ b))) by (cbn [append] in E; cbn [append]; rewrite <- E; simpl; repeat split; try discriminate; auto).
    apply all_chars_app in HA. destruct HA as [_ HA]. simpl in HA. tauto.
Qed.

Lemma value_path_condition p rest method value ret c : prepares L p ("jsonpath:$VALUE" ++ rest) method value ret c -> path_chars rest ->
  j_rel (c_jp c) = true /\ j_query (c_jp c) = "$VALUE" ++ rest /\ j_prep (c_jp c) = jp_prepare L "$.*".
Proof.
  intros H HP. remember ("jsonpath:$VALUE" ++ rest) as att eqn:EAT.
  assert (HS : has_prefix att "jsonpath:" = true) by (apply has_prefix_iff; exists ("$VALUE" ++ rest); exact EAT).
  apply prepares_inv in H. destruct H as (v & c1 & c4 & R & EA & EM & EV & EL & EO & EJ & ER & EX & EN & VA & VA2 & VM & NM & RM & HC & HF).
  apply convert_ok in HC. destruct HC as (c2 & c3 & H2 & H3 & H4 & _).
  assert (A3 : c_attr c3 = att).
  { clear - H2 H3 EA HS. destruct (jsonpath_clash _ HS) as (C1 & C2 & C3 & C4). unfold handle_labels in H2. simpl in H2. rewrite EA, C1 in H2. simpl in H2. rewrite C2 in H2. simpl in H2.
    apply rbind_ok in H2. destruct H2 as ((val & lab) & _ & H2). injection H2; intros; subst. clear H2.
    unfold handle_objects in H3. simpl in H3. rewrite C3 in H3. simpl in H3. rewrite C4 in H3. simpl in H3.
    apply rbind_ok in H3. destruct H3 as ((val' & obj) & _ & H3). injection H3; intros; subst. auto. }
  pose proof A3 as A4. rewrite EAT in A4. destruct (value_shape rest _ _ HP A4 H4) as [SR SQ].
  apply handle_jsonpath_ok in H4; [|rewrite A3; auto]. destruct H4 as (rel' & net & E4 & _). subst c4. simpl in *.
  destruct HF as (q & HQ & ->). simpl. subst net. change (prepare_query L ("$VALUE" ++ rest) = Ok q) in HQ. rewrite (value_prepared _ HP) in HQ. injection HQ as <-. auto.
Qed.

(** a parsed document: the names in the path do not count *)
Theorem value_path_parsed : forall p rest method value ret c v kd k x q u t s m b, NumberSpec L ->
  prepares L p ("jsonpath:$VALUE" ++ rest) method value ret c -> starts "." rest -> path_chars rest ->
  replaced p method value v -> plain_value v -> method_is method kd ->
  jp_prepare L "$.*" = Some q -> m_raw m <> None -> m_raw_rel m = Some (GMapS [(k, x)]) -> asks L q x = Some u ->
  go_value u -> found L u t -> t <> "<nil>" ->
  compared t s -> may_return L (NCond c) m b -> (b = true <-> satisfied L kd v s).
Proof.
  intros p rest method value ret c v kd k x q u t s m b HN HP HS HC HR HV HK HJ HM HD HA HG HF HT HCO HB.
  destruct (value_path_condition _ _ _ _ _ _ HP HC) as (E1 & E2 & E3).
  apply returns_evaluates in HB. destruct HB as (ord & HO & HB).
  destruct (prepared_jsonpath _ _ _ _ _ _ _ _ _ HP (ex_intro _ ("$VALUE" ++ rest) eq_refl) HR HV HK) as (R & _).
  eapply Leaf_proofs.parsed_condition; eauto. split; [exact HM|]. exists q. split; [congruence|].
  assert (NV : j_query (c_jp c) <> "$VALUE") by (rewrite E2; destruct HS as [r ->]; discriminate).
  assert (SV : starts "$VALUE" (j_query (c_jp c))) by (rewrite E2; exists rest; reflexivity).
  split.
  - exists (asks L q x). eapply lu_value_sub with (k := k); eauto. simpl. rewrite String.eqb_refl. reflexivity.
  - intros r HX. destruct HX as [d' F1 F2|d' F1 F2 F3|o k' x' F1 F2 F3 F4|o k' x' F1 F2 F3 F4|o k' x' F1 F2 F3 F4 F5|F1 F2 F3]; try congruence.
    + exfalso. apply F2. right. exact SV.
    + exfalso. rewrite E2 in F2. discriminate F2.
    + replace o with [(k, x)] in F5 by congruence. simpl in F5. destruct (String.eqb k' k); [|discriminate F5]. injection F5 as <-.
      rewrite HA. apply (status_text L u t s); auto.
Qed.

Theorem names_ignored : forall p rest rest' method value ret ret' c c' v kd k x q u t s m b b', NumberSpec L ->
  prepares L p ("jsonpath:$VALUE" ++ rest) method value ret c -> starts "." rest -> path_chars rest ->
  prepares L p ("jsonpath:$VALUE" ++ rest') method value ret' c' -> starts "." rest' -> path_chars rest' ->
  replaced p method value v -> plain_value v -> method_is method kd ->
  jp_prepare L "$.*" = Some q -> m_raw m <> None -> m_raw_rel m = Some (GMapS [(k, x)]) -> asks L q x = Some u ->
  go_value u -> found L u t -> t <> "<nil>" -> compared t s ->
  may_return L (NCond c) m b -> may_return L (NCond c') m b' -> b = b'.
Proof.
  intros p rest rest' method value ret ret' c c' v kd k x q u t s m b b' HN HP HS HC HP' HS' HC' HR HV HK HJ HM HD HA HG HF HT HCO HB HB'.
  assert (H1 : b = true <-> satisfied L kd v s) by (eapply (value_path_parsed p rest); eauto).
  assert (H2 : b' = true <-> satisfied L kd v s) by (eapply (value_path_parsed p rest'); eauto).
  destruct b, b'; intuition congruence.
Qed.

(** a raw document: the path is looked up in the JSON text of the value *)
Theorem value_path_raw : forall p path method value ret c v kd k x d t raw s m b, NumberSpec L ->
  prepares L p ("jsonpath:$VALUE." ++ path) method value ret c -> path_chars ("." ++ path) ->
  replaced p method value v -> plain_value v -> method_is method kd ->
  m_raw m = None -> m_json_rel m = Some d -> document L (GMapS [(k, x)]) d -> encoded L x t -> fetch L t ("$." ++ path) = Some raw ->
  compared raw s -> may_return L (NCond c) m b -> (b = true <-> satisfied L kd v s).
Proof.
  intros p path method value ret c v kd k x d t raw s m b HN HP HC HR HV HK HM HD HT HE HF HCO HB.
  change ("jsonpath:$VALUE." ++ path) with ("jsonpath:$VALUE" ++ ("." ++ path)) in HP.
  destruct (value_path_condition _ _ _ _ _ _ HP HC) as (E1 & E2 & E3).
  apply returns_evaluates in HB. destruct HB as (ord & HO & HB).
  destruct (prepared_jsonpath _ _ _ _ _ _ _ _ _ HP (ex_intro _ ("$VALUE" ++ "." ++ path) eq_refl) HR HV HK) as (R & _).
  eapply Leaf_proofs.raw_condition; eauto. split; [exact HM|].
  pose proof (rl_entry_sub L m (c_jp c) d path E1 E2 HD (document_nonempty _ _ _ HT)) as HX.
  rewrite E2 in HX. unfold entry_text in HX. apply parse_iff in HT. rewrite HT in HX. cbn [append String.eqb Ascii.eqb Bool.eqb] in HX.
  apply parsed_go_value in HT. inversion HT as [| | | | | |? _ HL|]; subst. inversion HL as [|? ? HG _]; subst. cbn [snd] in HG.
  apply marshal_encoded in HE; [|exact HG]. rewrite HE in HX. change ("$." ++ path) with (String "$" (String "." path)) in HF. rewrite HF in HX.
  exists (Some raw). split; [exact HX|]. apply status_iff. exact HCO.
Qed.
End WithLib.
