(** Which evaluations on a parsed document panic. *)
From Coq Require Import List String Ascii Bool Arith ZArith Permutation Lia.
From Verif Require Import Base GoStr GoStr_facts GoFloat Types Json StrUtils Validate Prepare Parse Eval
  Spec_Tree Spec_Extra Tree_proofs Tree_truth Tree_laws Spec_Leaf Spec_Glob Glob_proofs Match_proofs Number_proofs Leaf_proofs Leaf_laws
  Attr_proofs Prepare_proofs Spec_Load Load_proofs Mongo_proofs Outcome_proofs Lifecycle_proofs Spec_Outcome Spec_Panic.
Import ListNotations.
Open Scope string_scope.

(** ** The query of a JSON-path condition *)
Definition tidy_path (s : string) : string := replace_all (replace_all (remove_dot_quotes s) sqs dqs) ".[" "[".
Definition word_char (c : ascii) : Prop := c <> "."%char /\ c <> sq /\ c <> dq.

Lemma tidy_word w r : all_chars word_char w -> tidy_path (w ++ r) = w ++ tidy_path r.
Proof.
  intro H. induction w as [|c w IH]; auto. destruct H as [(H1 & H2 & H3) H]. cbn [append]. rewrite <- IH by auto. generalize (w ++ r). intro s.
  apply Ascii.eqb_neq in H1. unfold tidy_path, remove_dot_quotes. cbn [remove_dot_quotes_from andb]. rewrite H1.
  unfold replace_all. cbn [replace_all_from].
  assert (E1 : forall x, String.prefix sqs (String c x) = false).
  { intro x. unfold sqs. rewrite prefix_head. apply Ascii.eqb_neq in H2. rewrite Ascii.eqb_sym, H2. auto. }
  rewrite E1. cbn [replace_all_from]. rewrite prefix_head, Ascii.eqb_sym, H1. auto.
Qed.
Lemma tidy_nonempty s : tidy_path s = "" -> s = "".
Proof.
  destruct s as [|c s]; auto. unfold tidy_path, remove_dot_quotes. cbn [remove_dot_quotes_from andb]. unfold replace_all. cbn [replace_all_from].
  destruct (String.prefix sqs _); [discriminate|]. cbn [replace_all_from]. destruct (String.prefix ".[" _); discriminate.
Qed.
Lemma tidy_dot s : exists r, tidy_path ("." ++ s) = String "." r \/ tidy_path ("." ++ s) = String "[" r.
Proof.
  unfold tidy_path, remove_dot_quotes. cbn [append remove_dot_quotes_from andb]. unfold replace_all. cbn [replace_all_from].
  change (String.prefix sqs (String "." ?x)) with false. cbn iota. cbn [replace_all_from]. destruct (String.prefix ".[" _); cbn; eauto.
Qed.

Lemma relative_in_key r : exists r', replace_first ("$KEY" ++ r) "$RELATIVE." "$." = "$KEY" ++ r' /\ (r' = "" -> r = "").
Proof.
  exists (replace_first r "$RELATIVE." "$."). split; [reflexivity|]. destruct r as [|c r]; auto. cbn [replace_first].
  destruct (String.prefix _ _); discriminate.
Qed.
Lemma relative_in_value r : exists r', replace_first ("$VALUE" ++ r) "$RELATIVE." "$." = "$VALUE" ++ r'.
Proof. exists (replace_first r "$RELATIVE." "$."). reflexivity. Qed.

Section WithLib.
Variable L : Lib.

Lemma entry_queries net c c' : c_attr c = "jsonpath:" ++ net -> handle_jsonpath L c = Ok c' ->
  j_is (c_jp c') = true /\
  (j_rel (c_jp c') = true /\ key_query L (c_jp c') <-> net = "$KEY" \/ starts "$VALUE" net).
Proof.
  intros EA H. unfold handle_jsonpath in H. rewrite EA, has_prefix_app, slice_after_colon in H. cbn [rbind] in H.
  destruct (if slice_has_prefix _ _ then _ else _) as [net1 rel] eqn:E1.
  apply rbind_ok in H. destruct H as (net2 & H2 & H). injection H as <-. cbn [c_jp j_is j_rel]. split; auto. unfold key_query. cbn [j_query].
  change (replace_all (replace_all (remove_dot_quotes net2) sqs dqs) ".[" "[") with (tidy_path net2).
  unfold slice_has_prefix in E1. cbn [existsb] in E1. rewrite orb_false_r in E1.
  assert (W1 : all_chars word_char "$KEY") by (simpl; repeat split; discriminate).
  assert (W2 : all_chars word_char "$VALUE") by (simpl; repeat split; discriminate).
  destruct (has_prefix net "$RELATIVE.") eqn:P1.
  { apply has_prefix_iff in P1. destruct P1 as [r ->]. cbn [orb] in E1. rewrite replace_first_app in E1. injection E1 as <- <-.
    cbn in H2. injection H2 as <-. change (String "$" (String "." r)) with ("$" ++ ("." ++ r)). rewrite tidy_word by (simpl; repeat split; discriminate).
    destruct (tidy_dot r) as [r' [E|E]]; rewrite E; (split; [intros [_ [HX|[x HX]]]; discriminate|intros [HX|[x HX]]; discriminate]). }
  destruct (has_prefix net "$KEY") eqn:P2.
  { apply has_prefix_iff in P2. destruct P2 as [r ->]. cbn [orb] in E1. destruct (relative_in_key r) as (r' & ER & HR). rewrite ER in E1. injection E1 as <- <-.
    cbn in H2. injection H2 as <-. change (String "$" (String "K" (String "E" (String "Y" r')))) with ("$KEY" ++ r'). rewrite tidy_word by auto. split.
    - intros [_ [HX|[x HX]]]; [|discriminate]. left. injection HX as HX. apply tidy_nonempty in HX. rewrite (HR HX). auto.
    - intros [HX|[x HX]]; [|discriminate]. injection HX as ->. split; auto. left.
      assert (r' = "") by (cbn in ER; congruence). subst. reflexivity. }
  destruct (has_prefix net "$VALUE") eqn:P3.
  { apply has_prefix_iff in P3. destruct P3 as [r ->]. cbn [orb] in E1. destruct (relative_in_value r) as (r' & ER). rewrite ER in E1. injection E1 as <- <-.
    cbn in H2. injection H2 as <-. change (String "$" (String "V" (String "A" (String "L" (String "U" (String "E" r')))))) with ("$VALUE" ++ r').
    rewrite tidy_word by auto. split; [intros _; right; exists r; auto|]. intros _. split; auto. right. exists (tidy_path r'). auto. }
  cbn [orb] in E1.
  assert (N : ~ (net = "$KEY" \/ starts "$VALUE" net)).
  { intros [->|HX]; [discriminate|]. apply starts_iff in HX. congruence. }
  destruct (String.eqb net "$RELATIVE"); injection E1 as <- <-; [|split; [intros [HX _]; discriminate|tauto]].
  cbn in H2. injection H2 as <-. split; [|tauto]. intros [_ [HX|[x HX]]]; discriminate.
Qed.

(** ** The prepared condition *)
Lemma labels_parts c c' : handle_labels L c = Ok c' -> c_num c' = c_num c /\ c_ret c' = c_ret c /\ c_jp c' = c_jp c.
Proof.
  unfold handle_labels. intro H. apply rbind_ok in H. destruct H as ([a1 l1] & H1 & H). apply rbind_ok in H. destruct H as ([a2 l2] & H2 & H).
  apply rbind_ok in H. destruct H as ([v3 l3] & H3 & H). injection H as <-. auto.
Qed.
Lemma objects_parts c c' : handle_objects L c = Ok c' -> c_num c' = c_num c /\ c_ret c' = c_ret c /\ c_jp c' = c_jp c.
Proof.
  unfold handle_objects. intro H. apply rbind_ok in H. destruct H as ([a1 l1] & H1 & H). apply rbind_ok in H. destruct H as ([a2 l2] & H2 & H).
  apply rbind_ok in H. destruct H as ([v3 l3] & H3 & H). injection H as <-. auto.
Qed.

Lemma prepared_parts p att method value ret c : prepares L p att method value ret c ->
  exists v k, replaced p method value v /\ method_is method k /\ c_orig c = mkOrig att method v /\ c_ret c = ret /\
    (NumberSpec L -> n_int (c_num c) <> None -> n_float (c_num c) <> None) /\
    if has_prefix att "jsonpath:" then
      c_attr c = "jsonpath" /\ j_is (c_jp c) = true /\ prepare_query L (j_query (c_jp c)) = Ok (j_prep (c_jp c)) /\
      (j_rel (c_jp c) = true /\ key_query L (c_jp c) <-> att = "jsonpath:$KEY" \/ starts "jsonpath:$VALUE" att)
    else c_attr c <> "jsonpath" /\ (In (c_attr c) ["payloadSize"; "utcHoursFromMidnight"; "encryptionVersion"] -> c_attr c = att).
Proof.
  intro HP. pose proof HP as HP0. apply prepares_inv in HP.
  destruct HP as (v & c1 & c4 & R & EA & EM & EV & EL & EO & EJ & ER & EX & EN & VA & VA2 & VM & NM & RM & HC & HF).
  apply convert_ok in HC. destruct HC as (c2 & c3 & H2 & H3 & H4 & HRE & _).
  destruct (labels_parts _ _ H2) as (N2 & R2 & J2). destruct (objects_parts _ _ H3) as (N3 & R3 & J3).
  apply labels_keep in H2. apply objects_keep in H3. cbn [converted c_method c_orig c_attr] in H2.
  destruct H2 as (M2 & O2 & A2), H3 as (M3 & O3 & A3).
  assert (HK : exists k, method_is method k).
  { unfold validate_method in VM. destruct (contains_string supported_methods method) eqn:EC; [|discriminate].
    apply Validate_proofs.supported_kind. exact EC. }
  destruct HK as [k HK].
  assert (HAT : att <> "jsonpath") by (intros ->; vm_compute in VA2; discriminate).
  exists v, k. split; auto. split; auto.
  assert (G : c_orig c4 = mkOrig att method v /\ c_ret c4 = ret /\ c_num c4 = c_num (converted L c1) /\
    if has_prefix att "jsonpath:" then
      c_attr c4 = "jsonpath" /\ j_is (c_jp c4) = true /\
      (j_rel (c_jp c4) = true /\ key_query L (c_jp c4) <-> att = "jsonpath:$KEY" \/ starts "jsonpath:$VALUE" att)
    else c_attr c4 <> "jsonpath" /\ j_is (c_jp c4) = false /\ (In (c_attr c4) ["payloadSize"; "utcHoursFromMidnight"; "encryptionVersion"] -> c_attr c4 = att)).
  { rewrite EA in A2. destruct (has_prefix att "jsonpath:") eqn:EP.
    - assert (E3 : c_attr c3 = att) by (destruct A2 as [A2|[A2 _]]; destruct A3 as [A3|[A3 _]]; congruence).
      pose proof EP as EP'. apply has_prefix_iff in EP'. destruct EP' as [net EP'].
      pose proof H4 as H5. apply (entry_queries net) in H5; [|congruence]. destruct H5 as [J5 K5].
      assert (EI : (att = "jsonpath:$KEY" \/ starts "jsonpath:$VALUE" att) <-> (net = "$KEY" \/ starts "$VALUE" net)).
      { rewrite EP'. split.
        - intros [HX|[x HX]]; [left; injection HX; auto|right; exists x]. injection HX; auto.
        - intros [->|[x ->]]; [left; auto|right; exists x; auto]. }
      rewrite EI. apply handle_jsonpath_ok in H4; [|congruence]. destruct H4 as (rel & net' & E4 & _). rewrite E4 in *.
      cbn [c_orig c_ret c_num c_attr c_jp j_is] in *. rewrite O3, O2, R3, R2, N3, N2, EA, EM, EV. cbn [converted c_ret]. repeat split; auto; tauto.
    - assert (NJ : forall x, In x [att; "senderLabel"; "receiverLabel"; "$sender"; "$receiver"] -> has_prefix x "jsonpath:" = false /\ x <> "jsonpath").
      { intros x HX. simpl in HX. destruct HX as [<-|HX].
        - split; auto.
        - repeat (destruct HX as [<-|HX]; [split; [reflexivity|discriminate]|]). destruct HX. }
      assert (E3 : In (c_attr c3) [att; "senderLabel"; "receiverLabel"; "$sender"; "$receiver"]).
      { simpl. destruct A3 as [A3|[_ A3]]; [rewrite A3; destruct A2 as [A2|[_ A2]]; [rewrite A2; auto|]|]; [simpl in A2|simpl in A3]; tauto. }
      destruct (NJ _ E3) as [P3 P4].
      rewrite handle_jsonpath_none in H4 by auto. injection H4 as <-.
      rewrite O3, O2, R3, R2, N3, N2, J3, J2, EA, EM, EV. cbn [converted c_ret c_jp]. rewrite EJ. repeat split; auto.
      simpl in E3. intro HX. destruct E3 as [E3|E3]; auto. exfalso. simpl in HX. intuition congruence. }
  destruct G as (G1 & G2 & G3 & G4).
  assert (HNUM : NumberSpec L -> n_int (c_num c4) <> None -> n_float (c_num c4) <> None).
  { intros HN HI. rewrite G3 in *. cbn [converted c_num n_int n_float] in *. destruct (EN HN) as [E1 E2]. rewrite E1, E2 in *. rewrite EM, EV in *.
    destruct (parse_int (final_value method v)) as [z|] eqn:P1.
    - pose proof (int_is_number L _ _ HN P1). destruct (float_with_units L (final_value method v)); [discriminate|congruence].
    - cbn [or_else] in HI. destruct (parse_int v) as [z|] eqn:P2; [|congruence]. pose proof (int_is_number L _ _ HN P2).
      destruct (float_with_units L (final_value method v)); [discriminate|]. auto. }
  destruct (has_prefix att "jsonpath:").
  - destruct G4 as (G4 & G5 & G6). rewrite G5 in HF. destruct HF as (q & HQ & ->). cbn [c_orig c_ret c_num c_attr c_jp j_is j_rel j_prep j_query].
    unfold key_query in *. cbn [j_query]. auto 20.
  - destruct G4 as (G4 & G5 & G6). rewrite G5 in HF. subst c. auto 20.
Qed.

(** ** Conditions that are not JSON paths *)
Lemma total_run c m : ~ In (c_attr c) ["payloadSize"; "utcHoursFromMidnight"; "encryptionVersion"; "jsonpath"] -> exists r, plain_run L c m (Some r).
Proof.
  intro H. unfold plain_run, test_condition, mbind, mmsg, mret. cbn [e_msg].
  assert (N : forall w, In w ["payloadSize"; "utcHoursFromMidnight"; "encryptionVersion"; "jsonpath"] -> String.eqb (c_attr c) w = false).
  { intros w HW. apply String.eqb_neq. intros E. rewrite E in H. auto. }
  rewrite (N "payloadSize"), (N "utcHoursFromMidnight"), (N "encryptionVersion"), (N "jsonpath") by (simpl; tauto).
  repeat match goal with |- context [if ?b then _ else _] => destruct b; [eexists; intros; reflexivity|] end.
  eexists; intros; reflexivity.
Qed.

(** ** JSON-path conditions *)
Lemma compare_never_none c text : (n_int (c_num c) <> None -> n_float (c_num c) <> None) -> compare_iface L c text <> None.
Proof.
  intro HN. unfold compare_iface.
  repeat (match goal with |- context [if ?b then _ else _] => destruct b end; try discriminate).
  all: destruct (remove_quotes_from_result _) as [t|]; try discriminate.
  all: repeat (match goal with |- context [if ?b then _ else _] => destruct b end; try discriminate).
  all: destruct (n_int (c_num c)), (n_float (c_num c)); try discriminate;
    try (exfalso; apply HN; [discriminate|reflexivity]); destruct (float_with_units L t); try discriminate;
    unfold compare_float; repeat (match goal with |- context [if ?b then _ else _] => destruct b end; try discriminate).
Qed.

Lemma test_panics ord c q m t : fair ord -> j_is (c_jp c) = true -> (n_int (c_num c) <> None -> n_float (c_num c) <> None) -> m_raw m <> None ->
  (fst (test_json_iface L ord c q m (mkEst m t)) = None <->
   j_rel (c_jp c) = true /\ key_query L (c_jp c) /\ exists d, m_raw_rel m = Some d /\ not_object d).
Proof.
  intros HF EJ HN HM. unfold test_json_iface. rewrite EJ. cbn [negb].
  assert (FIN : forall (w : iface * bool) e,
     fst ((if snd w then mret (empty_result L c) else mopt (compare_iface L c (iface_text L (fst w)))) e) <> None).
  { intros [w err] e0. simpl. destruct err; [discriminate|]. apply compare_never_none. auto. }
  destruct (j_rel (c_jp c)) eqn:ER.
  - destruct (m_raw_rel m) as [d|] eqn:EM.
    2:{ split; [discriminate|]. intros (_ & _ & d & HD & _). discriminate. }
    destruct (String.eqb (j_query (c_jp c)) "$KEY" || has_prefix (j_query (c_jp c)) "$VALUE") eqn:EQ.
    + assert (KQ : key_query L (c_jp c)).
      { unfold key_query. apply orb_true_iff in EQ. destruct EQ as [EQ|EQ]; [left; apply String.eqb_eq; auto|right; apply starts_iff; auto]. }
      unfold mbind. destruct (get_key_value_iface L ord c q d (mkEst m t)) as [[r|] e1] eqn:EG.
      * split; [intro HX; exfalso; eapply FIN; exact HX|]. intros (_ & _ & d' & HD & HO). injection HD as <-. exfalso.
        destruct d; try discriminate. eapply HO; eauto.
      * split; [|auto]. intros _. split; auto. split; auto. exists d. split; auto. intros o ->.
        unfold get_key_value_iface, mrange, mbind in EG. cbn [e_tick] in EG.
        destruct (ord t (keys o)) as [|key ks] eqn:EO; [discriminate|].
        destruct (fair_head ord o _ _ _ HF EO) as (x & HI & y & HA). rewrite HA in EG.
        destruct (String.eqb _ "$KEY"); [discriminate|]. destruct (String.eqb _ "$VALUE"); discriminate.
    + split; [intro HX; exfalso; eapply FIN; exact HX|]. intros (_ & [KQ|KQ] & _); exfalso.
      * rewrite KQ in EQ. discriminate.
      * apply starts_iff in KQ. rewrite KQ, orb_true_r in EQ. discriminate.
  - destruct (m_raw m) as [d|]; [|congruence]. split; [intro HX; exfalso; eapply FIN; exact HX|]. intros [HX _]. discriminate.
Qed.

Lemma json_run ord c q m t : c_attr c = "jsonpath" -> m_raw m <> None -> j_prep (c_jp c) = Some q ->
  test_condition L ord c (mkEst m t) =
  match test_json_iface L ord c q m (mkEst m t) with
  | (None, s) => (None, s)
  | (Some flag, s) =>
    match r_paths (c_ret c) with
    | Some _ => if flag then match get_extra L c m with Some e => (Some (flag, [e]), s) | None => (None, s) end else (Some (flag, []), s)
    | None => (Some (flag, []), s)
    end
  end.
Proof.
  intros EA HM EQ. unfold test_condition, mbind, mmsg, mret, mopt. cbn [e_msg]. rewrite EA.
  change (is_any "jsonpath" ["true"; "TRUE"]) with false. change (is_any "jsonpath" ["false"; "FALSE"]) with false. cbn [String.eqb Ascii.eqb Bool.eqb].
  rewrite EQ. destruct (m_raw m); [|congruence]. destruct (test_json_iface _ _ _ _ _ _) as [[flag|] s]; auto.
  destruct (r_paths (c_ret c)); auto; destruct flag; auto; destruct (get_extra L c m); auto.
Qed.
Lemma bare_run ord c q m t : c_attr c = "jsonpath" -> m_raw m <> None -> j_prep (c_jp c) = Some q ->
  test_condition L ord (bare L c) (mkEst m t) =
  match test_json_iface L ord c q m (mkEst m t) with (None, s) => (None, s) | (Some flag, s) => (Some (flag, []), s) end.
Proof. intros EA HM EQ. rewrite (json_run ord (bare L c) q); auto. Qed.

Lemma collect_none {A B} (f : A -> option (option B)) l : collect f l = None <-> exists x, In x l /\ f x = None.
Proof.
  induction l as [|a l IH]; simpl.
  - split; [discriminate|]. intros (x & [] & _).
  - destruct (f a) as [y|] eqn:EF.
    + destruct (collect f l) as [ys|].
      * split; [destruct y; discriminate|]. intros (x & [<-|HI] & HX); [congruence|]. exfalso.
        assert (E : Some ys = None) by (apply IH; eauto). discriminate.
      * split; [|auto]. intros _. destruct (proj1 IH eq_refl) as (x & HI & HX). eauto.
    + split; eauto.
Qed.

Lemma cond_ret_relative rest : cond_ret_path ("jsonpath:$RELATIVE" ++ rest) = "$RELATIVE" ++ rest.
Proof. change ("jsonpath:$RELATIVE" ++ rest) with ("jsonpath:$" ++ ("RELATIVE" ++ rest)). change ("$RELATIVE" ++ rest) with ("$" ++ ("RELATIVE" ++ rest)). unfold cond_ret_path. apply replace_first_app. Qed.

Lemma returns_panic cn c m rets : distinct_returns cn -> cn_ret cn = Some rets -> c_ret c = c_ret (condition_from_node L cn) -> m_raw m <> None ->
  (get_extra L c m = None <-> exists name rest, In (name, "jsonpath:$RELATIVE" ++ rest) rets /\ jp_prepare L ("$RELATIVE" ++ rest) <> None /\ m_raw_rel m = None).
Proof.
  intros HD ER EC HM. unfold distinct_returns in HD. rewrite ER in HD. unfold get_extra. destruct (m_raw m) as [d|] eqn:ED; [|congruence]. clear HM.
  unfold extra_iface. rewrite collect_none, EC. unfold condition_from_node. rewrite ER. cbn [c_ret r_prep].
  assert (HG : forall name path, In (name, path) rets ->
    get_str name (map (fun kv => (fst kv, cond_ret_path (snd kv))) rets) = cond_ret_path path /\
    get_flag name (map (fun kv => (fst kv, has_prefix (snd kv) "jsonpath:$RELATIVE")) rets) = has_prefix path "jsonpath:$RELATIVE").
  { assert (AM : forall B (f : string -> B) name path, In (name, path) rets -> assoc name (map (fun kv => (fst kv, f (snd kv))) rets) = Some (f path)).
    { intros B f name path HI. apply in_assoc; [unfold keys in *; rewrite map_map; exact HD|]. apply in_map_iff. exists (name, path). auto. }
    intros name path HI. unfold get_str, get_flag. rewrite (AM _ cond_ret_path _ _ HI), (AM _ (fun s => has_prefix s "jsonpath:$RELATIVE") _ _ HI). auto. }
  split.
  - intros ([name q] & HI & HX). apply in_map_iff in HI. destruct HI as ([name' path] & E & HI). cbn [fst snd] in E. injection E as -> <-.
    destruct (HG _ _ HI) as [G1 G2]. unfold extra_iface_one in HX. cbn [fst snd r_paths r_rel] in HX. rewrite G1, G2, ED in HX.
    destruct (has_prefix path "jsonpath:$RELATIVE") eqn:EP.
    + apply has_prefix_iff in EP. destruct EP as [rest ->]. exists name, rest. split; auto. rewrite cond_ret_relative in HX.
      change (String.eqb ("$RELATIVE" ++ rest) "$*") with false in HX. cbn iota in HX. destruct (jp_prepare L ("$RELATIVE" ++ rest)) as [q|]; [|discriminate].
      split; [discriminate|]. destruct (m_raw_rel m) as [i|]; auto; destruct (query_interface L q i); discriminate.
    + exfalso. destruct (String.eqb _ "$*"); [discriminate|]. destruct (jp_prepare L _); [|discriminate]. destruct (query_interface L j d); discriminate.
  - intros (name & rest & HI & HP & HM). exists (name, jp_prepare L ("$RELATIVE" ++ rest)). split.
    + apply in_map_iff. exists (name, "jsonpath:$RELATIVE" ++ rest). split; [|exact HI]. cbn [fst snd]. rewrite cond_ret_relative. auto.
    + destruct (HG _ _ HI) as [G1 G2]. unfold extra_iface_one. cbn [fst snd r_paths r_rel]. rewrite G1, G2, has_prefix_app, cond_ret_relative, HM.
      change (String.eqb ("$RELATIVE" ++ rest) "$*") with false. cbn iota. destruct (jp_prepare L _); [auto|congruence].
Qed.

Lemma fair_id : fair (fun _ ks => ks).
Proof. intros t ks. auto. Qed.

Hypothesis HStar : jp_prepare L "$.*" <> None.
Lemma query_some s q : prepare_query L s = Ok q -> q <> None.
Proof.
  unfold prepare_query. intro H. destruct (_ || _) in H; [injection H as <-; auto|].
  clear HStar. destruct (jp_prepare L _) as [x|] in H; [injection H as <-|]; discriminate.
Qed.

Theorem field_panics cn c0 p c m : NumberSpec L -> validate_condition L (condition_from_node L cn) = Ok c0 ->
  prepare_condition L p c0 = Ok c -> has_prefix (cn_attr cn) "jsonpath:" = false -> (may_panic L (NCond c) m <-> condition_cause L c m).
Proof.
  intros HN HV HP EP.
  assert (HPR : prepares L p (cn_attr cn) (cn_method cn) (cn_value cn) (c_ret (condition_from_node L cn)) c) by (exists c0; split; [exact HV|exact HP]).
  destruct (prepared_parts _ _ _ _ _ _ HPR) as (v & k & HR & HK & EO & ERT & HNUM & HC). specialize (HNUM HN).
  set (att := cn_attr cn) in *. set (method := cn_method cn) in *.
  assert (KF : forall k', method_is method k' -> k' = k).
  { intros k' HK'. unfold method_is in *. clear -HK HK'. unfold method_words in *. simpl in HK, HK'.
    repeat (destruct HK as [HK|HK]; [injection HK as E1 E2; rewrite <- E1, <- E2 in *; clear E1;
      repeat (destruct HK' as [HK'|HK']; [first [discriminate HK' | injection HK'; congruence]|]); destruct HK'|]). destruct HK. }
  rewrite EP in HC.
  destruct HC as [NJ HC].
  assert (NS : forall w, ~ starts ("jsonpath:" ++ w) att).
  { intros w [r E]. assert (has_prefix att "jsonpath:" = true) by (apply starts_iff; exists (w ++ r); rewrite E, append_assoc; auto). congruence. }
  assert (CC : condition_cause L c m <-> (att = "payloadSize" /\ In k number_kinds /\ parse_int v = None) \/
    (att = "utcHoursFromMidnight" /\ In k number_kinds /\ not_number L v) \/
    (att = "encryptionVersion" /\ (m_enc_version m = None \/ In k number_kinds /\ not_number L v))).
  { split.
    - intro HX. destruct HX as [k' E HK' HI HX|k' E HK' HI HX|k' E HK' HI HX|E HX|d E HE HO|rets name rest HS HRE HI HJ HE HB]; rewrite EO in *; cbn [og_attr og_method og_value] in *.
      + rewrite (KF _ HK') in HI. auto.
      + rewrite (KF _ HK') in HI. auto.
      + rewrite (KF _ HK') in HI. auto 10.
      + auto.
      + exfalso. destruct E as [E|E]; [apply (NS "$KEY"); exists ""; rewrite E; auto|apply (NS "$VALUE"); auto].
      + exfalso. apply (NS ""). auto.
    - intros [(E & HI & HX)|[(E & HI & HX)|(E & [HX|[HI HX]])]].
      + apply cc_size with k; rewrite ?EO; auto.
      + apply cc_hours with k; rewrite ?EO; auto.
      + apply cc_no_version; [rewrite EO; auto|auto].
      + apply cc_version with k; rewrite ?EO; auto. }
  rewrite CC. clear CC.
  destruct (in_dec string_dec att ["payloadSize"; "utcHoursFromMidnight"; "encryptionVersion"]) as [HI|HI].
  + simpl in HI. destruct HI as [HI|[HI|[HI|[]]]]; rewrite <- HI in HPR |- *.
    * destruct (size_attribute L _ _ _ _ _ _ _ m HN HPR HR HK) as [_ ->]. intuition discriminate.
    * destruct (hours_attribute L _ _ _ _ _ _ _ m HN HPR HR HK) as [_ ->]. intuition discriminate.
    * destruct (version_attribute L _ _ _ _ _ _ _ m HN HPR HR HK) as [_ ->]. intuition discriminate.
  + assert (exists r, plain_run L c m (Some r)) as [r R].
    { apply total_run. intro HX. apply HI. assert (HY : In (c_attr c) ["payloadSize"; "utcHoursFromMidnight"; "encryptionVersion"]) by (simpl in *; intuition congruence).
      rewrite <- (HC HY). auto. }
    rewrite (run_panic _ _ _ _ R). simpl in HI. intuition congruence.
Qed.

Theorem condition_panics cn c0 p c m : NumberSpec L -> distinct_returns cn -> validate_condition L (condition_from_node L cn) = Ok c0 ->
  prepare_condition L p c0 = Ok c -> m_raw m <> None -> (may_panic L (NCond c) m <-> condition_cause L c m).
Proof.
  intros HN HD HV HP HM.
  assert (HPR : prepares L p (cn_attr cn) (cn_method cn) (cn_value cn) (c_ret (condition_from_node L cn)) c) by (exists c0; split; [exact HV|exact HP]).
  destruct (prepared_parts _ _ _ _ _ _ HPR) as (v & k & HR & HK & EO & ERT & HNUM & HC). specialize (HNUM HN).
  set (att := cn_attr cn) in *. set (method := cn_method cn) in *.
  destruct (has_prefix att "jsonpath:") eqn:EP.
  - destruct HC as (EA & EJ & EQ & EK). destruct (j_prep (c_jp c)) as [q|] eqn:EPQ; [|exfalso; eapply query_some; eauto].
    assert (NA : forall w, In w ["payloadSize"; "utcHoursFromMidnight"; "encryptionVersion"] -> att <> w).
    { intros w HW E. rewrite E in EP. simpl in HW. repeat (destruct HW as [<-|HW]; [discriminate|]). destruct HW. }
    split.
    + intros (ord & t & s & HF & H). cbn [eval] in H. rewrite (json_run ord c q) in H by auto.
      pose proof (test_panics ord c q m t HF EJ HNUM HM) as TP.
      destruct (test_json_iface L ord c q m (mkEst m t)) as [[flag|] s1] eqn:ET.
      * destruct (r_paths (c_ret c)) as [paths|] eqn:ERP; [|discriminate]. destruct flag; [|discriminate].
        destruct (get_extra L c m) as [e|] eqn:EG; [discriminate|].
        destruct (cn_ret cn) as [rets|] eqn:ECR.
        -- pose proof EG as EG'. apply (returns_panic cn c m rets HD ECR ERT HM) in EG'. destruct EG' as (name & rest & HI & HJ & HE).
           apply cc_return with rets name rest; auto.
           ++ rewrite EO. cbn [og_attr]. apply starts_iff. auto.
           ++ rewrite ERT. unfold condition_from_node. rewrite ECR. auto.
           ++ exists ord, t, [], s1. split; auto. cbn [eval]. rewrite (bare_run ord c q), ET by auto. auto.
        -- exfalso. rewrite ERT in ERP. unfold condition_from_node in ERP. rewrite ECR in ERP. discriminate.
      * destruct (proj1 TP eq_refl) as (K1 & K2 & d & HE & HO). apply cc_entry with d; auto. rewrite EO. cbn [og_attr]. apply EK. auto.
    + intro HC. destruct HC as [k' E|k' E|k' E|E|d E HE HO|rets name rest HS HRE HI HJ HE HB].
      * exfalso. rewrite EO in E. eapply NA; [|exact E]. simpl; tauto.
      * exfalso. rewrite EO in E. eapply NA; [|exact E]. simpl; tauto.
      * exfalso. rewrite EO in E. eapply NA; [|exact E]. simpl; tauto.
      * exfalso. rewrite EO in E. eapply NA; [|exact E]. simpl; tauto.
      * rewrite EO in E. cbn [og_attr] in E. apply EK in E. destruct E as [K1 K2].
        destruct (test_json_iface L (fun _ ks => ks) c q m (mkEst m 0)) as [r s] eqn:ET. exists (fun _ ks => ks), 0%nat, s. split; [apply fair_id|].
        cbn [eval]. rewrite (json_run _ c q), ET by auto.
        assert (ER : fst (test_json_iface L (fun _ ks => ks) c q m (mkEst m 0)) = None) by (apply test_panics; eauto using fair_id).
        rewrite ET in ER. cbn [fst] in ER. rewrite ER. auto.
      * destruct HB as (ord & t & x & s & HF & H). cbn [eval] in H. rewrite (bare_run ord c q) in H by auto.
        destruct (test_json_iface L ord c q m (mkEst m t)) as [[flag|] s1] eqn:ET; [|discriminate]. injection H as -> <- <-.
        exists ord, t, s1. split; auto. cbn [eval]. rewrite (json_run ord c q), ET by auto.
        assert (ECR : cn_ret cn = Some rets).
        { rewrite ERT in HRE. unfold condition_from_node in HRE. destruct (cn_ret cn); [|discriminate]. injection HRE as ->. auto. }
        assert (EG : get_extra L c m = None) by (apply (returns_panic cn c m rets); eauto). rewrite EG.
        rewrite ERT. unfold condition_from_node. rewrite ECR. auto.
  - eapply field_panics; eauto.
Qed.

(** ** Parent paths *)
Lemma arrange_none ord v s : fst (arrange ord v s) = None <-> scalar v.
Proof.
  unfold scalar. destruct v; cbn; split; try discriminate; try (intros (H1 & H2 & H3); exfalso; first [apply H1; reflexivity|eapply H2; reflexivity|eapply H3; reflexivity]);
    intros _; repeat split; intros; discriminate.
Qed.
Lemma query_all_none ord d qs : Forall (fun q => q <> None) qs -> forall s,
  (fst (query_all L ord qs (Some d) s) = None <-> exists f, In (Some f) qs /\ scalar (fst (jp_query L f d))).
Proof.
  induction qs as [|q qs IH]; intros HQ s; cbn [query_all].
  - split; [discriminate|]. intros (f & [] & _).
  - inversion HQ as [|? ? N HQ']; subst. destruct q as [q|]; [|congruence]. unfold mbind.
    destruct (arrange ord (fst (jp_query L q d)) s) as [[x|] s1] eqn:EA.
    + specialize (IH HQ' s1). destruct (query_all L ord qs (Some d) s1) as [[xs|] s2]; cbn [fst mret].
      * split; [discriminate|]. intros (f & [E|HI] & HS).
        -- injection E as ->. apply (arrange_none ord _ s) in HS. rewrite EA in HS. discriminate.
        -- assert (X : Some xs = None) by (apply IH; eauto). discriminate.
      * split; [|auto]. intros _. destruct (proj1 IH eq_refl) as (f & HI & HS). exists f. split; [right|]; auto.
    + cbn [fst]. split; auto. intros _. exists q. split; [left; auto|]. apply (arrange_none ord _ s). rewrite EA. auto.
Qed.
Lemma refers_iff p : relative_parent p = true <-> refers_to_element p.
Proof. unfold relative_parent, refers_to_element. rewrite !orb_true_iff, !starts_iff, String.eqb_eq. tauto. Qed.

Lemma elements_none ord a m t : a_prep a <> [] -> Forall (fun q => q <> None) (a_prep a) -> m_raw m <> None ->
  (fst (elements_iface L ord a (mkEst m t)) = None <-> parent_cause L a m).
Proof.
  intros HP HQ HM. unfold elements_iface, mbind, mmsg. cbn [e_msg].
  destruct (relative_parent (a_parent a)) eqn:ER.
  - pose proof ER as ER'. apply refers_iff in ER'. destruct (String.eqb (a_parent a) "$RELATIVE*") eqn:ES.
    + apply String.eqb_eq in ES. destruct (m_raw_rel m) as [d|] eqn:EM.
      * split.
        -- intro H. apply pc_entries with d; auto. intros o ->. discriminate.
        -- intros [HR HX|d' HX HE HO|d' f HX _ _ _ _]; [congruence| |congruence]. rewrite EM in HE. injection HE as <-.
           destruct d; auto. exfalso. eapply HO; eauto.
      * split; [|auto]. intros _. apply pc_no_element; auto.
    + apply String.eqb_neq in ES. destruct (m_raw_rel m) as [d|] eqn:EM.
      * rewrite query_all_none by auto. split.
        -- intros (f & HI & HS). apply pc_scalar with d f; auto. intros HX. tauto.
        -- intros [HR HX|d' HX HE HO|d' f HX H1 _ HI HS]; [congruence|congruence|]. specialize (H1 ER'). rewrite EM in H1. injection H1 as <-. eauto.
      * split; [intros _; apply pc_no_element; auto|]. intros _. destruct (a_prep a) as [|q qs]; [congruence|]. inversion HQ; subst. destruct q; auto.
  - assert (NR : ~ refers_to_element (a_parent a)) by (intro HX; apply refers_iff in HX; congruence).
    destruct (m_raw m) as [d|] eqn:EM; [|congruence]. rewrite query_all_none by auto. split.
    + intros (f & HI & HS). apply pc_scalar with d f; auto; [|tauto]. intros E. apply NR. rewrite E. unfold refers_to_element. auto.
    + intros [HR HX|d' HX HE HO|d' f HX _ H1 HI HS]; [tauto|exfalso; apply NR; rewrite HX; unfold refers_to_element; auto|].
      specialize (H1 NR). rewrite EM in H1. injection H1 as <-. eauto.
Qed.
Lemma elements_panic a m : a_prep a <> [] -> Forall (fun q => q <> None) (a_prep a) -> m_raw m <> None ->
  ((exists m', can (fun ord => elements_iface L ord a) m None m') <-> parent_cause L a m).
Proof.
  intros HP HQ HM. split.
  - intros (m' & ord & t & s & HF & H & _). apply (elements_none ord a m t); auto. rewrite H. auto.
  - intro H. apply (elements_none (fun _ ks => ks) a m 0) in H; auto. destruct (elements_iface L (fun _ ks => ks) a (mkEst m 0)) as [r s] eqn:E.
    exists (e_msg s), (fun _ ks => ks), 0%nat, s. cbn [fst] in H. rewrite E, H. split; [apply fair_id|auto].
Qed.

(** ** Return values of ANY never panic *)
Lemma aa_returns_total rets m v : Forall (fun e => starts "jsonpath:$RELATIVE" (snd e)) rets ->
  extra_iface L (set_return_values L rets) (set_raw_rel m (Some v)) <> None.
Proof.
  intros HF H. unfold extra_iface in H. apply collect_none in H. destruct H as ([name q] & HI & HX).
  unfold set_return_values in HI. cbn [r_prep] in HI. apply in_map_iff in HI. destruct HI as ([name' path] & E & HI). cbn [fst snd] in E.
  assert (EN : name' = name) by congruence. subst name'. clear E.
  assert (EF : get_flag name (r_rel (set_return_values L rets)) = true).
  { unfold set_return_values. cbn [r_rel]. unfold get_flag. clear HX. induction rets as [|(k, p) rets IH]; [destruct HI|]. cbn [map assoc fst snd].
    inversion HF as [|? ? HP HF']; subst. cbn [snd] in HP. destruct (String.eqb name k) eqn:EK; [apply starts_iff; auto|]. apply IH; auto.
    destruct HI as [HI|HI]; auto. injection HI as -> ->. rewrite String.eqb_refl in EK. discriminate. }
  unfold extra_iface_one in HX. cbn [fst snd] in HX. rewrite EF in HX. cbn [set_raw_rel m_raw_rel] in HX.
  destruct (String.eqb _ "$*"); [discriminate|]. destruct q as [q|]; [|discriminate]. destruct (query_interface L q v). discriminate.
Qed.

(** ** Trees *)
Lemma split_char_cons c s : split_char c s <> [].
Proof. induction s as [|x s IH]; cbn; [discriminate|]. destruct (Ascii.eqb x c); [discriminate|]. destruct (split_char c s); discriminate. Qed.

Lemma prep_queries qs ps : rmapM (prepare_query L) ps = Ok qs -> Forall (fun q => q <> None) qs /\ (ps <> [] -> qs <> []).
Proof.
  revert qs. induction ps as [|p ps IH]; intros qs H; cbn [rmapM] in H.
  - injection H as <-. auto.
  - apply rbind_ok in H. destruct H as (q & HQ & H). apply rbind_ok in H. destruct H as (qs' & HQS & H). injection H as <-.
    destruct (IH _ HQS) as [I1 _]. split; [constructor; auto; eapply query_some; eauto|discriminate].
Qed.

Theorem tree_panics p n0 : NumberSpec L -> made L n0 -> forall n m, prepare_node L p n0 = Ok n -> m_raw m <> None ->
  (may_panic L n m <-> crash L n m).
Proof.
  intro HN. induction n0 as [ns IH|ns IH|n0 IH|q a n0 IH| | |c|] using node_ind'; intros HMD n m HP HM; cbn [prepare_node] in HP.
  - apply rmap_ok in HP. destruct HP as (ns' & HP & ->). apply rseq_map_ok in HP.
    inversion HMD as [? HF| | | |]; subst. clear HMD.
    assert (HE : Forall (fun n => may_panic L n m <-> crash L n m) ns').
    { induction HP as [|x y ns ns' HXY HR IHR]; constructor; inversion IH; inversion HF; subst; eauto. }
    rewrite and_panic. split.
    + intros (before & n & after & -> & HB & HC). apply cr_and; auto. rewrite Forall_forall in HE. apply HE; auto. apply in_elt.
    + intro HC. inversion HC as [| |before n after m' HB HC'| | | |]; subst. exists before, n, after. split; auto. split; auto.
      rewrite Forall_forall in HE. apply HE; auto. apply in_elt.
  - apply rmap_ok in HP. destruct HP as (ns' & HP & ->). apply rseq_map_ok in HP.
    inversion HMD as [|? HF| | |]; subst. clear HMD.
    assert (HE : Forall (fun n => may_panic L n m <-> crash L n m) ns').
    { induction HP as [|x y ns ns' HXY HR IHR]; constructor; inversion IH; inversion HF; subst; eauto. }
    rewrite or_panic. split.
    + intros (before & n & after & -> & HB & HC). apply cr_or; auto. rewrite Forall_forall in HE. apply HE; auto. apply in_elt.
    + intro HC. inversion HC as [| | |before n after m' HB HC'| | |]; subst. exists before, n, after. split; auto. split; auto.
      rewrite Forall_forall in HE. apply HE; auto. apply in_elt.
  - apply rmap_ok in HP. destruct HP as (n' & HP & ->). rewrite not_panic.
    assert (HI : made L n0) by (inversion HMD as [| |? [->|HX]| |]; subst; [discriminate|auto]).
    rewrite (IH HI _ m HP HM). split; [apply cr_not|]. intro HC. inversion HC; auto.
  - apply rbind_ok in HP. destruct HP as (n' & HP & H). apply rbind_ok in H. destruct H as (a' & HA & H). injection H as <-.
    inversion HMD as [| | |q' s r n'' HI HV HE HR|]; subst. clear HMD.
    assert (HMI : made L n0) by (destruct HI as [->|HI]; [discriminate|auto]). clear HI.
    unfold prepare_aa in HA. apply rbind_ok in HA. destruct HA as (qs & HQ & HA). injection HA as <-. cbn [a_parent a_orig a_ret a_prep List.app] in *.
    destruct (prep_queries _ _ HQ) as [Q1 Q2]. specialize (Q2 (split_char_cons _ _)).
    set (a := mkAA _ _ _ _ _).
    rewrite quant_panic by auto. rewrite elements_panic by auto.
    assert (TOT : r_paths (a_ret a) <> None -> forall v, extra_iface L (a_ret a) (set_raw_rel m (Some v)) <> None).
    { cbn [a a_ret]. destruct HR as [->|(rets & _ & -> & HF)]; [intros HX; cbn in HX; congruence|]. intros _ v. apply aa_returns_total. auto. }
    assert (INN : forall v, may_panic L n' (set_raw_rel m (Some v)) <-> crash L n' (set_raw_rel m (Some v))) by (intro v; apply IH; auto).
    assert (DEC : declared L a <> [] -> r_paths (a_ret a) <> None) by (unfold declared; destruct (r_paths (a_ret a)); [discriminate|auto]).
    split.
    + intros [HC|(before & v & after & HS & HB & HC)]; [apply cr_parent; auto|]. destruct HC as [HC|(_ & _ & HX & HY)]; [|exfalso; eapply TOT; eauto].
      apply INN in HC. destruct q.
      * apply cr_any with before v after; auto. eapply Forall_impl; [|exact HB]. cbn. tauto.
      * apply cr_all with before v after; auto.
    + intro HC. inversion HC as [| | | |? ? ? ? HX|? ? ? before v after HS HB HX|? ? ? before v after HS HB HX]; subst; [left; auto| |]; right; exists before, v, after; split; auto.
      * split; auto. left. apply INN. auto.
      * split; [|left; apply INN; auto]. eapply Forall_impl; [|exact HB]. cbn. intros w [HW|[HW1 HW2]]; [auto|right]. split; auto.
  - injection HP as <-. split; intro H; [destruct H as (ord & t & s & _ & H); discriminate|inversion H].
  - injection HP as <-. split; intro H; [destruct H as (ord & t & s & _ & H); discriminate|inversion H].
  - apply rmap_ok in HP. destruct HP as (c' & HP & ->). inversion HMD as [| | | |cn ? HD HV]; subst.
    rewrite (condition_panics cn c p c' m HN HD HV HP HM). split; [apply cr_condition|]. intro H. inversion H; auto.
  - discriminate.
Qed.

Lemma crash_defect n m : crash L n m -> defect L n m.
Proof.
  induction 1 as [c m H|n m _ IH|before n after m _ _ IH|before n after m _ _ IH|q a n m H|a n m before v after _ _ _ IH|a n m before v after _ _ _ IH].
  - apply df_condition; auto.
  - apply df_not; auto.
  - apply df_and with n; auto. apply in_elt.
  - apply df_or with n; auto. apply in_elt.
  - apply df_parent; auto.
  - apply df_inner with v; auto.
  - apply df_inner with v; auto.
Qed.

Lemma bare_cause c m : (forall rest, jp_prepare L ("$RELATIVE" ++ rest) = None) -> condition_cause L c m -> condition_cause L (bare L c) m.
Proof.
  intros HR [k H1 H2 H3 H4|k H1 H2 H3 H4|k H1 H2 H3 H4|H1 H2|d H1 H2 H3|rets name rest _ _ _ H _ _].
  - apply cc_size with k; auto.
  - apply cc_hours with k; auto.
  - apply cc_version with k; auto.
  - apply cc_no_version; auto.
  - apply cc_entry with d; auto.
  - exfalso. apply H. auto.
Qed.
End WithLib.

Theorem ready_panics L n m : NumberSpec L -> jp_prepare L "$.*" <> None -> ready L n -> m_raw m <> None ->
  (may_panic L n m <-> crash L n m).
Proof.
  intros HN HS (ord & v & t & n0 & t' & p & HF & HV & HL & HP) HM. eapply tree_panics; eauto. eapply tree_made; eauto.
Qed.
Theorem ready_defect L n m : NumberSpec L -> jp_prepare L "$.*" <> None -> ready L n -> m_raw m <> None ->
  may_panic L n m -> defect L n m.
Proof. intros HN HS HR HM H. apply crash_defect. apply ready_panics in H; auto. Qed.
