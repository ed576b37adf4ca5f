(** Copies of rules that were converted or prepared in place. *)
From Coq Require Import List String Ascii Bool Arith ZArith Lia.
From Verif Require Import Base GoStr GoStr_facts GoFloat Types Json StrUtils Validate Prepare Parse Marshal Lifecycle Eval Check Strings
  Spec_Tree Spec_Leaf Spec_Validate Spec_Load Spec_Copy Spec_Text Spec_Match Match_proofs Tree_proofs Number_proofs Leaf_proofs Attr_proofs
  Prepare_proofs Load_proofs Copy_proofs Text_proofs Lifecycle_proofs Spec_InPlace.
Import ListNotations.
Open Scope string_scope.

(** ** Addresses *)
Lemma copied_contains n i : ip_contains (ipnet_json n) i = ip_contains n i.
Proof.
  unfold ip_contains. assert (E : network_number_and_mask (ipnet_json n) = network_number_and_mask n); [|rewrite E; reflexivity].
  destruct n as [a m]. unfold network_number_and_mask, ipnet_json, ip_json. cbn [n_ip n_mask].
  destruct (List.length a =? 4)%nat eqn:EL; [|reflexivity].
  destruct a as [|a0 [|a1 [|a2 [|a3 [|a4 a]]]]]; try discriminate EL. reflexivity.
Qed.

Section WithLib.
Variable L : Lib.
Variable ord : order.

Section Keeps.
Hypothesis HK : keeps_expressions L.

Lemma kept_regex (x : option (RE L)) : regex_json L x = x.
Proof. destruct x as [x|]; [apply HK|reflexivity]. Qed.
Lemma kept_subnet (x : expanded L) a i : match_subnet L (expanded_json L x) a i = match_subnet L x a i.
Proof. unfold match_subnet, expanded_json. cbn [x_is_ip x_is_cidr x_name x_cidr]. rewrite copied_contains. reflexivity. Qed.
Lemma kept_senders xs m : test_sender_list L (map (expanded_json L) xs) m = test_sender_list L xs m.
Proof.
  induction xs as [|x xs IH]; [reflexivity|]. cbn [map test_sender_list]. rewrite kept_subnet, IH.
  unfold expanded_json. cbn [x_type x_regexp]. rewrite kept_regex. reflexivity.
Qed.
Lemma kept_receivers xs m : test_receiver_list L (map (expanded_json L) xs) m = test_receiver_list L xs m.
Proof.
  induction xs as [|x xs IH]; [reflexivity|]. cbn [map test_receiver_list]. rewrite kept_subnet, IH.
  unfold expanded_json. cbn [x_type x_regexp]. rewrite kept_regex. reflexivity.
Qed.

(** the copy of a rule whose tree is [t] *)
Definition copied_with (r : rule L) (t : option (node L)) : rule L :=
  mkRule (ru_id r) (ru_sender_name r) (ru_sender_type r) (map (expanded_json L) (ru_sender_list r))
    (ru_receiver_name r) (ru_receiver_type r) (map (expanded_json L) (ru_receiver_list r))
    (ru_protocol r) (ru_resource_type r) (ru_resource_name r) (regex_json L (ru_resource_regex r))
    (ru_operation r) t (ru_decision r) (ru_metadata r) (ru_hash r) (regex_json L (ru_operation_regex r)) (ru_converted r).
Lemma copy_is r t x t' : copy_tree L ord (ru_tree r) t = (Ok x, t') -> copy_rule L ord r t = (Ok (copied_with r x), t').
Proof. intro H. unfold copy_rule. unfold pbind. rewrite H. reflexivity. Qed.

Lemma copied_check r e : check_prepared L ord (copied_with r (ru_tree r)) e = check_prepared L ord r e.
Proof.
  unfold check_prepared, copied_with, test_sender, test_receiver, test_resource.
  cbn [ru_sender_list ru_receiver_list ru_operation_regex ru_resource_regex ru_protocol ru_resource_type ru_tree ru_decision].
  unfold mbind, mmsg. rewrite kept_senders, kept_receivers, !kept_regex. reflexivity.
Qed.

(** ** Conversion in place *)
Lemma plain_name p s : ~ starts "#" s -> replace_name p s = Ok s.
Proof. intro H. apply replace_name_iff. constructor. exact H. Qed.

(** [r'] is [r] after ConvertFieldsToRegex *)
Lemma converted_form r r' : ru_converted r = false -> convert_fields L r = Ok r' ->
  exists sl rl ore rre, expand L (ru_sender_name r) (ru_sender_type r) = Ok sl /\ expand L (ru_receiver_name r) (ru_receiver_type r) = Ok rl /\
    re_compile L (convert_operation (ru_operation r)) = Some ore /\
    re_compile L (convert_string_to_regex (ru_resource_name r) "WithWildcards") = Some rre /\
    r' = mkRule (ru_id r) (ru_sender_name r) (ru_sender_type r) sl (ru_receiver_name r) (ru_receiver_type r) rl
           (ru_protocol r) (ru_resource_type r) (ru_resource_name r) (Some rre) (ru_operation r) (ru_tree r) (ru_decision r) (ru_metadata r) (ru_hash r)
           (Some ore) true.
Proof.
  intros HV H. unfold convert_fields in H. rewrite HV in H. apply rbind_ok in H. destruct H as (sl & HS & H). apply rbind_ok in H. destruct H as (rl & HR & H).
  destruct (re_compile L (convert_operation _)) as [ore|] eqn:EO; [|discriminate H]. destruct (re_compile L (convert_string_to_regex _ _)) as [rre|] eqn:ER; [|discriminate H].
  injection H as <-. exists sl, rl, ore, rre. auto 10.
Qed.

Definition recopied (r : rule L) : rule L := copied_with r (ru_tree r).
Lemma reprepared r r' g x : underived L r -> ~ starts "#" (ru_sender_name r) -> ~ starts "#" (ru_receiver_name r) -> convert_fields L r = Ok r' ->
  prepare_rule L g (copied_with r' x) = rmap recopied (prepare_rule L g (copied_with r x)).
Proof.
  intros (U1 & U2 & U3 & U4 & U5) N1 N2 HC. destruct (converted_form _ _ U5 HC) as (sl & rl & ore & rre & E1 & E2 & E3 & E4 & ->). clear HC.
  unfold prepare_rule, copied_with. cbn [ru_tree ru_id ru_sender_name ru_sender_type ru_sender_list ru_receiver_name ru_receiver_type ru_receiver_list
    ru_protocol ru_resource_type ru_resource_name ru_resource_regex ru_operation ru_decision ru_metadata ru_hash ru_operation_regex ru_converted].
  rewrite U5.
  destruct x as [n|].
  - destruct (prepare_node L g n) as [n'| |]; [|reflexivity|reflexivity]. cbn [rbind].
    unfold replace_in_rule, set_tree. cbn [ru_tree ru_id ru_sender_name ru_sender_type ru_sender_list ru_receiver_name ru_receiver_type ru_receiver_list
    ru_protocol ru_resource_type ru_resource_name ru_resource_regex ru_operation ru_decision ru_metadata ru_hash ru_operation_regex ru_converted].
    rewrite !(plain_name g _ N1), !(plain_name g _ N2). cbn [rbind]. unfold convert_fields. cbn [ru_tree ru_id ru_sender_name ru_sender_type ru_sender_list ru_receiver_name ru_receiver_type ru_receiver_list
    ru_protocol ru_resource_type ru_resource_name ru_resource_regex ru_operation ru_decision ru_metadata ru_hash ru_operation_regex ru_converted].
    rewrite E1, E2. cbn [rbind]. rewrite E3, E4. reflexivity.
  - cbn [rbind].
    unfold replace_in_rule. cbn [ru_tree ru_id ru_sender_name ru_sender_type ru_sender_list ru_receiver_name ru_receiver_type ru_receiver_list
    ru_protocol ru_resource_type ru_resource_name ru_resource_regex ru_operation ru_decision ru_metadata ru_hash ru_operation_regex ru_converted].
    rewrite !(plain_name g _ N1), !(plain_name g _ N2). cbn [rbind]. unfold convert_fields. cbn [ru_tree ru_id ru_sender_name ru_sender_type ru_sender_list ru_receiver_name ru_receiver_type ru_receiver_list
    ru_protocol ru_resource_type ru_resource_name ru_resource_regex ru_operation ru_decision ru_metadata ru_hash ru_operation_regex ru_converted].
    rewrite E1, E2. cbn [rbind]. rewrite E3, E4. reflexivity.
Qed.

Lemma converted_tree r r' : convert_fields L r = Ok r' -> ru_tree r' = ru_tree r /\ ru_metadata r' = ru_metadata r.
Proof.
  intro H. destruct (ru_converted r) eqn:E; [unfold convert_fields in H; rewrite E in H; injection H as <-; auto|].
  destruct (converted_form _ _ E H) as (sl & rl & ore & rre & _ & _ & _ & _ & ->). auto.
Qed.

(** the result of one rule, without the rule *)
Definition one_result (g : predef) (s : rstate L) : M (nat * extra) := mdo (x, _) <- check_one_rule L ord g s; mret x.

Theorem converted_one r r' g e : underived L r -> ~ starts "#" (ru_sender_name r) -> ~ starts "#" (ru_receiver_name r) -> convert_fields L r = Ok r' ->
  one_result g (load_rule L r') e = one_result g (load_rule L r) e.
Proof.
  intros HU N1 N2 HC. unfold one_result, check_one_rule, mbind, ensure_prepared. cbn [load_rule rs_ready].
  unfold set_predefined. cbn [load_rule rs_rule rs_lists rs_prepared].
  destruct (converted_tree _ _ HC) as [ET _].
  destruct (copy_tree L ord (ru_tree r) (e_tick e)) as [[x| |] t] eqn:EC.
  - rewrite (copy_is r _ _ _ EC). rewrite <- ET in EC. rewrite (copy_is r' _ _ _ EC). rewrite (reprepared r r' g x HU N1 N2 HC).
    destruct (prepare_rule L g (copied_with r x)) as [c| |]; [|reflexivity|reflexivity]. cbn [rmap rs_prepared]. unfold recopied. rewrite copied_check.
    destruct (check_prepared L ord c _) as [[y|] e']; reflexivity.
  - unfold copy_rule, pbind. rewrite ET, EC. reflexivity.
  - unfold copy_rule, pbind. rewrite ET, EC. reflexivity.
Qed.

Lemma run_rules_one g rules e : run_rules L ord g rules e =
  match rules with
  | [] => mret [] e
  | s :: rules' => (mdo x <- one_result g s; mdo xs <- run_rules L ord g rules'; mret (x :: xs)) e
  end.
Proof.
  destruct rules as [|s rules]; [reflexivity|]. cbn [run_rules]. unfold one_result, mbind.
  destruct (check_one_rule L ord g s e) as [[[x s']|] e']; reflexivity.
Qed.

Definition convertible (r : rule L) : Prop := underived L r /\ ~ starts "#" (ru_sender_name r) /\ ~ starts "#" (ru_receiver_name r).
Theorem converted_check rs rs' g e : Forall convertible rs -> convert_rules L rs = Ok rs' ->
  check L ord g (map (load_rule L) rs') e = check L ord g (map (load_rule L) rs) e.
Proof.
  intros HF HC.
  assert (HR : map (description L) (map (load_rule L) rs') = map (description L) (map (load_rule L) rs) /\
    forall e, run_rules L ord g (map (load_rule L) rs') e = run_rules L ord g (map (load_rule L) rs) e).
  { clear e. revert rs' HC. induction HF as [|r rs (HU & N1 & N2) HF IH]; intros rs' HC; cbn [convert_rules] in HC; [injection HC as <-; auto|].
    apply rbind_ok in HC. destruct HC as (r' & H1 & HC). apply rbind_ok in HC. destruct HC as (rs2 & H2 & HC). injection HC as <-.
    destruct (IH _ H2) as [D1 D2]. split.
    - cbn [map]. f_equal; [|exact D1]. unfold description. cbn [load_rule rs_rule]. rewrite (proj2 (converted_tree _ _ H1)). reflexivity.
    - intro e. cbn [map]. rewrite !run_rules_one. unfold mbind. rewrite (converted_one r r' g e HU N1 N2 H1).
      destruct (one_result g (load_rule L r) e) as [[x|] e']; [|reflexivity]. rewrite D2. reflexivity. }
  destruct HR as [HD HR]. unfold check, mbind. rewrite HR. destruct (run_rules _ _ _ _ e) as [[xs|] e']; [|reflexivity].
  unfold summarise. rewrite HD. reflexivity.
Qed.
End Keeps.

(** ** Preparation in place *)
Lemma plain_unchanged g (c : cond L) : ~ starts "#" (c_value c) -> replace_in_condition L g c = Ok c.
Proof.
  intro H. unfold replace_in_condition, replaceable_list, replaceable_string. apply Leaf_proofs.starts_false in H. rewrite H. reflexivity.
Qed.

Section Again.
Hypothesis HN : NumberSpec L.

Lemma or_else_same {A} (x : option A) : or_else x x = x.
Proof. destruct x; reflexivity. Qed.
Lemma reference_no_int x : parse_int (String "#" x) = None.
Proof. reflexivity. Qed.

Lemma condition_again p cn c c' v : validate_condition L (condition_from_node L cn) = Ok c -> prepare_condition L p c = Ok c' ->
  replaced p (c_method c) (c_value c) v -> ~ starts "#" v ->
  exists c2, validate_condition L (condition_from_node L (mkCondnode (cn_attr cn) (cn_method cn) v (cn_ret cn))) = Ok c2 /\
    c_attr c2 = c_attr c /\ c_method c2 = c_method c /\ c_value c2 = v /\ c_ret c2 = c_ret c /\ c_orig c2 = no_orig /\
    forall g, prepare_condition L g c2 = Ok c'.
Proof.
  intros HV HP HR HS. pose proof HV as HV0. apply validate_ok in HV. destruct HV as [EC _].
  assert (EN : (n_int (c_num c) = None \/ n_int (c_num c) = parse_int v) /\ (n_float (c_num c) = None \/ n_float (c_num c) = float_with_units L v) /\
      n_regex (c_num c) = None /\ n_string_regex (c_num c) = None).
  { subst c. cbn [c_num n_int n_float n_regex n_string_regex condition_from_node no_num c_value c_method] in *.
    split; [|split; [|auto]].
    - destruct HR as [H|x l E H|x y E H1 H2]; [right; destruct (parse_int _); reflexivity|left|left]; rewrite E; reflexivity.
    - destruct HR as [H|x l E H|x y E H1 H2]; [right; destruct (float_with_units L _); reflexivity|left|left];
        rewrite E; change ("#" ++ x) with (String "#" x); rewrite (reference_not_number L x HN); reflexivity. }
  unfold prepare_condition in HP. apply rbind_ok in HP. destruct HP as (c1 & H1 & HP). pose proof H1 as H1'. apply replaced_ok in H1.
  destruct H1 as (v' & HR' & ->). assert (v' = v) as -> by (eapply replaced_unique; eauto). clear HR' H1'.
  apply rbind_ok in HP. destruct HP as (c1v & H2 & HP).
  set (c2 := mkCond (c_attr c) (c_method c) v (mkNum (parse_int v) (float_with_units L v) None None) no_lab no_obj no_jp (c_ret c) no_orig).
  assert (EC2 : validate_condition L (condition_from_node L (mkCondnode (cn_attr cn) (cn_method cn) v (cn_ret cn))) = Ok c2 /\ validate_condition L c2 = Ok c1v).
  { pose proof H2 as HQ. apply validate_ok in HQ. destruct HQ as [EQ _].
    assert (E1 : c1v = c2).
    { subst c1v c2. cbn [set_value c_attr c_method c_value c_num c_lab c_obj c_jp c_ret c_orig]. destruct EN as ([->| ->] & [->| ->] & -> & ->); subst c;
        cbn [condition_from_node c_lab c_obj c_jp c_orig c_attr c_method c_ret]; rewrite ?or_else_same; try (destruct (parse_int v)); try (destruct (float_with_units L v)); reflexivity. }
    rewrite E1. unfold validate_condition, validate_numerical in H2 |- *. subst c2.
    assert (EA : cn_attr cn = c_attr c /\ cn_method cn = c_method c /\ c_ret (condition_from_node L cn) = c_ret c) by (subst c; auto).
    cbn [set_value condition_from_node c_attr c_method c_value c_num c_lab c_obj c_jp c_ret c_orig cn_attr cn_method cn_value cn_ret n_int n_float n_regex n_string_regex no_num] in *.
    destruct EA as (EA1 & EA2 & EA3). rewrite EA1, EA2.
    apply rbind_ok in H2. destruct H2 as (u1 & -> & H2). apply rbind_ok in H2. destruct H2 as (u2 & -> & H2). cbn [rbind].
    destruct (negb _ && _); [discriminate H2|]. destruct (negb _ && _); [discriminate H2|].
    rewrite EA3. rewrite !or_else_same. split; [|reflexivity].
    destruct (parse_int v), (float_with_units L v); reflexivity. }
  destruct EC2 as [EV2 EV3]. exists c2. split; [exact EV2|]. repeat (split; [reflexivity|]). intro g.
  unfold prepare_condition. rewrite (plain_unchanged g c2) by exact HS. cbn [rbind]. rewrite EV3. cbn [rbind]. exact HP.
Qed.

Definition again (w n' : node L) (w2 : node L) : Prop :=
  made L w2 /\ shows L w2 w /\ (copyable L w -> copyable L w2) /\ forall g, prepare_node L g w2 = Ok n'.

Lemma again_list ws ns' w2s : List.length ws = List.length ns' -> Forall2 (fun wn w2 => again (fst wn) (snd wn) w2) (combine ws ns') w2s ->
  Forall (made L) w2s /\ Forall2 (shows L) w2s ws /\ (Forall (copyable L) ws -> Forall (copyable L) w2s) /\ forall g, Forall2 (fun w n => prepare_node L g w = Ok n) w2s ns'.
Proof.
  revert ns' w2s. induction ws as [|w ws IH]; intros [|n' ns'] w2s HL HF; try discriminate HL; inversion HF as [|? w2 ? w2s' H1 H2]; subst.
  - repeat split; constructor.
  - injection HL as HL. destruct (IH _ _ HL H2) as (I1 & I2 & I3 & I4). destruct H1 as (K1 & K2 & K3 & K4). cbn [fst snd] in *.
    split; [constructor; auto|]. split; [constructor; auto|]. split; [|intro g; constructor; auto].
    intro HC. inversion HC; subst. constructor; auto.
Qed.

Lemma tree_again p n n' w : made L n -> prepare_node L p n = Ok n' -> written_out L p n w -> no_references L w -> exists w2, again w n' w2.
Proof.
  revert n' w. induction n as [ns IH|ns IH|n IH|q a n IH| | |c|] using node_ind'; intros n' w HM HP HW HR; inversion HW as [? ws HF|? ws HF|? w1 HS|? ? ? w1 HS| | |? v HS]; subst.
  - cbn [prepare_node] in HP. destruct (rseq _) as [xs| |] eqn:ER; try discriminate HP. simpl in HP. injection HP as <-. rewrite rseq_map_ok in ER.
    assert (HM' : Forall (made L) ns) by (inversion HM; auto).
    assert (HR' : forall w, In w ws -> no_references L w) by (intros x HX c HC; apply HR; eapply hc_and; eauto).
    assert (HX : List.length ws = List.length xs /\ exists w2s, Forall2 (fun wn w2 => again (fst wn) (snd wn) w2) (combine ws xs) w2s).
    { clear HM HW HR. revert xs ws ER HF HR'. induction IH as [|x ns HX IH IHns]; intros xs ws ER HF HR'; inversion ER as [|? x' ? xs' E1 E2]; subst; inversion HF as [|? w0 ? ws' F1 F2]; subst.
      - split; [reflexivity|]. exists []. constructor.
      - inversion HM' as [|? ? M1 M2]; subst. destruct (IHns M2 xs' ws' E2 F2) as [L1 [w2s L2]]; [intros; apply HR'; right; auto|].
        destruct (HX x' w0 M1 E1 F1) as [w2 HW2]; [apply HR'; left; auto|]. split; [cbn; f_equal; exact L1|]. exists (w2 :: w2s). constructor; auto. }
    destruct HX as [HL [w2s HX]]. destruct (again_list _ _ _ HL HX) as (I1 & I2 & I3 & I4). exists (NAnd w2s). split; [constructor; auto|]. split; [constructor; auto|].
    split; [intro HC; inversion HC; subst; constructor; auto; intro; subst w2s; inversion I2; subst; auto|].
    intro g. cbn [prepare_node]. specialize (I4 g). rewrite <- rseq_map_ok in I4. rewrite I4. reflexivity.
  - cbn [prepare_node] in HP. destruct (rseq _) as [xs| |] eqn:ER; try discriminate HP. simpl in HP. injection HP as <-. rewrite rseq_map_ok in ER.
    assert (HM' : Forall (made L) ns) by (inversion HM; auto).
    assert (HR' : forall w, In w ws -> no_references L w) by (intros x HX c HC; apply HR; eapply hc_or; eauto).
    assert (HX : List.length ws = List.length xs /\ exists w2s, Forall2 (fun wn w2 => again (fst wn) (snd wn) w2) (combine ws xs) w2s).
    { clear HM HW HR. revert xs ws ER HF HR'. induction IH as [|x ns HX IH IHns]; intros xs ws ER HF HR'; inversion ER as [|? x' ? xs' E1 E2]; subst; inversion HF as [|? w0 ? ws' F1 F2]; subst.
      - split; [reflexivity|]. exists []. constructor.
      - inversion HM' as [|? ? M1 M2]; subst. destruct (IHns M2 xs' ws' E2 F2) as [L1 [w2s L2]]; [intros; apply HR'; right; auto|].
        destruct (HX x' w0 M1 E1 F1) as [w2 HW2]; [apply HR'; left; auto|]. split; [cbn; f_equal; exact L1|]. exists (w2 :: w2s). constructor; auto. }
    destruct HX as [HL [w2s HX]]. destruct (again_list _ _ _ HL HX) as (I1 & I2 & I3 & I4). exists (NOr w2s). split; [constructor; auto|]. split; [constructor; auto|].
    split; [intro HC; inversion HC; subst; constructor; auto; intro; subst w2s; inversion I2; subst; auto|].
    intro g. cbn [prepare_node]. specialize (I4 g). rewrite <- rseq_map_ok in I4. rewrite I4. reflexivity.
  - cbn [prepare_node] in HP. destruct (prepare_node L p n) as [m| |] eqn:EN; try discriminate HP. simpl in HP. injection HP as <-.
    assert (HM' : made L n) by (inversion HM as [| |? [->|H]| |]; subst; auto; discriminate EN).
    destruct (IH m w1 HM' eq_refl HS) as (w2 & I1 & I2 & I3 & I4); [intros c HC; apply HR; constructor; auto|].
    exists (NNot w2). split; [constructor; auto|]. split; [constructor; auto|]. split; [intro HC; inversion HC; subst; constructor; auto|].
    intro g. cbn [prepare_node]. rewrite I4. reflexivity.
  - cbn [prepare_node] in HP. apply rbind_ok in HP. destruct HP as (m & EN & HP). apply rbind_ok in HP. destruct HP as (a' & EA & HP). injection HP as <-.
    assert (HM' : made L n) by (inversion HM as [| | |? ? ? ? [->|H]|]; subst; auto; discriminate EN).
    destruct (IH m w1 HM' EN HS) as (w2 & I1 & I2 & I3 & I4); [intros c HC; apply HR; constructor; auto|].
    exists (NQuant q a w2). split; [inversion HM; subst; constructor; auto|]. split; [constructor; auto|]. split; [intro HC; inversion HC; subst; constructor; auto|].
    intro g. cbn [prepare_node]. rewrite I4. cbn [rbind]. rewrite EA. reflexivity.
  - inversion HM.
  - inversion HM.
  - cbn [prepare_node] in HP. destruct (prepare_condition L p c) as [c'| |] eqn:EP; try discriminate HP. simpl in HP. injection HP as <-.
    inversion HM as [| | | |cn ? HD HV]; subst.
    assert (HSV : ~ starts "#" v) by (specialize (HR (valued L c v)); apply HR; constructor).
    destruct (condition_again p cn c c' v HV EP HS HSV) as (c2 & V2 & A1 & A2 & A3 & A4 & A5 & A6).
    exists (NCond c2). split; [econstructor; [|exact V2]; exact HD|]. split.
    { constructor. pose proof (made_orig L c HM) as EO. unfold shown, valued. cbn [c_orig c_attr c_method c_value c_ret]. rewrite A1, A2, A3, A4, A5, EO. reflexivity. }
    split; [|intro g; cbn [prepare_node]; rewrite A6; reflexivity].
    intro HC. inversion HC as [| | | |? P1 P2 P3]; subst. cbn [valued c_attr c_value c_ret] in *. constructor; rewrite ?A1, ?A4; auto.
Qed.

(** copying the prepared tree and preparing the copy gives the prepared tree *)
Theorem recopied_tree p n n' w : fair ord -> made L n -> prepare_node L p n = Ok n' -> written_out L p n w -> no_references L w -> no_empty_is L w -> copyable L w ->
  exists w2, (forall t, exists t', copy_tree L ord (Some n') t = (Ok (Some w2), t')) /\ forall g, prepare_node L g w2 = Ok n'.
Proof.
  intros HF HM HP HW HR HI HC. destruct (tree_again p n n' w HM HP HW HR) as (w2 & M2 & S2 & C2 & P2). exists w2. split; [|exact P2].
  intro t. destruct (copy_faithful L ord w2 HF (C2 HC) M2 t) as [t' E]. exists t'. rewrite <- E.
  destruct (prepared_text L p n n' w HM HP HW HI) as [_ EJ]. pose proof (shows_json L _ _ S2) as EJ2.
  destruct (prepare_no_nil L _ _ _ HP) as [_ N1]. destruct (prepare_no_nil L _ _ _ (P2 p)) as [N2 _].
  unfold copy_tree, tree_json. destruct n'; try congruence; destruct w2; try congruence; rewrite ?EJ, ?EJ2; reflexivity.
Qed.
End Again.

(** what has to hold of the tree of a rule *)
Definition settled_tree (p : predef) (n : node L) : Prop :=
  made L n /\ copyable L n /\ exists w, written_out L p n w /\ no_references L w /\ no_empty_is L w /\ copyable L w.

Lemma prepared_fields p r r' : prepare_rule L p r = Ok r' -> ru_converted r' = true /\
  match ru_tree r with None => ru_tree r' = None | Some n => exists n', prepare_node L p n = Ok n' /\ ru_tree r' = Some n' end.
Proof.
  unfold prepare_rule. intro H. apply rbind_ok in H. destruct H as (r1 & H1 & H). apply rbind_ok in H. destruct H as (r2 & H2 & H3).
  assert (E3 : ru_converted r' = true /\ ru_tree r' = ru_tree r2).
  { destruct (ru_converted r2) eqn:E; [unfold convert_fields in H3; rewrite E in H3; injection H3 as <-; auto|].
    destruct (converted_form _ _ E H3) as (sl & rl & ore & rre & _ & _ & _ & _ & ->). auto. }
  assert (E2 : ru_tree r2 = ru_tree r1).
  { unfold replace_in_rule in H2. apply rbind_ok in H2. destruct H2 as (? & _ & H2). apply rbind_ok in H2. destruct H2 as (? & _ & H2). injection H2 as <-. reflexivity. }
  destruct E3 as [E3 ->]. rewrite E2. split; [exact E3|]. destruct (ru_tree r) as [n|] eqn:ET.
  - apply rbind_ok in H1. destruct H1 as (n' & HN & H1). injection H1 as <-. exists n'. auto.
  - injection H1 as <-. exact ET.
Qed.

Theorem prepared_again p r r' : fair ord -> NumberSpec L -> (forall n, ru_tree r = Some n -> settled_tree p n) -> prepare_rule L p r = Ok r' ->
  ~ starts "#" (ru_sender_name r') -> ~ starts "#" (ru_receiver_name r') ->
  forall g t, exists t', set_predefined L ord g (load_rule L r') t = (Ok tt, mkRstate r' g true (Some (recopied r')), t').
Proof.
  intros HF HN HT HP N1 N2 g t. destruct (prepared_fields _ _ _ HP) as [EC ET].
  assert (HC : exists x t', copy_tree L ord (ru_tree r') t = (Ok x, t') /\ match x, ru_tree r' with None, None => True | Some w2, Some n' => prepare_node L g w2 = Ok n' | _, _ => False end).
  { destruct (ru_tree r) as [n|] eqn:ER.
    - destruct ET as (n' & HPN & ->). destruct (HT n eq_refl) as (HM & _ & w & HW & HR & HI & HCP).
      destruct (recopied_tree HN p n n' w HF HM HPN HW HR HI HCP) as (w2 & HC & HG). destruct (HC t) as [t' E]. exists (Some w2), t'. split; [exact E|apply HG].
    - rewrite ET. exists None, t. split; [reflexivity|exact I]. }
  destruct HC as (x & t' & HC & HX). exists t'. unfold set_predefined. cbn [load_rule rs_rule rs_lists rs_prepared]. rewrite (copy_is r' _ _ _ HC).
  assert (HPR : prepare_rule L g (copied_with r' x) = Ok (recopied r')); [|rewrite HPR; reflexivity].
  unfold prepare_rule, recopied, copied_with. cbn [ru_tree ru_id ru_sender_name ru_sender_type ru_sender_list ru_receiver_name ru_receiver_type ru_receiver_list
    ru_protocol ru_resource_type ru_resource_name ru_resource_regex ru_operation ru_decision ru_metadata ru_hash ru_operation_regex ru_converted].
  destruct x as [w2|], (ru_tree r') as [n'|]; try contradiction HX; [rewrite HX|]; cbn [rbind]; unfold replace_in_rule, set_tree;
  cbn [ru_tree ru_id ru_sender_name ru_sender_type ru_sender_list ru_receiver_name ru_receiver_type ru_receiver_list
    ru_protocol ru_resource_type ru_resource_name ru_resource_regex ru_operation ru_decision ru_metadata ru_hash ru_operation_regex ru_converted];
  rewrite !(plain_name g _ N1), !(plain_name g _ N2); cbn [rbind]; unfold convert_fields; cbn [ru_converted]; rewrite EC; reflexivity.
Qed.

Theorem prepared_in_place p r r' : fair ord -> NumberSpec L -> keeps_expressions L -> underived L r -> (forall n, ru_tree r = Some n -> settled_tree p n) ->
  prepare_rule L p r = Ok r' -> ~ starts "#" (ru_sender_name r') -> ~ starts "#" (ru_receiver_name r') ->
  forall g g' e t0, exists t s, fst (set_predefined L ord p (load_rule L r) t0) = (Ok tt, s) /\
    option_map fst (fst (check_one_rule L ord g (load_rule L r') e)) = option_map fst (fst (check_one_rule L ord g' s (mkEst (e_msg e) t))).
Proof.
  intros HF HN HK HU HT HP N1 N2 g g' e t0.
  destruct (prepared_again p r r' HF HN HT HP N1 N2 g (e_tick e)) as [t HS].
  assert (HTT : forall u, exists u', copy_tree L ord (ru_tree r) u = (Ok (ru_tree r), u')).
  { intro u. destruct (ru_tree r) as [n|]; [|exists u; reflexivity]. destruct (HT n eq_refl) as (HM & HC & _). exact (copy_faithful L ord n HF HC HM u). }
  destruct (HTT t0) as [u' HU']. pose proof (copy_is r _ _ _ HU') as HCR.
  assert (ER : copied_with r (ru_tree r) = r).
  { destruct HU as (U1 & U2 & U3 & U4 & U5). unfold copied_with. destruct r. cbn in *. subst. reflexivity. }
  rewrite ER in HCR. exists t, (mkRstate r p true (Some r')). split.
  { unfold set_predefined. cbn [load_rule rs_rule rs_lists rs_prepared]. rewrite HCR, HP. reflexivity. }
  unfold check_one_rule, mbind, ensure_prepared. cbn [load_rule rs_ready]. rewrite HS. cbn [rs_prepared].
  unfold recopied. rewrite (copied_check HK). destruct (check_prepared L ord r' _) as [[y|] e']; reflexivity.
Qed.

(** ** Expressions that are lost *)
Lemma expand_cons x y l : expand L x y = Ok l -> exists e es, l = e :: es /\ x_type e = y /\ x_regexp e <> None.
Proof.
  unfold expand. intro H. destruct (split_char "," x) as [|a b] eqn:E.
  - exfalso. revert E. clear. destruct x as [|c x]; cbn; [discriminate|]. destruct (Ascii.eqb _ _); [discriminate|]. destruct (split_char "," x); discriminate.
  - cbn [rmapM] in H. apply rbind_ok in H. destruct H as (e & H1 & H). apply rbind_ok in H. destruct H as (es & _ & H). injection H as <-.
    exists e, es. split; [reflexivity|]. unfold expand_one in H1. cbv zeta in H1.
    match type of H1 with match ?q with _ => _ end = _ => destruct q as [[[a1 a2] a3] a4] end. destruct (_ && _ && _); [discriminate H1|].
    destruct (re_compile L _); [|discriminate H1]. injection H1 as <-. cbn. split; [reflexivity|discriminate].
Qed.

Theorem lost_expressions r r' g e : loses_expressions L -> ru_converted r = false -> ru_sender_type r = "*" \/ ru_sender_type r = "workload" -> convert_fields L r = Ok r' ->
  fst (check_one_rule L ord g (load_rule L r') e) = None.
Proof.
  intros HX HV HT HC. destruct (converted_form _ _ HV HC) as (sl & rl & ore & rre & E1 & E2 & E3 & E4 & E5).
  destruct (expand_cons _ _ _ E1) as (x & xs & -> & ET & ER).
  unfold check_one_rule, mbind, ensure_prepared. cbn [load_rule rs_ready]. unfold set_predefined. cbn [load_rule rs_rule rs_lists rs_prepared].
  destruct (copy_tree L ord (ru_tree r') (e_tick e)) as [[y| |] t] eqn:EC.
  - rewrite (copy_is r' _ _ _ EC). destruct (prepare_rule L g (copied_with r' y)) as [c| |] eqn:EP; [|reflexivity|reflexivity]. cbn [rs_prepared].
    assert (EL : ru_sender_list c = map (expanded_json L) (x :: xs)).
    { clear EC. unfold prepare_rule in EP. apply rbind_ok in EP. destruct EP as (r1 & P1 & EP). apply rbind_ok in EP. destruct EP as (r2 & P2 & P3).
      assert (Q1 : ru_sender_list r1 = map (expanded_json L) (x :: xs) /\ ru_converted r1 = true).
      { subst r'. unfold copied_with in P1. cbn [ru_tree] in P1. destruct y as [n|]; [|injection P1 as <-; auto].
        apply rbind_ok in P1. destruct P1 as (n' & _ & P1). injection P1 as <-. auto. }
      assert (Q2 : ru_sender_list r2 = map (expanded_json L) (x :: xs) /\ ru_converted r2 = true).
      { unfold replace_in_rule in P2. apply rbind_ok in P2. destruct P2 as (? & _ & P2). apply rbind_ok in P2. destruct P2 as (? & _ & P2). injection P2 as <-. exact Q1. }
      destruct Q2 as [Q2 Q3]. unfold convert_fields in P3. rewrite Q3 in P3. injection P3 as <-. exact Q2. }
    unfold check_prepared, mbind, mmsg. unfold test_sender. rewrite EL. cbn [map test_sender_list].
    assert (HR : x_regexp (expanded_json L x) = None).
    { unfold expanded_json. cbn [x_regexp]. destruct (x_regexp x) as [re|]; [apply HX|reflexivity]. }
    rewrite HR. change (x_type (expanded_json L x)) with (x_type x). rewrite ET. destruct HT as [-> | ->]; reflexivity.
  - unfold copy_rule, pbind. rewrite EC. reflexivity.
  - unfold copy_rule, pbind. rewrite EC. reflexivity.
Qed.

(** ** The flag alone *)
Theorem flag_only r g e x s e' : ru_converted r = true -> ru_sender_list r = [] -> check_one_rule L ord g (load_rule L r) e = (Some (x, s), e') -> x = (DEFAULT, []).
Proof.
  intros HV HL H. unfold check_one_rule, mbind, ensure_prepared in H. cbn [load_rule rs_ready] in H. unfold set_predefined in H. cbn [load_rule rs_rule rs_lists rs_prepared] in H.
  destruct (copy_tree L ord (ru_tree r) (e_tick e)) as [[y| |] t] eqn:EC.
  - rewrite (copy_is r _ _ _ EC) in H. destruct (prepare_rule L g (copied_with r y)) as [c| |] eqn:EP; [|discriminate H|discriminate H]. cbn [rs_prepared] in H.
    assert (EL : ru_sender_list c = []).
    { clear EC H. unfold prepare_rule in EP. apply rbind_ok in EP. destruct EP as (r1 & P1 & EP). apply rbind_ok in EP. destruct EP as (r2 & P2 & P3).
      assert (Q1 : ru_sender_list r1 = [] /\ ru_converted r1 = true).
      { unfold copied_with in P1. rewrite HL in P1. cbn [ru_tree] in P1. destruct y as [n|]; [|injection P1 as <-; auto].
        apply rbind_ok in P1. destruct P1 as (n' & _ & P1). injection P1 as <-. auto. }
      assert (Q2 : ru_sender_list r2 = [] /\ ru_converted r2 = true).
      { unfold replace_in_rule in P2. apply rbind_ok in P2. destruct P2 as (? & _ & P2). apply rbind_ok in P2. destruct P2 as (? & _ & P2). injection P2 as <-. exact Q1. }
      destruct Q2 as [Q2 Q3]. unfold convert_fields in P3. rewrite Q3 in P3. injection P3 as <-. exact Q2. }
    unfold check_prepared, mbind, mmsg in H. unfold test_sender in H. rewrite EL in H. injection H as <- _ _. reflexivity.
  - unfold copy_rule, pbind in H. rewrite EC in H. discriminate H.
  - unfold copy_rule, pbind in H. rewrite EC in H. discriminate H.
Qed.

(** ** Preparing twice in place *)
Lemma labels_name (c c' : cond L) : handle_labels L c = Ok c' ->
  c_attr c' = if has_prefix (c_attr c) "senderLabel[" then "senderLabel" else if has_prefix (c_attr c) "receiverLabel[" then "receiverLabel" else c_attr c.
Proof.
  unfold handle_labels. intro H. apply rbind_ok in H. destruct H as ([a1 l1] & H1 & H). apply rbind_ok in H. destruct H as ([a2 l2] & H2 & H).
  apply rbind_ok in H. destruct H as ([a3 l3] & H3 & H). injection H as <-. cbn [c_attr].
  destruct (has_prefix (c_attr c) "senderLabel[").
  - apply rbind_ok in H1. destruct H1 as (k & _ & H1). injection H1 as <- <-. cbn in H2. injection H2 as <- <-. reflexivity.
  - injection H1 as <- <-. destruct (has_prefix (c_attr c) "receiverLabel["); [|injection H2 as <- <-; reflexivity].
    apply rbind_ok in H2. destruct H2 as (k & _ & H2). injection H2 as <- <-. reflexivity.
Qed.
Lemma objects_name (c c' : cond L) : handle_objects L c = Ok c' ->
  c_attr c' = if has_prefix (c_attr c) "$sender." then "$sender" else if has_prefix (c_attr c) "$receiver." then "$receiver" else c_attr c.
Proof.
  unfold handle_objects. intro H. apply rbind_ok in H. destruct H as ([a1 l1] & H1 & H). apply rbind_ok in H. destruct H as ([a2 l2] & H2 & H).
  apply rbind_ok in H. destruct H as ([a3 l3] & H3 & H). injection H as <-. cbn [c_attr].
  destruct (has_prefix (c_attr c) "$sender.").
  - apply rbind_ok in H1. destruct H1 as (k & _ & H1). injection H1 as <- <-. cbn in H2. injection H2 as <- <-. reflexivity.
  - injection H1 as <- <-. destruct (has_prefix (c_attr c) "$receiver."); [|injection H2 as <- <-; reflexivity].
    apply rbind_ok in H2. destruct H2 as (k & _ & H2). injection H2 as <- <-. reflexivity.
Qed.
Lemma jsonpath_name (c c' : cond L) : handle_jsonpath L c = Ok c' -> c_attr c' = if has_prefix (c_attr c) "jsonpath:" then "jsonpath" else c_attr c.
Proof.
  unfold handle_jsonpath. destruct (has_prefix (c_attr c) "jsonpath:"); intro H; [|injection H as <-; reflexivity].
  apply rbind_ok in H. destruct H as (net & _ & H). match type of H with (let '(_, _) := ?x in _) = _ => destruct x as [net' rel] end.
  apply rbind_ok in H. destruct H as (net2 & _ & H). cbv zeta in H. injection H as <-. reflexivity.
Qed.

Lemma derived_name p c c' : prepare_condition L p c = Ok c' -> derived_attribute (c_attr c) ->
  In (c_attr c') ["jsonpath"; "senderLabel"; "receiverLabel"; "$sender"; "$receiver"].
Proof.
  unfold prepare_condition. intros H HD. apply rbind_ok in H. destruct H as (c1 & H1 & H). apply replaced_ok in H1. destruct H1 as (v & _ & ->).
  apply rbind_ok in H. destruct H as (c2 & H2 & H). apply validate_ok in H2. destruct H2 as [-> _].
  apply rbind_ok in H. destruct H as (c3 & H3 & H). apply convert_ok in H3. destruct H3 as (d2 & d3 & K1 & K2 & K3 & _).
  assert (E : c_attr c' = c_attr c3).
  { destruct (j_is (c_jp c3)); [|injection H as <-; reflexivity]. apply rbind_ok in H. destruct H as (q & _ & H). injection H as <-. reflexivity. }
  rewrite E. apply labels_name in K1. apply objects_name in K2. apply jsonpath_name in K3. unfold converted in K1. cbn [c_attr set_value] in K1.
  assert (HPX : forall p x, has_prefix (p ++ x) p = true) by (intros q x; apply Leaf_proofs.starts_iff; exists x; reflexivity).
  rewrite K3, K2, K1.
  destruct HD as [[x HD]|[[x HD]|[[x HD]|[[x HD]|[x HD]]]]]; rewrite HD; pose proof (HPX "jsonpath:" x) as P1; pose proof (HPX "senderLabel[" x) as P2;
    pose proof (HPX "receiverLabel[" x) as P3; pose proof (HPX "$sender." x) as P4; pose proof (HPX "$receiver." x) as P5; cbn in *;
    rewrite ?P1, ?P2, ?P3, ?P4, ?P5; simpl; tauto.
Qed.

Lemma derived_fails g (c : cond L) : In (c_attr c) ["jsonpath"; "senderLabel"; "receiverLabel"; "$sender"; "$receiver"] -> forall c', prepare_condition L g c <> Ok c'.
Proof.
  intros HI c' H. unfold prepare_condition in H. apply rbind_ok in H. destruct H as (c1 & H1 & H). apply replaced_ok in H1. destruct H1 as (v & _ & ->).
  apply rbind_ok in H. destruct H as (c2 & H2 & _). unfold validate_condition in H2. apply rbind_ok in H2. destruct H2 as (u & H2 & _).
  cbn [c_attr set_value] in H2. simpl in HI. destruct HI as [E|[E|[E|[E|[E|[]]]]]]; rewrite <- E in H2; discriminate H2.
Qed.

Lemma condition_in p n c n' : has_condition L n c -> prepare_node L p n = Ok n' -> exists c', has_condition L n' c' /\ prepare_condition L p c = Ok c'.
Proof.
  intro H. revert n'. induction H as [c|n ns c HI HC IH|n ns c HI HC IH|n c HC IH|q a n c HC IH]; intros n' HP; cbn [prepare_node] in HP.
  - destruct (prepare_condition L p c) as [c'| |]; try discriminate HP. simpl in HP. injection HP as <-. exists c'. split; [constructor|reflexivity].
  - destruct (rseq _) as [xs| |] eqn:ER; try discriminate HP. simpl in HP. injection HP as <-. rewrite rseq_map_ok in ER.
    assert (HE : exists x, In x xs /\ prepare_node L p n = Ok x).
    { clear -ER HI. induction ER as [|a b l l' E1 E2 I2]; [destruct HI|]. destruct HI as [->|HI]; [exists b; split; [left; reflexivity|exact E1]|].
      destruct (I2 HI) as (x & I1 & I3). exists x. split; [right; exact I1|exact I3]. }
    destruct HE as (x & HX & EX). destruct (IH _ EX) as (c' & I1 & I2). exists c'. split; [eapply hc_and; eauto|exact I2].
  - destruct (rseq _) as [xs| |] eqn:ER; try discriminate HP. simpl in HP. injection HP as <-. rewrite rseq_map_ok in ER.
    assert (HE : exists x, In x xs /\ prepare_node L p n = Ok x).
    { clear -ER HI. induction ER as [|a b l l' E1 E2 I2]; [destruct HI|]. destruct HI as [->|HI]; [exists b; split; [left; reflexivity|exact E1]|].
      destruct (I2 HI) as (x & I1 & I3). exists x. split; [right; exact I1|exact I3]. }
    destruct HE as (x & HX & EX). destruct (IH _ EX) as (c' & I1 & I2). exists c'. split; [eapply hc_or; eauto|exact I2].
  - destruct (prepare_node L p n) as [m| |] eqn:EN; try discriminate HP. simpl in HP. injection HP as <-. destruct (IH _ eq_refl) as (c' & I1 & I2). exists c'. split; [constructor; exact I1|exact I2].
  - apply rbind_ok in HP. destruct HP as (m & EN & HP). apply rbind_ok in HP. destruct HP as (a' & _ & HP). injection HP as <-.
    destruct (IH _ EN) as (c' & I1 & I2). exists c'. split; [constructor; exact I1|exact I2].
Qed.

Lemma prepared_inner p n n' : tree_prepared L p n n' -> ~ missing_inner L n'.
Proof.
  intros HT HM. revert n HT. induction HM as [|m ns HI HM IH|m ns HI HM IH|m HM IH|q a m HM IH]; intros n HT; inversion HT as [? ? HF|? ? HF|? ? HF|? ? ? ? ? HF| | |]; subst.
  - clear HT. induction HF as [|x y l l' E1 E2 I2]; [destruct HI|]. destruct HI as [->|HI]; [exact (IH _ E1)|exact (I2 HI)].
  - clear HT. induction HF as [|x y l l' E1 E2 I2]; [destruct HI|]. destruct HI as [->|HI]; [exact (IH _ E1)|exact (I2 HI)].
  - exact (IH _ HF).
  - exact (IH _ HF).
Qed.

Theorem prepared_twice p g (r r' : rule L) n c : prepare_rule L p r = Ok r' -> ru_tree r = Some n -> has_condition L n c -> derived_attribute (c_attr c) ->
  prepare_rule L g r' = Err.
Proof.
  intros HP ET HC HD. destruct (prepared_fields _ _ _ HP) as [_ HF]. rewrite ET in HF. destruct HF as (n' & HN & ET').
  destruct (condition_in p n c n' HC HN) as (c' & HC' & EC'). pose proof (derived_name p c c' EC' HD) as HI.
  unfold prepare_rule. rewrite ET'. destruct (prepare_node L g n') as [n2| |] eqn:E2; [|reflexivity|].
  - exfalso. assert (HE : exists n2, prepare_node L g n' = Ok n2) by eauto. apply tree_prepares in HE. destruct HE as (_ & HE & _).
    destruct (HE _ HC') as [c2 E]. exact (derived_fails g c' HI c2 E).
  - exfalso. apply tree_panic in E2. apply tree_texts in HN. exact (prepared_inner _ _ _ HN E2).
Qed.
End WithLib.
