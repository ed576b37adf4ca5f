(** Which evaluations on raw bytes panic. *)
From Coq Require Import List String Ascii Bool Arith ZArith Permutation Lia.
From Verif Require Import Base GoStr GoStr_facts GoFloat Types Json StrUtils Validate Prepare Parse Eval
  Spec_Tree Spec_Extra Tree_proofs Tree_truth Tree_laws Spec_Leaf Spec_Glob Glob_proofs Match_proofs Number_proofs Leaf_proofs Leaf_laws
  Attr_proofs Prepare_proofs Spec_Load Load_proofs Mongo_proofs Outcome_proofs Lifecycle_proofs Spec_Outcome Spec_Panic Panic_proofs
  Outcome_laws Spec_Raw Raw_pieces Raw_proofs.
Import ListNotations.
Open Scope string_scope.

Section WithLib.
Variable L : Lib.
Notation sees_raw := (Spec_Leaf.sees_raw L).
Notation quantity := (Spec_Leaf.quantity L).
Notation not_number := (Spec_Leaf.not_number L).

(** ** Conditions on a JSON path *)
Lemma prepared_number p att method value ret c v k : prepares L p att method value ret c -> starts "jsonpath:" att ->
  replaced p method value v -> method_is method k -> NumberSpec L ->
  c_method c = final_method method /\ (k <> KIn -> k <> KNin -> n_float (c_num c) = float_with_units L v) /\
  (In k [KLt; KLe; KGt; KGe] -> float_with_units L v <> None \/ parse_int v <> None).
Proof.
  intros HP HS HR HK HN. apply prepares_inv in HP.
  destruct HP as (v' & c1 & c4 & R & EA & EM & EV & EL & EO & EJ & ER & EX & EN & VA & VA2 & VM & NM & RM & HC & HF).
  assert (EVV : v' = v) by (eapply replaced_fun; eauto). clear R. rewrite EVV in EV, EN, VA2, VM, NM, RM. clear EVV v'.
  apply convert_ok in HC. destruct HC as (c2 & c3 & H2 & H3 & H4 & HRE & _).
  destruct (labels_parts _ _ _ H2) as (N2 & R2 & J2). destruct (objects_parts _ _ _ H3) as (N3 & R3 & J3).
  apply labels_keep in H2. apply objects_keep in H3. cbn [converted c_method c_orig c_attr] in H2.
  destruct H2 as (M2 & O2 & A2), H3 as (M3 & O3 & A3). apply Leaf_proofs.starts_iff in HS.
  assert (E3 : c_attr c3 = att) by (rewrite EA in A2; destruct A2 as [A2|[A2 _]]; destruct A3 as [A3|[A3 _]]; congruence).
  apply handle_jsonpath_ok in H4; [|congruence]. destruct H4 as (rel & net & E4 & _). subst c4. cbn [c_jp j_is] in HF.
  destruct HF as (q & _ & ->). cbn [c_method c_num]. split; [congruence|]. split.
  - intros K1 K2. rewrite N3, N2. cbn [converted c_num n_float]. rewrite EM, EV, (method_list_kind _ _ HK K1 K2 v).
    rewrite (proj1 (EN HN)). apply or_else_idem.
  - intro HI. apply NM. eapply method_number_kind; eauto.
Qed.

Lemma bytes_core_none k v c t method : NumberSpec L -> method_is method k -> c_method c = final_method method ->
  (k <> KIn -> k <> KNin -> n_float (c_num c) = float_with_units L v) ->
  (In k [KLt; KLe; KGt; KGe] -> float_with_units L v <> None \/ parse_int v <> None) ->
  (bytes_core L c t = None <-> In k [KEq; KNeq; KNe] /\ not_number v /\ exists y, quantity t y).
Proof.
  intros HN HK EM EF ENK. unfold bytes_core. pose proof (numeric_word _ _ HK) as W. rewrite <- EM in W.
  destruct (is_any (to_upper (c_method c)) numeric_methods) eqn:EW.
  - pose proof (proj1 W eq_refl) as HNK. destruct (numeric_not_list _ HNK) as [K1 K2]. rewrite (EF K1 K2), EM, (final_numeric _ _ HK HNK).
    destruct (float_with_units L t) as [y|] eqn:FT.
    + apply number_iff in FT. destruct (float_with_units L v) as [x|] eqn:FV.
      * apply number_iff in FV. rewrite (compare_float_op _ _ _ _ HK HNK). split; [discriminate|]. intros (_ & NV & _). exfalso. eapply NV; eauto.
      * rewrite (compare_float_none _ _ _ HK HNK). split; auto. intros _. apply not_number_iff in FV as NV. split; [|split; eauto].
        assert (HI : In k [KLt; KLe; KGt; KGe] -> False).
        { intro HI. destruct (ENK HI) as [X|X]; [congruence|]. destruct (parse_int v) eqn:EP; [|congruence]. eapply int_is_number; eauto. }
        unfold numeric_kind in HNK. simpl in HNK, HI |- *. tauto.
    + split; [destruct (is_any _ ["EQ"; "NEQ"]); discriminate|]. intros (_ & _ & y & HY). apply number_iff in HY. congruence.
  - split; [discriminate|]. intros (HI & _). exfalso. assert (false = true); [|discriminate]. apply W.
    unfold numeric_kind. simpl in HI |- *. tauto.
Qed.

Lemma bytes_run ord c m t : c_attr c = "jsonpath" -> m_raw m = None ->
  test_condition L ord c (mkEst m t) =
  match test_json_bytes L c m with
  | None => (None, mkEst m t)
  | Some flag =>
    match r_paths (c_ret c) with
    | Some _ => if flag then match extra_bytes L (c_ret c) m with Some e => (Some (flag, [e]), mkEst m t) | None => (None, mkEst m t) end
                else (Some (flag, []), mkEst m t)
    | None => (Some (flag, []), mkEst m t)
    end
  end.
Proof.
  intros EA HM. unfold test_condition, mbind, mmsg, mret, mopt, get_extra. cbn [e_msg]. rewrite EA.
  change (is_any "jsonpath" ["true"; "TRUE"]) with false. change (is_any "jsonpath" ["false"; "FALSE"]) with false. cbn [String.eqb Ascii.eqb Bool.eqb].
  rewrite HM. destruct (test_json_bytes L c m) as [flag|]; auto.
  destruct (r_paths (c_ret c)); auto; destruct flag; auto; destruct (extra_bytes L (c_ret c) m); auto.
Qed.
Lemma bare_bytes_run ord c m t : c_attr c = "jsonpath" -> m_raw m = None ->
  test_condition L ord (bare L c) (mkEst m t) = (match test_json_bytes L c m with None => None | Some flag => Some (flag, []) end, mkEst m t).
Proof. intros EA HM. rewrite bytes_run by auto. change (test_json_bytes L (bare L c) m) with (test_json_bytes L c m). destruct (test_json_bytes L c m); auto. Qed.

Lemma bytes_returns_panic cn c m rets : distinct_returns cn -> cn_ret cn = Some rets -> c_ret c = c_ret (condition_from_node L cn) ->
  (extra_bytes L (c_ret c) m = None <-> exists name path, In (name, path) rets /\
    (starts "jsonpath:$RELATIVE" path /\ m_json_rel m = None \/ ~ starts "jsonpath:$RELATIVE" path /\ m_json m = None)).
Proof.
  intros HD ER EC. unfold distinct_returns in HD. rewrite ER in HD.
  unfold extra_bytes. rewrite collect_none, EC. unfold condition_from_node. rewrite ER. cbn [c_ret r_paths].
  assert (HG : forall name path, In (name, path) rets ->
    get_flag name (map (fun kv => (fst kv, has_prefix (snd kv) "jsonpath:$RELATIVE")) rets) = has_prefix path "jsonpath:$RELATIVE").
  { intros name path HI. unfold get_flag.
    assert (assoc name (map (fun kv => (fst kv, has_prefix (snd kv) "jsonpath:$RELATIVE")) rets) = Some (has_prefix path "jsonpath:$RELATIVE")) as ->; auto.
    apply in_assoc; [unfold keys in *; rewrite map_map; exact HD|]. apply in_map_iff. exists (name, path). auto. }
  assert (HE : forall name path q, In (name, path) rets -> (extra_bytes_one L {|
      r_paths := Some (map (fun kv => (fst kv, cond_ret_path (snd kv))) rets); r_orig := Some rets;
      r_prep := map (fun kv => (fst kv, jp_prepare L (cond_ret_path (snd kv)))) rets;
      r_rel := map (fun kv => (fst kv, has_prefix (snd kv) "jsonpath:$RELATIVE")) rets |} m (name, q) = None <->
      (starts "jsonpath:$RELATIVE" path /\ m_json_rel m = None \/ ~ starts "jsonpath:$RELATIVE" path /\ m_json m = None))).
  { intros name path q HI. unfold extra_bytes_one. cbn [fst snd r_rel]. rewrite (HG _ _ HI).
    destruct (has_prefix path "jsonpath:$RELATIVE") eqn:EP.
    - apply Leaf_proofs.starts_iff in EP. destruct (m_json_rel m) as [d|]; [|tauto]. split; [discriminate|]. intros [[_ H]|[H _]]; [discriminate|tauto].
    - assert (NS : ~ starts "jsonpath:$RELATIVE" path) by (rewrite <- Leaf_proofs.starts_iff, EP; discriminate).
      destruct (m_json m) as [d|]; [|tauto]. split; [discriminate|]. intros [[H _]|[_ H]]; [tauto|discriminate]. }
  split.
  - intros ([name q] & HI & HX). apply in_map_iff in HI. destruct HI as ([name' path] & E & HI). cbn [fst snd] in E. injection E as -> <-.
    exists name, path. split; auto. eapply HE; eauto.
  - intros (name & path & HI & HX). exists (name, cond_ret_path path). split; [apply in_map_iff; exists (name, path); auto|]. apply (HE name path); auto.
Qed.

Theorem raw_condition_panics cn c0 p c m : NumberSpec L -> distinct_returns cn -> validate_condition L (condition_from_node L cn) = Ok c0 ->
  prepare_condition L p c0 = Ok c -> m_raw m = None -> (may_panic L (NCond c) m <-> raw_condition_cause L c m).
Proof.
  intros HN HD HV HP HM.
  assert (HPR : prepares L p (cn_attr cn) (cn_method cn) (cn_value cn) (c_ret (condition_from_node L cn)) c) by (exists c0; split; [exact HV|exact HP]).
  destruct (prepared_parts _ _ _ _ _ _ _ HPR) as (v & k & HR & HK & EO & ERT & HNUM & HC). clear HNUM.
  destruct (has_prefix (cn_attr cn) "jsonpath:") eqn:EP.
  2:{ assert (NS : ~ starts "jsonpath:" (og_attr (c_orig c))) by (rewrite EO; cbn [og_attr]; rewrite <- Leaf_proofs.starts_iff, EP; discriminate).
      rewrite (field_panics L cn c0 p c m) by auto. split; [intro; apply rq_field; auto|]. intros [_ H|k' t y H|rets name path H]; [auto|contradiction..]. }
  apply Leaf_proofs.starts_iff in EP. destruct HC as (EA & EJ & _ & _).
  assert (SO : starts "jsonpath:" (og_attr (c_orig c))) by (rewrite EO; auto).
  assert (KF : forall k', method_is (cn_method cn) k' -> k' = k).
  { intros k' HK'. unfold method_is in *. clear -HK HK'. unfold method_words in *. simpl in HK, HK'.
    repeat (destruct HK as [HK|HK]; [injection HK as E1 E2; rewrite <- E1, <- E2 in *; clear E1;
      repeat (destruct HK' as [HK'|HK']; [first [discriminate HK' | injection HK'; congruence]|]); destruct HK'|]). destruct HK. }
  destruct (prepared_number _ _ _ _ _ _ _ _ HPR EP HR HK HN) as (E1 & E2 & E3).
  assert (BN : test_json_bytes L c m = None <-> exists t y, In k [KEq; KNeq; KNe] /\ not_number v /\ sees_raw (c_jp c) m (Present t) /\ quantity t y).
  { pose proof (fun t => bytes_core_none k v c t _ HN HK E1 E2 E3) as BC.
    destruct (json_bytes_reads L c m EJ) as [(r & HRD & E)|(E & EE)].
    - assert (SR : sees_raw (c_jp c) m (match r with None => Missing | Some raw => status_of raw end)).
      { split; auto. exists r. split; auto. destruct r; auto. }
      rewrite (sees_raw_compare L c m _ EA EJ SR). split.
      + intro H. destruct (match r with None => Missing | Some raw => status_of raw end) as [| |t]; try discriminate.
        apply BC in H. destruct H as (H1 & H2 & y & H3). exists t, y. auto.
      + intros (t & y & H1 & H2 & H3 & H4). assert (match r with None => Missing | Some raw => status_of raw end = Present t) as ->; [|apply BC; eauto].
        destruct H3 as (_ & r' & HR' & HS). rewrite <- (raw_looked_up_fun _ _ _ _ _ HRD HR') in HS. destruct r; auto; discriminate.
    - rewrite E. split; [discriminate|]. intros (t & y & _ & _ & (_ & r & HR' & _) & _). exfalso. apply raw_looked_up_doc in HR'.
      destruct (j_rel (c_jp c)); destruct HR', EE; congruence. }
  split.
  - intros (ord & t & s & HF & H). cbn [eval] in H. rewrite bytes_run in H by auto. destruct (test_json_bytes L c m) as [flag|] eqn:ET.
    + destruct (r_paths (c_ret c)) as [paths|] eqn:ERP; [|discriminate]. destruct flag; [|discriminate]. destruct (extra_bytes L (c_ret c) m) eqn:EG; [discriminate|].
      destruct (cn_ret cn) as [rets|] eqn:ECR.
      * apply (bytes_returns_panic cn c m rets HD ECR ERT) in EG. destruct EG as (name & path & HI & HX).
        apply rq_return with rets name path; auto.
        -- rewrite ERT. unfold condition_from_node. rewrite ECR. auto.
        -- exists ord, t, [], (mkEst m t). split; auto. cbn [eval]. rewrite bare_bytes_run, ET by auto. auto.
      * exfalso. rewrite ERT in ERP. unfold condition_from_node in ERP. rewrite ECR in ERP. discriminate.
    + destruct (proj1 BN eq_refl) as (t' & y & H1 & H2 & H3 & H4). apply rq_number with k t' y; auto; rewrite EO; auto.
  - intro HC. exists (fun _ ks => ks), 0%nat, (mkEst m 0). split; [apply fair_id|]. cbn [eval]. rewrite bytes_run by auto.
    destruct HC as [H|k' t y _ HK' HI NV HS HQ|rets name path _ HRE HI HX HB].
    + contradiction.
    + rewrite EO in HK', NV. cbn [og_method og_value] in HK', NV. rewrite (KF _ HK') in HI.
      assert (test_json_bytes L c m = None) as -> by (apply BN; exists t, y; auto). auto.
    + destruct HB as (ord & t & x & s & HF & H). cbn [eval] in H. rewrite bare_bytes_run in H by auto.
      destruct (test_json_bytes L c m) as [flag|]; [|discriminate]. injection H as -> _ _.
      assert (ECR : cn_ret cn = Some rets).
      { rewrite ERT in HRE. unfold condition_from_node in HRE. destruct (cn_ret cn); [|discriminate]. injection HRE as ->. auto. }
      assert (extra_bytes L (c_ret c) m = None) as -> by (apply (bytes_returns_panic cn c m rets); eauto).
      rewrite ERT. unfold condition_from_node. rewrite ECR. auto.
Qed.

(** ** ANY and ALL *)
Lemma aa_bytes_returns_total rets m t : Forall (fun e => starts "jsonpath:$RELATIVE" (snd e)) rets ->
  extra_bytes L (set_return_values L rets) (set_json_rel m (Some t)) <> None.
Proof.
  intros HF H. unfold extra_bytes in H. apply collect_none in H. destruct H as ([name q] & HI & HX).
  unfold set_return_values in HI. cbn [r_paths] in HI. apply in_map_iff in HI. destruct HI as ([name' path] & E & HI). cbn [fst snd] in E.
  assert (EN : name' = name) by congruence. subst name'. clear E.
  assert (EF : get_flag name (r_rel (set_return_values L rets)) = true).
  { unfold set_return_values. cbn [r_rel]. unfold get_flag. clear HX. induction rets as [|(k, p) rets IH]; [destruct HI|]. cbn [map assoc fst snd].
    inversion HF as [|? ? HP HF']; subst. cbn [snd] in HP. destruct (String.eqb name k) eqn:EK; [apply Leaf_proofs.starts_iff; auto|]. apply IH; auto.
    destruct HI as [HI|HI]; auto. injection HI as -> ->. rewrite String.eqb_refl in EK. discriminate. }
  unfold extra_bytes_one in HX. cbn [fst snd] in HX. rewrite EF in HX. cbn [set_json_rel m_json_rel] in HX. discriminate.
Qed.

Lemma raw_elements_can a m r : a_parents a = split_char "," (a_parent a) ->
  (can (fun ord => elements_bytes L ord a) m (Some r) m <-> raw_elements L a m r).
Proof.
  intro HA. rewrite <- elements_iff by auto. split; [|apply can_elements_bytes].
  intros (ord & t & s & HF & E & _). eapply elements_bytes_selected in E; eauto.
Qed.
Lemma raw_elements_panic a m : a_parents a = split_char "," (a_parent a) ->
  ((exists m', can (fun ord => elements_bytes L ord a) m None m') <-> raw_parent_cause L a m).
Proof.
  intro HA. split.
  - intros (m' & ord & t & s & HF & E & _). apply (elements_panic_iff L ord a m t HA). rewrite E. auto.
  - intro H. apply (elements_panic_iff L (fun _ ks => ks) a m 0 HA) in H. destruct (elements_bytes L (fun _ ks => ks) a (mkEst m 0)) as [r s] eqn:E.
    cbn [fst] in H. subst r. exists (e_msg s), (fun _ ks => ks), 0%nat, s. split; [apply fair_id|auto].
Qed.

#[local] Hint Resolve portable_eval portable_json_relative : port.
Lemma raw_loop_panic q a n m vs :
  (r_paths (a_ret a) <> None -> forall t, extra_bytes L (a_ret a) (set_json_rel m (Some t)) <> None) ->
  ((exists m', can (loop_bytes L q a n vs) m None m') <->
   exists before t after, vs = (before ++ t :: after)%list /\
     Forall (fun t' => match q with
       | QAll => may_return L n (set_json_rel m (Some t')) true
       | QAny => may_return L n (set_json_rel m (Some t')) false \/ (declared L a <> [] /\ may_return L n (set_json_rel m (Some t')) true)
       end) before /\ may_panic L n (set_json_rel m (Some t))).
Proof.
  intro TOT. set (ctx := fun t => set_json_rel m (Some t)). set (same := fun m' => exists w, m' = set_json_rel m w).
  assert (H1 : forall v m1 t, same m1 -> set_json_relative (Some v) (mkEst m1 t) = (Some tt, mkEst (ctx v) t)) by (intros v m1 t [w ->]; reflexivity).
  assert (H2 : forall v, same (ctx v)) by (intro v; unfold same, ctx; eauto).
  assert (H3 : same m) by (exists (m_json_rel m); symmetry; apply set_json_rel_id).
  assert (H4 : forall m1 r m2, can (fun ord => eval L ord n) m1 (Some r) m2 -> m2 = m1) by (intros; eapply can_same; eauto).
  unfold loop_bytes, quant_loop. destruct q.
  - set (getx := mdo m0 <- mmsg; mopt (extra_bytes L (a_ret a) m0)). set (rec := fun v => extra_bytes L (a_ret a) (ctx v)).
    assert (PG : portable (fun _ => getx)) by (unfold getx; port).
    rewrite (any_panic (fun v => set_json_relative (Some v)) getx (fun ord => eval L ord n) ctx same rec); auto with port.
    2:{ destruct (r_paths (a_ret a)); auto. }
    unfold passes, breaks. split; intros (before & v & after & -> & HF & HB); exists before, v, after; split; auto; split.
    + eapply Forall_impl; [|exact HF]. intros w [HW|(EA & HW & HR)]; [left; apply may_return_can; auto|right].
      unfold declared. destruct (r_paths (a_ret a)) as [[|pp ps]|]; try discriminate. split; [discriminate|]. apply may_return_can; auto.
    + destruct HB as [HB|(HB & HG & HR)]; [apply may_panic_can; auto|]. exfalso. apply (TOT ltac:(destruct (r_paths (a_ret a)); congruence) v). auto.
    + eapply Forall_impl; [|exact HF]. intros w [HW|(EA & HW)]; [left; apply may_return_can in HW; auto|right].
      unfold declared in EA. destruct (r_paths (a_ret a)) as [[|pp ps]|] eqn:EP; try congruence. split; auto. split; [apply may_return_can in HW; auto|].
      right. apply TOT. discriminate.
    + left. apply may_panic_can in HB. auto.
  - rewrite (all_panic (fun v => set_json_relative (Some v)) (fun ord => eval L ord n) ctx same); auto with port.
    split; intros (before & v & after & -> & HF & HB); exists before, v, after; split; auto; split.
    + eapply Forall_impl; [|exact HF]. intros w HW. apply may_return_can. auto.
    + apply may_panic_can. auto.
    + eapply Forall_impl; [|exact HF]. intros w HW. apply may_return_can in HW. auto.
    + apply may_panic_can in HB. auto.
Qed.

(** ** Trees *)
Theorem raw_tree_panics p n0 : NumberSpec L -> made L n0 -> forall n m, prepare_node L p n0 = Ok n -> m_raw m = None ->
  (may_panic L n m <-> Spec_Raw.raw_crash L n m).
Proof.
  intro HN. induction n0 as [ns IH|ns IH|n0 IH|q a n0 IH| | |c|] using node_ind'; intros HMD n m HP HM; cbn [prepare_node] in HP.
  - apply rmap_ok in HP. destruct HP as (ns' & HP & ->). apply rseq_map_ok in HP.
    inversion HMD as [? HF| | | |]; subst. clear HMD.
    assert (HE : Forall (fun n => may_panic L n m <-> Spec_Raw.raw_crash L n m) ns').
    { induction HP as [|x y ns ns' HXY HR IHR]; constructor; inversion IH; inversion HF; subst; eauto. }
    rewrite and_panic. split.
    + intros (before & n & after & -> & HB & HC). apply rk_and; auto. rewrite Forall_forall in HE. apply HE; auto. apply in_elt.
    + intro HC. inversion HC as [| |before n after m' HB HC'| | | |]; subst. exists before, n, after. split; auto. split; auto.
      rewrite Forall_forall in HE. apply HE; auto. apply in_elt.
  - apply rmap_ok in HP. destruct HP as (ns' & HP & ->). apply rseq_map_ok in HP.
    inversion HMD as [|? HF| | |]; subst. clear HMD.
    assert (HE : Forall (fun n => may_panic L n m <-> Spec_Raw.raw_crash L n m) ns').
    { induction HP as [|x y ns ns' HXY HR IHR]; constructor; inversion IH; inversion HF; subst; eauto. }
    rewrite or_panic. split.
    + intros (before & n & after & -> & HB & HC). apply rk_or; auto. rewrite Forall_forall in HE. apply HE; auto. apply in_elt.
    + intro HC. inversion HC as [| | |before n after m' HB HC'| | |]; subst. exists before, n, after. split; auto. split; auto.
      rewrite Forall_forall in HE. apply HE; auto. apply in_elt.
  - apply rmap_ok in HP. destruct HP as (n' & HP & ->). rewrite not_panic.
    assert (HI : made L n0) by (inversion HMD as [| |? [->|HX]| |]; subst; [discriminate|auto]).
    rewrite (IH HI _ m HP HM). split; [apply rk_not|]. intro HC. inversion HC; auto.
  - apply rbind_ok in HP. destruct HP as (n' & HP & H). apply rbind_ok in H. destruct H as (a' & HA & H). injection H as <-.
    inversion HMD as [| | |q' s r n'' HI HV HE HR|]; subst. clear HMD.
    assert (HMI : made L n0) by (destruct HI as [->|HI]; [discriminate|auto]). clear HI.
    unfold prepare_aa in HA. apply rbind_ok in HA. destruct HA as (qs & HQ & HA). injection HA as <-. cbn [a_parent a_orig a_ret a_prep List.app] in *.
    set (a := mkAA _ _ _ _ _). assert (EPS : a_parents a = split_char "," (a_parent a)) by reflexivity.
    assert (TOT : r_paths (a_ret a) <> None -> forall t, extra_bytes L (a_ret a) (set_json_rel m (Some t)) <> None).
    { cbn [a a_ret]. destruct HR as [->|(rets & _ & -> & HF)]; [intros HX; cbn in HX; congruence|]. intros _ t. apply aa_bytes_returns_total. auto. }
    assert (INN : forall t, may_panic L n' (set_json_rel m (Some t)) <-> Spec_Raw.raw_crash L n' (set_json_rel m (Some t))) by (intro t; apply IH; auto).
    rewrite may_panic_can, (quant_bytes_can L q a n' m None) by auto. rewrite (raw_elements_panic a m EPS). split.
    + intros [[_ H]|[[H _]|(vs & HV' & HL)]]; [apply rk_parent; auto|discriminate|].
      apply (raw_elements_can a m _ EPS) in HV'. apply raw_loop_panic in HL; auto. destruct HL as (before & t & after & -> & HB & HC). apply INN in HC.
      destruct q; [eapply rk_any; eauto|eapply rk_all; eauto].
    + intro HC. inversion HC as [| | | |? ? ? ? HX|? ? ? before t after HS HB HX|? ? ? before t after HS HB HX]; subst; [left; auto| |]; right; right;
        exists (before ++ t :: after)%list; (split; [apply (raw_elements_can a m _ EPS); auto|]); apply raw_loop_panic; auto;
        exists before, t, after; (split; [auto|]); (split; [auto|]); apply INN; auto.
  - injection HP as <-. split; intro H; [destruct H as (ord & t & s & _ & H); discriminate|inversion H].
  - injection HP as <-. split; intro H; [destruct H as (ord & t & s & _ & H); discriminate|inversion H].
  - apply rmap_ok in HP. destruct HP as (c' & HP & ->). inversion HMD as [| | | |cn ? HD HV]; subst.
    rewrite (raw_condition_panics cn c p c' m HN HD HV HP HM). split; [apply rk_condition|]. intro H. inversion H; auto.
  - discriminate.
Qed.
End WithLib.

Theorem ready_raw_panics L n m : NumberSpec L -> ready L n -> m_raw m = None -> (may_panic L n m <-> Spec_Raw.raw_crash L n m).
Proof. intros HN (ord & v & t & n0 & t' & p & HF & HV & HL & HP) HM. eapply raw_tree_panics; eauto. eapply tree_made; eauto. Qed.

(** ** Results of ANY and ALL *)
Lemma ready_parents L q a n : ready L (NQuant q a n) -> a_parents a = split_char "," (a_parent a).
Proof.
  intros (ord & v & t & n0 & t' & p & HF & HV & HL & HP). assert (HM : made L n0) by (eapply tree_made; eauto). clear HL HV.
  destruct n0; cbn [prepare_node] in HP; try discriminate HP; try (apply rmap_ok in HP; destruct HP as (x & _ & HP); discriminate HP).
  apply rbind_ok in HP. destruct HP as (n' & _ & H). apply rbind_ok in H. destruct H as (a' & HA & H). injection H as -> -> ->.
  unfold prepare_aa in HA. apply rbind_ok in HA. destruct HA as (qs & _ & HA). injection HA as <-. reflexivity.
Qed.
Lemma raw_contexts L q a n m r : ready L (NQuant q a n) -> m_raw m = None ->
  (contexts L a m r <-> exists ts, raw_elements L a m ts /\ r = option_map (map (fun t => set_json_rel m (Some t))) ts).
Proof.
  intros HR HM. apply ready_parents in HR. unfold contexts. rewrite HM.
  split; intros (ts & H & E); exists ts; (split; [|auto]); apply elements_iff in H; auto; apply elements_iff; auto.
Qed.
Lemma map_around {A B} (f : A -> B) l b x a : map f l = (b ++ x :: a)%list -> exists b' x' a', l = (b' ++ x' :: a')%list /\ map f b' = b /\ f x' = x.
Proof.
  revert b. induction l as [|y l IH]; intros [|z b] H; try discriminate.
  - injection H as H1 H2. exists [], y, l. auto.
  - injection H as H1 H2. apply IH in H2. destruct H2 as (b' & x' & a' & -> & H3 & H4). exists (y :: b'), x', a'. simpl. rewrite H1, H3. auto.
Qed.
Lemma raw_context_around L q a n m before m' after : ready L (NQuant q a n) -> m_raw m = None ->
  (contexts L a m (Some (before ++ m' :: after)%list) -> exists b t x, raw_elements L a m (Some (b ++ t :: x)%list) /\
    before = map (fun t => set_json_rel m (Some t)) b /\ m' = set_json_rel m (Some t)).
Proof.
  intros HR HM H. apply (raw_contexts L q a n) in H; auto. destruct H as ([ts|] & H & E); [|discriminate].
  injection E as E. symmetry in E. apply map_around in E. destruct E as (b & t & x & -> & <- & <-). exists b, t, x. auto.
Qed.
Theorem raw_any_true L a n m : ready L (NQuant QAny a n) -> m_raw m = None -> declared L a = [] ->
  (may_return L (NQuant QAny a n) m true <-> exists before t after, raw_elements L a m (Some (before ++ t :: after)%list) /\
     Forall (fun t' => may_return L n (set_json_rel m (Some t')) false) before /\ may_return L n (set_json_rel m (Some t)) true).
Proof.
  intros HR HM HD. rewrite any_may_true by auto. split.
  - intros (before & m' & after & H & HF & HT). apply (raw_context_around L QAny a n) in H; auto. destruct H as (b & t & x & H & -> & ->).
    exists b, t, x. rewrite Forall_map in HF. auto.
  - intros (b & t & x & H & HF & HT). exists (map (fun t => set_json_rel m (Some t)) b), (set_json_rel m (Some t)), (map (fun t => set_json_rel m (Some t)) x).
    rewrite Forall_map. split; auto. apply (raw_contexts L QAny a n); auto. eexists. split; [exact H|]. cbn [option_map]. rewrite map_app. auto.
Qed.
Theorem raw_any_false L a n m : ready L (NQuant QAny a n) -> m_raw m = None ->
  (may_return L (NQuant QAny a n) m false <-> raw_elements L a m None \/
   exists ts, raw_elements L a m (Some ts) /\ Forall (fun t => may_return L n (set_json_rel m (Some t)) false) ts).
Proof.
  intros HR HM. rewrite any_may_false by auto. split.
  - intros [H|(ms & H & HF)]; apply (raw_contexts L QAny a n) in H; auto; destruct H as ([ts|] & H & E); try discriminate; auto.
    injection E as ->. rewrite Forall_map in HF. eauto.
  - intros [H|(ts & H & HF)]; [left|right; exists (map (fun t => set_json_rel m (Some t)) ts)]; rewrite ?Forall_map; rewrite (raw_contexts L QAny a n) by auto.
    + eexists. split; [exact H|auto].
    + split; auto. eexists. split; [exact H|auto].
Qed.
Theorem raw_all_true L a n m : ready L (NQuant QAll a n) -> m_raw m = None ->
  (may_return L (NQuant QAll a n) m true <-> exists ts, raw_elements L a m (Some ts) /\ Forall (fun t => may_return L n (set_json_rel m (Some t)) true) ts).
Proof.
  intros HR HM. rewrite all_may_true by auto. split.
  - intros (ms & H & HF); apply (raw_contexts L QAll a n) in H; auto; destruct H as ([ts|] & H & E); try discriminate.
    injection E as ->. rewrite Forall_map in HF. eauto.
  - intros (ts & H & HF). exists (map (fun t => set_json_rel m (Some t)) ts). rewrite Forall_map. split; auto. apply (raw_contexts L QAll a n); auto.
    eexists. split; [exact H|auto].
Qed.
Theorem raw_all_false L a n m : ready L (NQuant QAll a n) -> m_raw m = None ->
  (may_return L (NQuant QAll a n) m false <-> raw_elements L a m None \/
   exists before t after, raw_elements L a m (Some (before ++ t :: after)%list) /\
     Forall (fun t' => may_return L n (set_json_rel m (Some t')) true) before /\ may_return L n (set_json_rel m (Some t)) false).
Proof.
  intros HR HM. rewrite all_may_false by auto. split.
  - intros [H|(before & m' & after & H & HF & HT)].
    + apply (raw_contexts L QAll a n) in H; auto. destruct H as ([ts|] & H & E); [discriminate|auto].
    + apply (raw_context_around L QAll a n) in H; auto. destruct H as (b & t & x & H & -> & ->). right. exists b, t, x. rewrite Forall_map in HF. auto.
  - intros [H|(b & t & x & H & HF & HT)]; [left; apply (raw_contexts L QAll a n); auto; eexists; split; [exact H|auto]|right].
    exists (map (fun t => set_json_rel m (Some t)) b), (set_json_rel m (Some t)), (map (fun t => set_json_rel m (Some t)) x).
    rewrite Forall_map. split; auto. apply (raw_contexts L QAll a n); auto. eexists. split; [exact H|]. cbn [option_map]. rewrite map_app. auto.
Qed.
Theorem raw_determined L q a n m r r' : ready L (NQuant q a n) -> raw_elements L a m r -> raw_elements L a m r' ->
  match r, r' with None, None => True | Some ts, Some ts' => Permutation ts ts' | _, _ => False end.
Proof.
  intros HR H H'. apply ready_parents in HR. apply elements_iff in H; auto. apply elements_iff in H'; auto.
  pose proof (selected_bytes_perm _ _ _ _ _ H H') as HP. destruct r, r'; auto.
Qed.
