(** Proofs about trees evaluated as they were loaded. *)
From Coq Require Import List String Ascii Bool Arith ZArith.
From Verif Require Import Base GoStr GoFloat Types StrUtils GoStr_facts Validate Prepare Parse Eval Spec_Tree Tree_proofs Spec_Leaf Spec_Regex Leaf_proofs Attr_proofs Spec_Validate Validate_proofs Number_proofs Spec_Load Load_proofs Spec_Grammar Grammar_proofs Spec_Early.
Import ListNotations.
Open Scope string_scope.

Section WithLib.
Variable L : Lib.

Lemma kind_number k : {In k number_kinds} + {~ In k number_kinds}.
Proof. destruct k; (left; simpl; tauto) || (right; simpl; intuition discriminate). Qed.
Lemma kind_fun w k k' : method_is w k -> method_is w k' -> k = k'.
Proof. unfold method_is. simpl. intros H H'. intuition congruence. Qed.
Lemma compare_int_other method k a o : method_is method k -> ~ In k number_kinds -> compare_int a method o = Some false.
Proof. intros H HK. simpl in HK. method_cases H; reflexivity || (exfalso; apply HK; tauto). Qed.
Lemma compare_float_other method k a o : method_is method k -> ~ In k number_kinds -> compare_float a method o = Some false.
Proof. intros H HK. simpl in HK. method_cases H; reflexivity || (exfalso; apply HK; tauto). Qed.
Lemma compare_float_no method k a : method_is method k -> In k number_kinds -> compare_float a method None = None.
Proof. intros H HK. simpl in HK. method_cases H; reflexivity || (exfalso; intuition discriminate). Qed.

Lemma int_early method a x r : early_number int_holds method a x r -> compare_int a method x = r.
Proof.
  intros [k y b HM HK -> HI|k HM HK ->|k HM HK].
  - destruct (compare_int_op method k a y HM HK) as (r' & E & I). rewrite E. f_equal. apply eq_true_iff_eq. rewrite HI. exact I.
  - exact (compare_int_none method k a HM HK).
  - exact (compare_int_other method k a x HM HK).
Qed.
Lemma float_early method a x r : early_number float_holds method a x r -> compare_float a method x = r.
Proof.
  intros [k y b HM HK -> HI|k HM HK ->|k HM HK].
  - destruct (compare_float_ops method k a y HM HK) as (r' & E & I). rewrite E. f_equal. apply eq_true_iff_eq. rewrite HI. exact I.
  - exact (compare_float_no method k a HM HK).
  - exact (compare_float_other method k a x HM HK).
Qed.
Lemma int_early_some method k a x : method_is method k -> exists r, early_number int_holds method a x r.
Proof.
  intro HM. destruct (kind_number k) as [HK|HK]; [|eexists; eapply en_other; eauto]. destruct x as [y|]; [|eexists; eapply en_missing; eauto].
  destruct (compare_int_op method k a y HM HK) as (r' & E & I). eexists. eapply en_compared; eauto.
Qed.
Lemma float_early_some method k a x : method_is method k -> exists r, early_number float_holds method a x r.
Proof.
  intro HM. destruct (kind_number k) as [HK|HK]; [|eexists; eapply en_other; eauto]. destruct x as [y|]; [|eexists; eapply en_missing; eauto].
  destruct (compare_float_ops method k a y HM HK) as (r' & E & I). eexists. eapply en_compared; eauto.
Qed.
Lemma text_early (c : cond L) t b : n_regex (c_num c) = None -> n_string_regex (c_num c) = None -> early_text (c_method c) t b -> compare_text_attr L c t = b.
Proof.
  intros E1 E2. unfold compare_text_attr, compare_wild, compare_regex. rewrite E1, E2. generalize (c_method c). intros method H. destruct H as [b HM HB|b HM HB|k HM HK|k HM HK].
  - method_cases HM; apply eq_true_iff_eq; rewrite HB; destruct t; cbn; intuition discriminate.
  - method_cases HM; apply eq_true_iff_eq; rewrite HB; destruct t; cbn; intuition discriminate.
  - simpl in HK. method_cases HM; try (exfalso; intuition discriminate); reflexivity.
  - simpl in HK. method_cases HM; try (exfalso; tauto); reflexivity.
Qed.
Lemma text_early_some method k t : method_is method k -> exists b, early_text method t b.
Proof.
  intro HM. assert (HD : {In k [KEx; KNex; KNeq; KNe; KNre]} + {~ In k [KEx; KNex; KNeq; KNe; KNre]}).
  { destruct k; (left; simpl; tauto) || (right; simpl; intuition discriminate). }
  destruct HD as [HI|HI]; [|eexists; eapply et_other; eauto].
  destruct HI as [<-|[<-|HI]].
  - exists (negb (String.eqb t "")). apply et_present; [exact HM|]. rewrite negb_true_iff, String.eqb_neq. reflexivity.
  - exists (String.eqb t ""). apply et_absent; [exact HM|]. apply String.eqb_eq.
  - exists true. eapply et_different; eauto.
Qed.

(** ** Conditions *)
Lemma condition_early att method value ret (c : cond L) ord r s : condition_stored L att method value ret c -> early_condition L (c_attr c) (c_method c) (c_value c) (e_msg s) r ->
  eval L ord (NCond c) s = (option_map (fun b => (b, [])) r, s).
Proof.
  intros [HA E1 E2 E3 E4 E5 [E6 E6'] (E7 & E8 & E9 & E10) E11] H. cbn [eval]. unfold test_condition, mbind, mmsg. cbn [fst snd].
  assert (HX : forall x, decimal L (c_value c) x -> n_float (c_num c) = x).
  { intros x HX. rewrite E3 in HX. destruct HX as [(y & HY & ->)|[HN ->]], E5 as [(z & HZ & ->)|[HM ->]]; auto.
    - f_equal. eapply quantity_fun; eauto.
    - exfalso. exact (HM _ HY).
    - exfalso. exact (HN _ HZ). }
  destruct H as [HT|HT|r HT HN|x r HT HD HN|v x r HT HV HD HN|HT HV|t b HT HB|HT].
  - destruct HT as [<-|[<-|[]]]; reflexivity.
  - destruct HT as [<-|[<-|[]]]; reflexivity.
  - rewrite HT. cbn -[compare_int]. rewrite E4, <- E3. rewrite (int_early _ _ _ _ HN). destruct r; reflexivity.
  - rewrite HT. cbn -[compare_float]. rewrite (HX x HD). rewrite (float_early _ _ _ _ HN). destruct r; reflexivity.
  - rewrite HT. cbn -[compare_float]. rewrite HV. unfold mopt. rewrite (HX x HD). rewrite (float_early _ _ _ _ HN). destruct r; reflexivity.
  - rewrite HT. cbn -[compare_float]. rewrite HV. reflexivity.
  - destruct HT as [HT|[HT|[HT|[]]]]; injection HT as HT <-; rewrite <- HT; cbn -[compare_text_attr]; rewrite (text_early c _ b E6 E6' HB); reflexivity.
  - assert (HG : forall a, In a named_attributes -> String.eqb (c_attr c) a = false) by (intros a HI; apply String.eqb_neq; intros HE; rewrite HE in HT; contradiction).
    simpl in HG. unfold is_any. cbn [existsb].
    rewrite !HG by tauto. cbn [orb].
    assert (HS : forall a, In a ["$sender"; "$receiver"; "senderLabel"; "receiverLabel"; "jsonpath"] -> String.eqb (c_attr c) a = false).
    { intros a HI. apply String.eqb_neq. intros HC. destruct HA as (k & _ & HA & _). rewrite <- E1, HC in HA. clear -HI HA.
      simpl in HI. destruct HI as [<-|[<-|[<-|[<-|[<-|[]]]]]]; inversion HA as [? HP| | | | | |]; simpl in HP; intuition discriminate. }
    simpl in HS. rewrite !HS by tauto. reflexivity.
Qed.
Lemma attribute_named att : {In att named_attributes} + {~ In att named_attributes}.
Proof. apply (in_dec string_dec). Qed.
Lemma decimal_some value : exists x, decimal L value x.
Proof.
  destruct (float_with_units L value) as [x|] eqn:E; [exists (Some x); left; exists x; split; [apply number_iff; exact E|reflexivity]|exists None; right; split; [apply not_number_iff; exact E|reflexivity]].
Qed.
Lemma condition_early_some att method value m : acceptable L att method value -> exists r, early_condition L att method value m r.
Proof.
  intros (k & HM & _ & _). destruct (attribute_named att) as [HI|HI]; [|exists (Some false); apply ec_other; exact HI].
  assert (HTX : forall t, In (att, t) (message_texts m) -> exists r, early_condition L att method value m r).
  { intros t HT. destruct (text_early_some method k t HM) as [b HB]. exists (Some b). eapply ec_text; eauto. }
  destruct (decimal_some value) as [x HX].
  unfold named_attributes in HI. simpl in HI. destruct HI as [E|[E|[E|[E|[E|[E|[E|[E|[E|[E|[]]]]]]]]]]].
  - exists (Some true). apply ec_true. simpl. auto.
  - exists (Some true). apply ec_true. simpl. auto.
  - exists (Some false). apply ec_false. simpl. auto.
  - exists (Some false). apply ec_false. simpl. auto.
  - destruct (int_early_some method k (m_size m) (parse_int value) HM) as [r HR]. exists r. apply ec_size; auto.
  - apply HTX with (m_useragent m). rewrite <- E. left. reflexivity.
  - destruct (float_early_some method k (m_t_hours m) x HM) as [r HR]. exists r. eapply ec_hours; eauto.
  - apply HTX with (m_enc_type m). rewrite <- E. right. left. reflexivity.
  - destruct (m_enc_version m) as [v|] eqn:EV; [|exists None; apply ec_no_version; auto].
    destruct (float_early_some method k v x HM) as [r HR]. exists r. eapply ec_version; eauto.
  - apply HTX with (m_domain m). rewrite <- E. right. right. left. reflexivity.
Qed.

(** ** Trees *)
Definition result (r : option bool) : option (bool * extra) := option_map (fun b => (b, [])) r.
Lemma and_loop_true (es : list (M (bool * extra))) s : Forall (fun e => e s = (Some (true, []), s)) es -> forall rest acc, and_loop (es ++ rest)%list acc s = and_loop rest acc s.
Proof. induction 1 as [|e es HE _ IH]; intros rest acc; [reflexivity|]. cbn [app and_loop]. unfold mbind at 1. rewrite HE. exact (IH rest acc). Qed.
Lemma or_loop_run (es : list (M (bool * extra))) bs s : Forall2 (fun e b => e s = (Some (b, []), s)) es bs -> forall rest out, or_loop (es ++ rest)%list out [] s = or_loop rest (out || existsb (fun b => b) bs) [] s.
Proof.
  induction 1 as [|e b es bs HE _ IH]; intros rest out; [rewrite orb_false_r; reflexivity|]. cbn [app or_loop existsb]. unfold mbind at 1. rewrite HE. destruct b; cbn [app]; rewrite IH, orb_assoc; reflexivity.
Qed.
Lemma bytes_early q (a : aanode L) ord (inner : M (bool * extra)) s : a_parents a = [] -> quant_bytes L ord q a inner s = (Some (false, []), s).
Proof. intro E. unfold quant_bytes, elements_bytes, mbind, mmsg. rewrite E. reflexivity. Qed.

Lemma early_run n : n = NNil \/ made L n -> forall ord s r, early L (e_msg s) n r -> eval L ord n s = (result r, s).
Proof.
  induction n as [ns IH|ns IH|n IH|q a n IH| | |c|] using node_ind'; intros HM ord s r HE; (destruct HM as [HM|HM]; [try discriminate HM|inversion HM as [ns' HF|ns' HF|n' HF|q' s' r' n' HF HV HP HRT|cn c' HD HV]; subst]).
  - assert (HG : forall l, incl l ns -> Forall (fun n => early L (e_msg s) n (Some true)) l -> Forall (fun e => e s = (Some (true, []), s)) (map (eval L ord) l)).
    { intros l HL H. apply Forall_forall. intros e HI. apply in_map_iff in HI. destruct HI as (n & <- & HI). rewrite Forall_forall in H, IH, HF.
      exact (IH n (HL n HI) (or_intror (HF n (HL n HI))) ord s (Some true) (H n HI)). }
    cbn [eval]. inversion HE as [| | | | |ns' HA|ns1 n ns2 r' HA HN HR| |]; subst.
    + pose proof (and_loop_true _ s (HG ns (fun x H => H) HA) [] []) as E. rewrite app_nil_r in E. rewrite E. reflexivity.
    + rewrite map_app. rewrite (and_loop_true _ s (HG ns1 (fun x H => in_or_app _ _ _ (or_introl H)) HA)). cbn [map and_loop]. unfold mbind at 1.
      rewrite Forall_forall in IH, HF. assert (HI : In n (ns1 ++ n :: ns2)) by (apply in_or_app; right; left; reflexivity).
      rewrite (IH n HI (or_intror (HF n HI)) ord s r HN). destruct r as [[|]|]; [congruence|reflexivity|reflexivity].
  - assert (HG : forall l bs, incl l ns -> Forall2 (fun n b => early L (e_msg s) n (Some b)) l bs -> Forall2 (fun e b => e s = (Some (b, []), s)) (map (eval L ord) l) bs).
    { intros l bs HL H. rewrite Forall_forall in IH, HF. induction H as [|n b l bs H _ IHl]; constructor.
      - assert (HI : In n ns) by (apply HL; left; reflexivity). exact (IH n HI (or_intror (HF n HI)) ord s (Some b) H).
      - apply IHl. intros x HX. apply HL. right. exact HX. }
    cbn [eval]. inversion HE as [| | | | | | |ns' bs HA|ns1 n ns2 HA HN]; subst.
    + pose proof (or_loop_run _ bs s (HG ns bs (fun x H => H) HA) [] false) as E. rewrite app_nil_r in E. rewrite E. reflexivity.
    + rewrite map_app. assert (HB : exists bs, Forall2 (fun n b => early L (e_msg s) n (Some b)) ns1 bs).
      { clear -HA. induction HA as [|n l [b HB] _ [bs IH]]; [exists []; constructor|]. exists (b :: bs). constructor; auto. }
      destruct HB as [bs HB]. rewrite (or_loop_run _ bs s (HG ns1 bs (fun x H => in_or_app _ _ _ (or_introl H)) HB)). cbn [map or_loop]. unfold mbind at 1.
      rewrite Forall_forall in IH, HF. assert (HI : In n (ns1 ++ n :: ns2)) by (apply in_or_app; right; left; reflexivity).
      rewrite (IH n HI (or_intror (HF n HI)) ord s None HN). reflexivity.
  - cbn [eval]. unfold mbind. inversion HE; subst; [rewrite (IH HF ord s (Some b)) by assumption|rewrite (IH HF ord s None) by assumption]; reflexivity.
  - cbn [eval]. inversion HE; subst. unfold mbind at 1, mmsg at 1. cbn [a_prep]. destruct (m_raw (e_msg s)); apply bytes_early; reflexivity.
  - apply stored_iff in HV. inversion HE; subst. eapply condition_early; eauto.
  - inversion HE; subst. reflexivity.
Qed.
Lemma list_split {A} (P : A -> option bool -> Prop) l : Forall (fun a => exists r, P a r) l ->
  Forall (fun a => P a (Some true)) l \/ exists l1 a l2 r, l = (l1 ++ a :: l2)%list /\ Forall (fun a => P a (Some true)) l1 /\ P a r /\ r <> Some true.
Proof.
  induction 1 as [|a l [r HR] _ IH]; [left; constructor|]. assert (HD : r = Some true \/ r <> Some true) by (destruct r as [[|]|]; [left; reflexivity|right; discriminate|right; discriminate]). destruct HD as [->|HN].
  - destruct IH as [IH|(l1 & a' & l2 & r & -> & H1 & H2 & H3)]; [left; constructor; auto|]. right. exists (a :: l1), a', l2, r. repeat split; auto.
  - right. exists [], a, l, r. repeat split; auto.
Qed.
Lemma list_split_or {A} (P : A -> option bool -> Prop) l : Forall (fun a => exists r, P a r) l ->
  (exists bs, Forall2 (fun a b => P a (Some b)) l bs) \/ exists l1 a l2, l = (l1 ++ a :: l2)%list /\ Forall (fun a => exists b, P a (Some b)) l1 /\ P a None.
Proof.
  induction 1 as [|a l [r HR] _ IH]; [left; exists []; constructor|]. destruct r as [b|].
  - destruct IH as [[bs IH]|(l1 & a' & l2 & -> & H1 & H2)]; [left; exists (b :: bs); constructor; auto|]. right. exists (a :: l1), a', l2. repeat split; auto. constructor; eauto.
  - right. exists [], a, l. repeat split; auto.
Qed.
Lemma early_some m n : n = NNil \/ made L n -> exists r, early L m n r.
Proof.
  induction n as [ns IH|ns IH|n IH|q a n IH| | |c|] using node_ind'; intros HM; (destruct HM as [HM|HM]; [try discriminate HM|inversion HM as [ns' HF|ns' HF|n' HF|q' s' r' n' HF HV HP HRT|cn c' HD HV]; subst]).
  - assert (HX : Forall (fun n => exists r, early L m n r) ns) by (rewrite Forall_forall in *; auto).
    destruct (list_split _ _ HX) as [HA|(l1 & n & l2 & r & -> & H1 & H2 & H3)]; eexists; [apply ea_and; exact HA|eapply ea_and_stops; eauto].
  - assert (HX : Forall (fun n => exists r, early L m n r) ns) by (rewrite Forall_forall in *; auto).
    destruct (list_split_or _ _ HX) as [[bs HA]|(l1 & n & l2 & -> & H1 & H2)]; eexists; [apply ea_or; exact HA|eapply ea_or_panic; eauto].
  - destruct (IH HF) as [[b|] HR]; eexists; [apply ea_not; exact HR|apply ea_not_panic; exact HR].
  - eexists. apply ea_quant.
  - apply stored_iff in HV. destruct (condition_early_some (c_attr c) (c_method c) (c_value c) m) as [r HR]; [|exists r; apply ea_cond; exact HR].
    destruct HV as [HA E1 E2 E3 _ _ _ _ _]. rewrite E1, E2, E3. exact HA.
  - exists None. apply ea_nothing.
Qed.
End WithLib.

Theorem early_exact L ord ord' v t n t' s r : fair ord -> go_value v -> parse_conditions_tree L ord v t = (Ok n, t') ->
  (early L (e_msg s) n r <-> eval L ord' n s = (option_map (fun b => (b, [])) r, s)).
Proof.
  intros HF HG HL. pose proof (tree_made L ord HF v t n t' HG HL) as HM. split; [apply early_run; auto|]. intro H.
  destruct (early_some L (e_msg s) n (or_intror HM)) as [r' HR]. pose proof (early_run L n (or_intror HM) ord' s r' HR) as E. rewrite E in H. injection H as H.
  assert (ER : r' = r) by (destruct r, r'; cbn in H; congruence). rewrite <- ER. exact HR.
Qed.
Theorem early_total L ord v t n t' m : fair ord -> go_value v -> parse_conditions_tree L ord v t = (Ok n, t') -> exists r, early L m n r.
Proof. intros HF HG HL. apply early_some. right. eapply tree_made; eauto. Qed.
Theorem early_unique L ord v t n t' m r r' : fair ord -> go_value v -> parse_conditions_tree L ord v t = (Ok n, t') -> early L m n r -> early L m n r' -> r = r'.
Proof.
  intros HF HG HL H1 H2. apply (early_exact L ord ord v t n t' (mkEst m 0) r HF HG HL) in H1. apply (early_exact L ord ord v t n t' (mkEst m 0) r' HF HG HL) in H2.
  rewrite H2 in H1. destruct r, r'; cbn in H1; congruence.
Qed.
