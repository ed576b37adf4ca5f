(** Panics while reading rules, repeated keys in files, dictionaries, and Check on rules from documents. *)
From Coq Require Import List String Ascii Bool Arith ZArith Floats.SpecFloat Lia.
From Verif Require Import Base GoStr GoFloat Types Json StrUtils Validate Prepare Parse Marshal Lifecycle Lifecycle_proofs Messages Fields Yaml Eval Check
  Spec_Tree Spec_Leaf Spec_Regex Spec_Load Load_proofs Spec_Copy Spec_Grammar Spec_Crash Crash_proofs Spec_Lifecycle Prepare_proofs Spec_Decision Spec_Meaning Spec_Match Spec_Accept Accept_proofs Accept_rules Grammar_proofs
  Spec_Fields Spec_Yaml Yaml_proofs Yaml_rules.
Import ListNotations.
Open Scope string_scope.
Local Arguments String.prefix : simpl never.

(** ** Panics *)
Section Panics.
Context {A : Type} (field : string -> option (yaml -> A -> P (A * bool))).
Lemma struct_panic m : forall a t t', decode_struct field m a t = (Panic, t') ->
  exists k y f a1 t1 t2, at_key m k y /\ field k = Some f /\ f y a1 t1 = (Panic, t2).
Proof.
  induction m as [|[k y] m IH]; intros a t t' H; [discriminate H|].
  assert (HI : forall a t t', decode_struct field m a t = (Panic, t') -> exists k0 y0 f a1 t1 t2, at_key ((k, y) :: m) k0 y0 /\ field k0 = Some f /\ f y0 a1 t1 = (Panic, t2)).
  { intros a0 t0 t0' H0. destruct (IH _ _ _ H0) as (k0 & y0 & f & a1 & t1 & t2 & (key & HT & HI) & H1 & H2). exists k0, y0, f, a1, t1, t2. split; auto. exists key. split; auto. right. auto. }
  apply struct_cons in H. destruct H as [(name & HN & [[_ H]|(f & HF & H)])|[_ H]].
  - eauto.
  - apply pbind_eq in H. destruct H as [(x & t1 & H1 & H2)|[[H _]|[_ H]]]; [|discriminate H|].
    + apply pbind_eq in H2. destruct H2 as [(z & t2 & H2 & H3)|[[H2 _]|[_ H2]]]; [discriminate H3|discriminate H2|eauto].
    + exists name, y, f, a, t, t'. split; auto. exists k. split; [apply (text_iff k ""); auto|left; reflexivity].
  - apply pbind_eq in H. destruct H as [(x & t1 & H1 & H2)|[[H _]|[_ H]]]; [discriminate H2|discriminate H|eauto].
Qed.
End Panics.
Lemma part_panic {A B} (get : A -> B) set h y a t t' : part get set h y a t = (Panic, t') -> h y (get a) t = (Panic, t').
Proof.
  unfold part. intro H. apply pbind_eq in H. destruct H as [([b bad] & t1 & H1 & H2)|[[H _]|[_ H]]]; [discriminate H2|discriminate H|auto].
Qed.
Lemma structs_panic {A} (elem : yaml -> P (A * bool)) l : forall t t', decode_structs elem l t = (Panic, t') -> exists y t1 t2, In y l /\ elem y t1 = (Panic, t2).
Proof.
  induction l as [|y l IH]; intros t t' H; [discriminate H|]. cbn [decode_structs] in H. apply pbind_eq in H. destruct H as [([x b] & t1 & H1 & H2)|[[H _]|[_ H]]]; [|discriminate H|].
  - apply pbind_eq in H2. destruct H2 as [([xs b'] & t2 & H2 & H3)|[[H2 _]|[_ H2]]]; [discriminate H3|discriminate H2|]. destruct (IH _ _ H2) as (y0 & u & u' & HI & HE). exists y0, u, u'. split; [right|]; auto.
  - exists y, t, t'. split; [left|]; auto.
Qed.
Lemma list_panic {A} (elem : yaml -> P (A * bool)) y old t t' : decode_list elem y old t = (Panic, t') -> exists l z t1 t2, y = YSeq l /\ In z l /\ elem z t1 = (Panic, t2).
Proof.
  destruct y as [s v|l|m]; cbn [decode_list]; [destruct v; discriminate| |discriminate]. intro H. apply structs_panic in H. destruct H as (z & t1 & t2 & HI & HE). eauto 7.
Qed.
Lemma into_panic {A} (new : A) field y old t t' : decode_into new field y old t = (Panic, t') ->
  exists m k z f a1 t1 t2, y = YMap m /\ at_key m k z /\ field k = Some f /\ f z a1 t1 = (Panic, t2).
Proof.
  destruct y as [s v|l|m]; cbn [decode_into]; [destruct v; discriminate|discriminate|]. intro H. apply struct_panic in H. destruct H as (k & z & f & a1 & t1 & t2 & H). exists m, k, z, f, a1, t1, t2. auto.
Qed.
Section WithLib.
Variable L : Lib.
Variable ord : order.
Variable re_text : option (string -> option (RE L)).

Lemma expanded_no_panic y t t' : decode_expanded L y t = (Panic, t') -> False.
Proof. intro H. apply into_panic in H. destruct H as (m & k & z & f & a1 & t1 & t2 & _ & _ & H & _). discriminate H. Qed.
Lemma side_no_panic nk tk y a t t' : decode_side L nk tk y a t = (Panic, t') -> False.
Proof.
  intro H. apply into_panic in H. destruct H as (m & k & z & f & a1 & t1 & t2 & _ & _ & HF & H). apply by_name_in in HF.
  destruct HF as [E|[E|[E|[]]]]; injection E as <- <-; apply part_panic in H; try discriminate H.
  apply list_panic in H. destruct H as (l & w & t3 & t4 & _ & _ & H). exact (expanded_no_panic _ _ _ H).
Qed.
Lemma resource_no_panic y a t t' : decode_resource L y a t = (Panic, t') -> False.
Proof.
  intro H. apply into_panic in H. destruct H as (m & k & z & f & a1 & t1 & t2 & _ & _ & HF & H). apply by_name_in in HF.
  destruct HF as [E|[E|[]]]; injection E as <- <-; apply part_panic in H; discriminate H.
Qed.
Lemma regex_no_panic y a t t' : decode_regex L re_text y a t = (Panic, t') -> False.
Proof.
  unfold decode_regex. destruct y as [s v|l|m]; [|discriminate|].
  - destruct (has_value v); [|discriminate]. destruct (null_text s v); [discriminate|]. destruct re_text as [f|]; [|discriminate]. destruct (f s); discriminate.
  - intro H. apply pbind_eq in H. destruct H as [([b bad] & t1 & H1 & H2)|[[H _]|[_ H]]]; [discriminate H2|discriminate H|]. apply struct_panic in H. destruct H as (k & z & f & a1 & t1 & t2 & _ & H & _). discriminate H.
Qed.
Lemma conditions_panic y a t t' : clean y -> decode_conditions L ord y a t = (Panic, t') -> exists v t1, value y v /\ fst (parse_conditions_tree L ord v t1) = Panic.
Proof.
  intros HC H. destruct (clean_decodes y HC) as (v & HV & HY & _). exists v, t. split; auto. unfold decode_conditions in H. rewrite HV in H.
  assert (HX : (pdo t <- unmarshal_yaml_tree L ord v; pret (Ok (t, false))) t = (Panic, t') -> fst (parse_conditions_tree L ord v t) = Panic).
  { intro H0. apply pbind_eq in H0. destruct H0 as [(b & t1 & H1 & H2)|[[H0 _]|[_ H0]]]; [discriminate H2|discriminate H0|]. unfold unmarshal_yaml_tree in H0.
    apply pbind_eq in H0. destruct H0 as [(b & t1 & H1 & H2)|[[H0 _]|[_ H0]]]; [discriminate H2|discriminate H0|]. rewrite H0. reflexivity. }
  destruct y as [s w|l|m]; auto. destruct (null_text s w); auto. destruct (has_value w); discriminate H.
Qed.
Theorem rules_no_panic y t : fair ord -> clean y -> (forall c v, conditions_in y c -> value c v -> ~ crashes L "" v) -> fst (read_rules L ord re_text y t) <> Panic.
Proof.
  intros HF HC HN H. destruct (read_rules L ord re_text y t) as [r t'] eqn:E. cbn in H. subst r. unfold read_rules, finish in E.
  apply pbind_eq in E. destruct E as [([b bad] & t1 & H1 & H2)|[[E _]|[_ E]]]; [destruct bad; discriminate H2|discriminate E|].
  apply into_panic in E. destruct E as (m & k & z & f & a1 & t1 & t2 & -> & HK & HB & E). apply by_name_in in HB. destruct HB as [EB|[]]. injection EB as <- <-.
  apply list_panic in E. destruct E as (l & w & t3 & t4 & -> & HW & E).
  pose proof (at_key_clean _ _ _ HC HK) as HCl. assert (HCw : clean w) by (pose proof (in_clean l HCl) as HX; rewrite Forall_forall in HX; auto).
  apply into_panic in E. destruct E as (m' & k & c & f & a2 & t5 & t6 & -> & HK' & HB & E). apply by_name_in in HB.
  pose proof (at_key_clean _ _ _ HCw HK') as HCc.
  repeat (destruct HB as [EB|HB]; [injection EB as <- <-; apply part_panic in E; try discriminate E|]).
  - exact (side_no_panic _ _ _ _ _ _ E).
  - exact (side_no_panic _ _ _ _ _ _ E).
  - exact (resource_no_panic _ _ _ _ E).
  - apply conditions_panic in E; auto. destruct E as (v & u & HV & HP). apply (HN c v); auto.
    + exists m, l, m'. auto.
    + apply (proj2 (loading_panics L v u (value_go c v HCc HV))). exists ord. auto.
  - exact (regex_no_panic _ _ _ _ E).
  - destruct HB.
Qed.
End WithLib.

(** ** Repeated keys *)
Lemma key_eqb_refl k : scalar_value k -> key_eqb k k = true.
Proof.
  destruct k; cbn; intro H; try destruct H; auto using Bool.eqb_reflx, Z.eqb_refl, String.eqb_refl.
  destruct f; cbn; try reflexivity; unfold feqb, SFeqb; cbn; [destruct s; reflexivity|]. destruct s; cbn; rewrite Z.compare_refl, Pos.compare_refl; reflexivity.
Qed.
Lemma same_eqb k k' : scalar_value k -> same_key k k' -> key_eqb k k' = true.
Proof. intros HS [<-|(x & y & -> & -> & H)]; [apply key_eqb_refl; auto|]. cbn. unfold feqb. rewrite H. reflexivity. Qed.
Lemma distinct_keys_app ks1 k ks2 k' ks3 : scalar_value k -> same_key k k' -> distinct_keys (ks1 ++ k :: ks2 ++ k' :: ks3) = false.
Proof.
  intros HS HK. induction ks1 as [|x ks1 IH]; cbn.
  - rewrite existsb_app. cbn. rewrite (same_eqb k k' HS HK), orb_true_r. reflexivity.
  - rewrite IH, andb_false_r. reflexivity.
Qed.
Lemma all_some_app {A} (l l' : list (option A)) ks : all_some (l ++ l') = Some ks -> exists k1 k2, ks = (k1 ++ k2)%list /\ all_some l = Some k1 /\ all_some l' = Some k2.
Proof.
  intro H. apply all_some_iff in H. symmetry in H. apply map_eq_app in H. destruct H as (k1 & k2 & -> & H1 & H2). exists k1, k2. split; auto. split; apply all_some_iff; auto.
Qed.
Theorem repeats_refused y : repeats y -> test_yaml y = false.
Proof.
  induction 1 as [l1 t k v l2 t' k' v' l3 HS HK|m k v HI _ IH|m k v HI _ IH|l y HI _ IH]; cbn [test_yaml].
  - apply andb_false_iff. right. destruct (all_some _) as [ks|] eqn:E; [|reflexivity]. apply andb_false_iff. right.
    rewrite map_app in E. apply all_some_app in E. destruct E as (k1 & k2 & -> & _ & E). cbn in E. destruct (all_some (map _ (l2 ++ _))) as [k3|] eqn:E3; [|discriminate E]. injection E as <-.
    rewrite map_app in E3. apply all_some_app in E3. destruct E3 as (k4 & k5 & -> & _ & E5). cbn in E5. destruct (all_some (map _ l3)) as [k6|]; [|discriminate E5]. injection E5 as <-.
    apply distinct_keys_app; auto.
  - apply andb_false_iff. left. apply not_true_iff_false. intro H. rewrite forallb_forall in H. specialize (H _ HI). cbn in H. rewrite IH, andb_false_r in H. discriminate.
  - apply andb_false_iff. left. apply not_true_iff_false. intro H. rewrite forallb_forall in H. specialize (H _ HI). cbn in H. rewrite IH in H. discriminate.
  - apply not_true_iff_false. intro H. rewrite forallb_forall in H. specialize (H _ HI). congruence.
Qed.

(** ** Dictionaries *)
Lemma opt_fun {A} m k (a : A) (R : yaml -> A -> Prop) x x' : distinct_texts m -> (forall y z z', at_key m k y -> R y z -> R y z' -> z' = z) -> opt m k a R x -> opt m k a R x' -> x' = x.
Proof.
  intros HD HR [[HN ->]|(y & HY & HX)] H'.
  - destruct H' as [[_ ->]|(y & HY & _)]; auto. destruct (HN y HY).
  - pose proof (opt_at _ _ _ _ _ _ HD H' HY) as HX'. eauto.
Qed.
Lemma dictionary_fun y s l s' l' : clean y -> dictionary_text y s l -> dictionary_text y s' l' -> s' = s /\ l' = l.
Proof.
  intros HC [(HN & -> & ->)|(m & -> & H1 & H2)] [(HN' & -> & ->)|(m' & E & H1' & H2')]; auto.
  - destruct HN as [t ->]. discriminate E.
  - destruct HN' as [t E]. discriminate E.
  - injection E as <-. pose proof (clean_distinct m HC) as HD. split.
    + apply (opt_fun _ _ _ _ _ _ HD) with (2 := H1) (3 := H1'). intros y z z' HY HZ HZ'. pose proof (at_key_clean _ _ _ HC HY) as HCy.
      apply (map_iff _ _ text_elem_iff y z HCy) in HZ. apply (map_iff _ _ text_elem_iff y z' HCy) in HZ'. congruence.
    + apply (opt_fun _ _ _ _ _ _ HD) with (2 := H2) (3 := H2'). intros y z z' HY HZ HZ'. pose proof (at_key_clean _ _ _ HC HY) as HCy.
      apply (map_iff _ _ strings_iff y z HCy) in HZ. apply (map_iff _ _ strings_iff y z' HCy) in HZ'. congruence.
Qed.
Lemma resolved_texts p q v : p_strings p = p_strings q -> p_lists p = p_lists q -> resolved_form p v -> resolved_form q v.
Proof. unfold resolved_form. intros -> ->. auto. Qed.
Theorem dictionary_sound y t p t' : clean y -> read_predef y t = (Ok p, t') -> exists strings lists, dictionary_text y strings lists /\ resolved_form (mkPredef strings lists []) p.
Proof.
  intros HC H. unfold read_predef in H. apply pbind_ok in H. destruct H as (q & t1 & H1 & H2). apply pret_ok in H2. destruct H2 as [H2 _].
  unfold finish in H1. apply pbind_ok in H1. destruct H1 as ([q1 b] & t2 & H1 & H3). destruct b; apply pret_ok in H3; destruct H3 as [H3 _]; [discriminate H3|]. injection H3 as ->.
  exists (p_strings q), (p_lists q). split; [eapply predef_sound; eauto|]. destruct (dictionary_resolved q) as [A B].
  assert (HB : ~ bad_list q) by (intro HB; apply A in HB; congruence). destruct (B HB) as (v & E & HV). replace p with v by congruence. revert HV. apply resolved_texts; reflexivity.
Qed.
Theorem dictionary_read y strings lists t : clean y -> dictionary_text y strings lists -> (forall m, y = YMap m -> no_key m "-") ->
  (bad_list (mkPredef strings lists []) -> exists t', read_predef y t = (Err, t')) /\
  (~ bad_list (mkPredef strings lists []) -> exists p t', read_predef y t = (Ok p, t') /\ resolved_form (mkPredef strings lists []) p).
Proof.
  intros HC HT HP. destruct (predef_accepts y strings lists t HC HT HP) as (q & t1 & E). pose proof (predef_sound y t q t1 HC E) as HQ.
  destruct (dictionary_fun _ _ _ _ _ HC HT HQ) as [E1 E2]. destruct (dictionary_resolved q) as [A B].
  assert (ER : read_predef y t = (validate_predef q, t1)). { unfold read_predef, finish, pbind. rewrite E. reflexivity. }
  split; intro HB.
  - exists t1. rewrite ER. f_equal. apply A. destruct HB as (n & l & s & H1 & H2 & H3). exists n, l, s. cbn in *. rewrite E1, E2. auto.
  - assert (HB' : ~ bad_list q). { intros (n & l & s & H1 & H2 & H3). apply HB. exists n, l, s. cbn. rewrite <- E1, <- E2. auto. }
    destruct (B HB') as (v & EV & HV). exists v, t1. split; [rewrite ER, EV; reflexivity|]. revert HV. apply resolved_texts; cbn; congruence.
Qed.

(** ** Check on rules and dictionaries from documents *)
Theorem documents_check L p ord ord' g re_text y m t u : RegexSpec L -> CidrSpec L -> NumberSpec L -> jp_prepare L "$.*" <> None ->
  (forall rest, jp_prepare L ("$RELATIVE" ++ rest) = None) -> fair ord -> fair ord' -> ascii_message m ->
  clean y -> plain_rules y -> (exists rs, rules_text L y rs) ->
  (forall rs, rules_text L y rs -> Forall (underived L) rs -> Forall (ordinary L p) rs /\ Forall (preparable_rule L p) rs /\ Forall (fun r => rule_covered L p r m) rs) ->
  exists rs ss t' o e, rules_text L y rs /\ read_rules_with L ord' re_text p y u = (Ok ss, t') /\ check L ord g ss (mkEst m t) = (Some o, e) /\
    Forall2 (fun r d => verdict L p r m d) rs (out_results o) /\ decision_is_strictest (out_results o) (out_decision o).
Proof.
  intros H1 H2 H3 H4 H5 HF HF' HM HC HP [rs0 HR0] HX. destruct (rules_accepted L ord' re_text HF' y rs0 u HC HP HR0) as (rs & u1 & E).
  destruct (rules_sound L ord' re_text HF' y u rs u1 HC E) as [HR HU]. specialize (HU HP). destruct (HX rs HR HU) as (O1 & O2 & O3).
  destruct (loaded_check_written L p ord ord' g rs m t u1 H1 H2 H3 H4 H5 HF HF' HM O1 O2 O3) as (ss & t' & o & e & E1 & E2 & E3 & E4).
  exists rs, ss, t', o, e. split; auto. split; auto. unfold read_rules_with, pbind. rewrite E. exact E1.
Qed.

(** ** The rules of a document are determined *)
Section Unique.
Variable L : Lib.
Lemma opt_text_fun m k s s' : distinct_texts m -> opt m k "" text s -> opt m k "" text s' -> s' = s.
Proof. intros HD. apply opt_fun; auto. intros y z z' _. apply text_fun. Qed.
Lemma name_and_type_fun nk tk y x x' : clean y -> name_and_type nk tk y x -> name_and_type nk tk y x' -> x' = x.
Proof.
  intros HC [(HN & ->)|(m & -> & H1 & H2)] [(HN' & ->)|(m' & E & H1' & H2')]; auto.
  - destruct HN as [t ->]. discriminate E.
  - destruct HN' as [t E]. discriminate E.
  - injection E as <-. pose proof (clean_distinct m HC) as HD. rewrite (surjective_pairing x), (surjective_pairing x'). f_equal; eapply opt_text_fun; eauto.
Qed.
Lemma tree_text_fun y x x' : clean y -> (forall v, value y v -> single v) -> tree_text L y x -> tree_text L y x' -> x' = x.
Proof.
  intros HC HS H H'.
  assert (HX : forall t v n, value (YScalar t GNil) v -> reads L "" v n -> False).
  { intros t v n HV HR. inversion HV; subst. inversion HR; subst; match goal with HE : entries_of _ _ |- _ => destruct HE; discriminate end. }
  destruct H as [t HT|y v n HV HR]; inversion H' as [t' HT'|y' v' n' HV' HR']; subst; auto.
  - destruct (HX _ _ _ HV' HR').
  - destruct (HX _ _ _ HV HR).
  - rewrite (value_fun y v v' HV HV') in *. pose proof (value_go y v HC HV) as HG.
    assert (HF : fair (fun (_ : nat) (ks : list string) => ks)) by (intros t ks; apply Permutation.Permutation_refl).
    destruct (Grammar_tree.grammar_every_order L _ v n 0 HF HG (HS v HV) HR) as [t1 E1]. destruct (Grammar_tree.grammar_every_order L _ v n' 0 HF HG (HS v HV) HR') as [t2 E2]. congruence.
Qed.
Lemma rule_says_fun m r r' : clean (YMap m) -> (forall c v, at_key m "conditions" c -> value c v -> single v) ->
  rule_says L m r -> rule_says L m r' -> underived L r -> underived L r' -> r' = r.
Proof.
  intros HC HS [R1 R2 R3 R4 R5 R6 R7 R8 R9 R10] [Q1 Q2 Q3 Q4 Q5 Q6 Q7 Q8 Q9 Q10] (U1 & U2 & U3 & U4 & U5) (V1 & V2 & V3 & V4 & V5). pose proof (clean_distinct m HC) as HD.
  pose proof (opt_text_fun _ _ _ _ HD R1 Q1) as E1. pose proof (opt_text_fun _ _ _ _ HD R4 Q4) as E4. pose proof (opt_text_fun _ _ _ _ HD R6 Q6) as E6.
  pose proof (opt_text_fun _ _ _ _ HD R8 Q8) as E8. pose proof (opt_text_fun _ _ _ _ HD R10 Q10) as E10.
  assert (N : forall k nk tk x x', opt m k ("", "") (name_and_type nk tk) x -> opt m k ("", "") (name_and_type nk tk) x' -> x' = x).
  { intros k nk tk x x'. apply opt_fun; auto. intros y z z' HY. apply name_and_type_fun. exact (at_key_clean _ _ _ HC HY). }
  pose proof (N _ _ _ _ _ R2 Q2) as E2. pose proof (N _ _ _ _ _ R3 Q3) as E3. pose proof (N _ _ _ _ _ R5 Q5) as E5.
  assert (E7 : ru_tree r' = ru_tree r).
  { revert R7 Q7. apply opt_fun; auto. intros y z z' HY. apply tree_text_fun; [exact (at_key_clean _ _ _ HC HY)|]. intros v HV. exact (HS y v HY HV). }
  assert (E9 : ru_metadata r' = ru_metadata r).
  { revert R9 Q9. apply opt_fun; auto. intros y z z' HY HZ HZ'. pose proof (at_key_clean _ _ _ HC HY) as HCy.
    apply (map_iff _ _ text_elem_iff y z HCy) in HZ. apply (map_iff _ _ text_elem_iff y z' HCy) in HZ'. congruence. }
  clear R1 R2 R3 R4 R5 R6 R7 R8 R9 R10 Q1 Q2 Q3 Q4 Q5 Q6 Q7 Q8 Q9 Q10 N. destruct r, r'. cbn in *. injection E2 as ? ?. injection E3 as ? ?. injection E5 as ? ?. subst. reflexivity.
Qed.
Lemma rule_text_fun y r r' : clean y -> (forall m c v, y = YMap m -> at_key m "conditions" c -> value c v -> single v) ->
  rule_text L y r -> rule_text L y r' -> underived L r -> underived L r' -> r' = r.
Proof.
  intros HC HS [(HN & HR)|(m & -> & HR)] [(HN' & HR')|(m' & E & HR')] HU HU'.
  - destruct HU as (U1 & U2 & U3 & U4 & U5), HU' as (V1 & V2 & V3 & V4 & V5).
    destruct HR as (R1 & R2 & R3 & R4 & R5 & R6 & R7 & R8 & R9 & R10 & R11 & R12 & R13), HR' as (Q1 & Q2 & Q3 & Q4 & Q5 & Q6 & Q7 & Q8 & Q9 & Q10 & Q11 & Q12 & Q13).
    clear HN HN'. destruct r, r'. cbn in *. subst. reflexivity.
  - destruct HN as [t ->]. discriminate E.
  - destruct HN' as [t E]. discriminate E.
  - injection E as <-. apply (rule_says_fun m); auto. intros c v. apply HS. reflexivity.
Qed.
Theorem rules_unique y rs rs' : clean y -> single_conditions y -> rules_text L y rs -> rules_text L y rs' -> Forall (underived L) rs -> Forall (underived L) rs' -> rs' = rs.
Proof.
  intros HC HS [(HN & ->)|(m & -> & HR)] [(HN' & ->)|(m' & E & HR')] HU HU'; auto.
  - destruct HN as [t ->]. discriminate E.
  - destruct HN' as [t E]. discriminate E.
  - injection E as <-. pose proof (clean_distinct m HC) as HD. destruct HR as [[HN ->]|(y & HY & HR)].
    + symmetry. destruct HR' as [[_ ->]|(y & HY & _)]; auto. destruct (HN y HY).
    + pose proof (opt_at _ _ _ _ _ _ HD HR' HY) as HX. pose proof (at_key_clean _ _ _ HC HY) as HCy. destruct HR as [t|l xs HF]; inversion HX as [|? xs' HF']; subst; auto.
      assert (HSl : forall m' c v, In (YMap m') l -> at_key m' "conditions" c -> value c v -> single v).
      { intros m' c v HI HK HV. apply (HS c v); auto. exists m, l, m'. auto. }
      apply in_clean in HCy. clear -HF HF' HU HU' HCy HSl. revert rs' HF' HU'. induction HF as [|y r l rs HR _ IH]; intros rs' HF' HU'; inversion HF'; subst; auto.
      inversion HU; inversion HU'; inversion HCy; subst. f_equal.
      * eapply rule_text_fun; eauto. intros m c v ->. apply HSl. left. reflexivity.
      * apply IH; auto. intros m' c v HI. apply HSl. right. auto.
Qed.
Theorem rules_exact ord re_text y t rs : fair ord -> clean y -> plain_rules y -> single_conditions y ->
  (exists t', read_rules L ord re_text y t = (Ok rs, t')) <-> rules_text L y rs /\ Forall (underived L) rs.
Proof.
  intros HF HC HP HS. split.
  - intros [t' E]. destruct (rules_sound L ord re_text HF y t rs t' HC E) as [H1 H2]. auto.
  - intros [H1 H2]. destruct (rules_accepted L ord re_text HF y rs t HC HP H1) as (rs' & t' & E). exists t'.
    destruct (rules_sound L ord re_text HF y t rs' t' HC E) as [H1' H2']. rewrite (rules_unique y rs' rs HC HS H1' H1 (H2' HP) H2). exact E.
Qed.
End Unique.
