(** Proofs about catch-all rules, unsupported types and verbs (C69). *)
From Coq Require Import List String Ascii Bool Arith ZArith Lia.
From Verif Require Import Base GoStr GoFloat Types Json StrUtils Prepare Parse Marshal Lifecycle Eval Check
  Spec_Decision Check_proofs Spec_Validate Prepare_proofs Spec_Regex Spec_Glob Glob_proofs Spec_Match Spec_Tree Match_proofs Names_proofs Spec_Copy Copy_proofs Spec_Meaning Meaning_rules Spec_Accept Accept_proofs Accept_rules Spec_Documented.
Import ListNotations.
Open Scope string_scope.

Section WithLib.
Variable L : Lib.
Hypothesis HCidr : CidrSpec L.

(** checking a loaded rule is checking its prepared copy, whose texts are those of the rule *)
Lemma loaded_checked ord g r e x s e' : ru_converted r = false -> check_one_rule L ord g (load_rule L r) e = (Some (x, s), e') ->
  exists c c' t, ru_converted c = false /\ prepare_rule L g c = Ok c' /\ check_prepared L ord c' (mkEst (e_msg e) t) = (Some x, e') /\
    ru_sender_name c = ru_sender_name r /\ ru_sender_type c = ru_sender_type r /\ ru_receiver_name c = ru_receiver_name r /\ ru_receiver_type c = ru_receiver_type r /\
    ru_protocol c = ru_protocol r /\ ru_operation c = ru_operation r /\ ru_resource_name c = ru_resource_name r /\ ru_decision c = ru_decision r /\
    (ru_tree r = None -> ru_tree c = None).
Proof.
  intros HV H. unfold check_one_rule, mbind, ensure_prepared in H. cbn [load_rule rs_ready] in H. unfold set_predefined in H.
  cbn [load_rule rs_rule rs_lists rs_prepared] in H. destruct (copy_rule L ord r (e_tick e)) as [[c| |] t] eqn:EC.
  - destruct (prepare_rule L g c) as [c'| |] eqn:EP; cbn [rs_prepared] in H; try (unfold mpanic in H; discriminate H).
    destruct (check_prepared L ord c' (mkEst (e_msg e) t)) as [[y|] e1] eqn:EK; [|discriminate H]. unfold mret in H. injection H as <- _ <-.
    exists c, c', t. unfold copy_rule, pbind, pret in EC. destruct (copy_tree L ord (ru_tree r) (e_tick e)) as [[x| |] t1] eqn:ET; try discriminate EC.
    injection EC as <- <-. cbn. repeat (split; [first [exact HV|assumption|reflexivity]|]).
    intro EN. rewrite EN in ET. unfold copy_tree, pret in ET. injection ET as <- _. reflexivity.
  - cbn [rs_prepared] in H. unfold mpanic in H. discriminate H.
  - discriminate H.
Qed.

(** ** Types *)
Theorem unsupported_type ord g r e d x s e' : ru_converted r = false ->
  ~ In (ru_sender_type r) ["*"; "workload"; "subnet"] \/ ~ In (ru_receiver_type r) ["*"; "workload"; "subnet"; "hostname"] ->
  check_one_rule L ord g (load_rule L r) e = (Some ((d, x), s), e') -> d = 0 /\ x = [].
Proof.
  intros HV HT H. destruct (loaded_checked _ _ _ _ _ _ _ HV H) as (c & c' & t & HC & HP & HK & _ & E1 & _ & E2 & _).
  destruct (rule_result L ord c' _ t d x e' (prepared_ready L HCidr g c c' HC HP) HK) as (H1 & H2 & _).
  assert (D : d = 0).
  { destruct (Nat.eq_dec d 0) as [D|D]; [exact D|]. exfalso. apply H2 in D. destruct D as (DS & DR & _). destruct HT as [HT|HT].
    - apply (sender_other_type L g c c' (e_msg e) HC HP); [rewrite E1; exact HT|exact DS].
    - apply (receiver_other_type L g c c' (e_msg e) HC HP); [rewrite E2; exact HT|exact DR]. }
  auto.
Qed.

(** ** Catch-all rules *)
Hypothesis HRegex : RegexSpec L.

Lemma star_accepts s : name_accepts "*" s <-> one_line s.
Proof.
  split.
  - intros (items & item & HI & IN & HG).
    assert (EI : items = ["*"]).
    { apply comma_items_iff in HI. subst items. reflexivity. }
    subst items. destruct IN as [<-|[]]. change (without_spaces "*") with "*" in HG. inversion HG as [|q s1 s2 H1 H2 E1 E2| |c q s' N1 N2 H1 E1]; subst.
    + inversion H2; subst. unfold one_line. rewrite GoStr_facts.append_nil_r. exact H1.
    + exfalso. apply N1. reflexivity.
  - intro H. exists ["*"], "*". split; [apply comma_items_iff; reflexivity|]. split; [left; reflexivity|].
    change (without_spaces "*") with "*". rewrite <- (GoStr_facts.append_nil_r s). constructor; [exact H|constructor].
Qed.

Lemma star_kept g : replace_name g "*" = Ok "*".
Proof. reflexivity. Qed.
Lemma star_pattern : pattern_ok "*".
Proof. cbn. split; [|exact I]. split; [apply Nat.ltb_lt; reflexivity|]. intro H. repeat (destruct H as [H|H]; [discriminate H|]). exact H. Qed.

Lemma catch_all_result ord g r m t d d' x s e : ascii_message m -> catch_all L r -> decision_word (ru_decision r) d ->
  check_one_rule L ord g (load_rule L r) (mkEst m t) = (Some ((d', x), s), e) ->
  (plainly_named m -> d' = d) /\ (~ plainly_named m -> d' = 0) /\ x = [].
Proof.
  intros HA HC HD H. assert (HV : ru_converted r = false) by (destruct (ca_new _ _ HC) as (_ & _ & _ & _ & E); exact E).
  destruct (loaded_checked _ _ _ _ _ _ _ HV H) as (c & c' & t' & HU & HP & HK & E1 & E2 & E3 & E4 & E5 & E6 & E7 & E8 & E9).
  destruct (ca_sender _ _ HC) as [S1 S2]. destruct (ca_receiver _ _ HC) as [R1 R2]. cbn [e_msg] in HK.
  pose proof (Names_proofs.prepared_fields L g c c' HU HP) as (F1 & F2 & _ & _ & F5 & _ & _ & _ & F9 & _ & _ & _ & _ & _ & _ & _ & _ & FT).
  rewrite (E9 (ca_tree _ _ HC)) in FT.
  assert (N1 : ru_sender_name c' = "*") by (rewrite E1, S1, star_kept in F1; congruence).
  assert (N2 : ru_receiver_name c' = "*") by (rewrite E3, R1, star_kept in F2; congruence).
  unfold ascii_message in HA. rewrite Forall_forall in HA.
  assert (MS : sender_matches L c' m <-> one_line (m_source_service m)).
  { rewrite (sender_names L HRegex g c c' m HU HP); [|rewrite E2; exact S2|rewrite N1; exact star_pattern|apply HA; simpl; tauto].
    rewrite N1. apply star_accepts. }
  assert (MR : receiver_matches L c' m <-> one_line (m_dest_service m)).
  { rewrite (receiver_names L HRegex g c c' m HU HP); [|rewrite E4; exact R2|rewrite N2; exact star_pattern|apply HA; simpl; tauto].
    rewrite N2. apply star_accepts. }
  assert (MO : operation_matches L c' m).
  { apply (operation_texts L HRegex g c c' m HU HP); [rewrite E6, (ca_operation _ _ HC); exact star_pattern|apply HA; simpl; tauto|].
    left. rewrite E6. exact (ca_operation _ _ HC). }
  assert (ME : resource_matches L c' m) by (right; left; rewrite F5, E5; exact (ca_protocol _ _ HC)).
  destruct (rule_result L ord c' m t' d' x e (prepared_ready L HCidr g c c' HU HP) HK) as (H1 & H2 & H3).
  rewrite F9, E8 in H2, H3.
  assert (TH : conditions_hold L ord c' m t' []) by (unfold conditions_hold; rewrite FT; reflexivity).
  assert (X : x = []).
  { destruct (Nat.eq_dec d' 0) as [D|D]; [auto|]. apply H3 in D. destruct D as [_ D]. unfold conditions_hold in D. rewrite FT in D. exact D. }
  split; [|split; [|exact X]].
  - intros [P1 P2]. assert (D : d' <> 0) by (apply H2; rewrite MS, MR; repeat (split; [assumption|]); split; [exists []; exact TH|exists d; exact HD]).
    apply H3 in D. destruct D as [D _]. revert D HD. unfold decision_word. generalize (ru_decision r). clear. intros w D HD.
    destruct D as [[-> D]|[[-> D]|[-> D]]], HD as [[-> E]|[[-> E]|[-> E]]]; auto; intuition congruence.
  - intro NP. destruct (Nat.eq_dec d' 0) as [D|D]; [exact D|]. exfalso. apply H2 in D. apply NP. split; [apply MS|apply MR]; apply D.
Qed.

Lemma strictest_above rs k w d : decision_is_strictest rs k -> In d rs -> decision_word w d -> d <= k.
Proof.
  intros HS HI [[-> _]|[[-> _]|[-> _]]]; destruct HS as [[-> _]|[[-> [_ N3]]|[[-> [_ [N2 N3]]]|[-> HZ]]]]; try tauto; try lia;
    rewrite Forall_forall in HZ; specialize (HZ _ HI); discriminate HZ.
Qed.

Theorem catch_all_checked ord g before r after m t d o e : ascii_message m -> catch_all L r -> decision_word (ru_decision r) d ->
  check L ord g (before ++ load_rule L r :: after)%list (mkEst m t) = (Some o, e) ->
  (plainly_named m -> nth_error (out_results o) (List.length before) = Some d /\ d <= out_decision o) /\
  (~ plainly_named m -> nth_error (out_results o) (List.length before) = Some 0).
Proof.
  intros HA HC HD H. pose proof (check_decision L ord g _ m t o e H) as (_ & HR & HS & _).
  apply Forall2_app_inv_l in HR. destruct HR as (l1 & l2 & H1 & H2 & ER). inversion H2 as [|? d' ? l3 (x & t' & s & e1 & HK) HT]; subst.
  assert (EN : nth_error (out_results o) (List.length before) = Some d').
  { rewrite ER. clear - H1. induction H1; [reflexivity|]. cbn. assumption. }
  destruct (catch_all_result ord g r m t' d d' x s e1 HA HC HD HK) as (K1 & K2 & _). split.
  - intro HP. rewrite (K1 HP) in EN. split; [exact EN|]. apply nth_error_In in EN. exact (strictest_above _ _ _ d HS EN HD).
  - intro HP. rewrite (K2 HP) in EN. exact EN.
Qed.

Lemma decision_at_most d o rs : decision_is_strictest rs d -> decision_name d o -> 3 <= d -> d = 3 /\ o = "block".
Proof.
  intros [[-> _]|[[-> _]|[[-> _]|[-> _]]]] HN H; try lia. split; [reflexivity|]. destruct HN as [[E _]|[[E _]|[[E _]|[_ E]]]]; try discriminate E. exact E.
Qed.
Theorem catch_all_blocks ord g before r after m t o e : ascii_message m -> plainly_named m -> catch_all L r -> ru_decision r = "block" ->
  check L ord g (before ++ load_rule L r :: after)%list (mkEst m t) = (Some o, e) -> out_decision o = 3 /\ out_string o = "block".
Proof.
  intros HA HP HC HD H. assert (HW : decision_word (ru_decision r) 3) by (right; right; split; [reflexivity|left; exact HD]).
  destruct (catch_all_checked ord g before r after m t 3 o e HA HC HW H) as [H1 _]. destruct (H1 HP) as [_ H2].
  pose proof (check_decision L ord g _ m t o e H) as (_ & _ & HS & HN). exact (decision_at_most _ _ _ HS HN H2).
Qed.

(** a loaded rule answers with its own decision or not at all *)
Lemma own_decision ord g r m t d x s e : ru_converted r = false -> ru_decision r = "block" ->
  check_one_rule L ord g (load_rule L r) (mkEst m t) = (Some ((d, x), s), e) -> d = 0 \/ d = 3.
Proof.
  intros HV HD H. destruct (loaded_checked _ _ _ _ _ _ _ HV H) as (c & c' & t' & HC & HP & HK & _ & _ & _ & _ & _ & _ & _ & ED & _).
  destruct (rule_result L ord c' _ t' d x e (prepared_ready L HCidr g c c' HC HP) HK) as (_ & _ & H3).
  pose proof (Names_proofs.prepared_fields L g c c' HC HP) as (_ & _ & _ & _ & _ & _ & _ & _ & F9 & _).
  destruct (Nat.eq_dec d 0) as [D|D]; [left; exact D|right]. apply H3 in D. destruct D as [D _]. rewrite F9, ED, HD in D.
  destruct D as [[_ [E|[E|E]]]|[[_ [E|[E|E]]]|[D _]]]; try discriminate E. exact D.
Qed.
Theorem default_allow ord g r rules m t o e : ascii_message m -> plainly_named m -> catch_all L r -> ru_decision r = "allow" ->
  (forall s, In s rules -> ru_converted s = false /\ ru_decision s = "block") ->
  check L ord g (map (load_rule L) (r :: rules)) (mkEst m t) = (Some o, e) ->
  exists ds, out_results o = 1 :: ds /\ Forall (fun d => d = 0 \/ d = 3) ds /\
    (In 3 ds -> out_decision o = 3) /\ (~ In 3 ds -> out_decision o = 1).
Proof.
  intros HA HP HC HD HB H. assert (HW : decision_word (ru_decision r) 1) by (left; split; [reflexivity|left; exact HD]).
  pose proof (check_decision L ord g _ m t o e H) as (_ & HR & HS & _). cbn [map] in HR.
  inversion HR as [|? d ? ds (x & t' & s & e1 & HK) HT EA EB]. subst. exists ds.
  destruct (catch_all_result ord g r m t' 1 d x s e1 HA HC HW HK) as (K1 & _). rewrite (K1 HP) in *. split; [reflexivity|].
  assert (HZ : Forall (fun d => d = 0 \/ d = 3) ds).
  { clear - HT HB HCidr. remember (map (load_rule L) rules) as l eqn:El. revert rules El HB. induction HT as [|s d l ds (x & t' & s' & e1 & HK) HT IH]; intros rules El HB; [constructor|].
    destruct rules as [|r rules]; [discriminate El|]. injection El as -> ->. constructor.
    - destruct (HB r (or_introl eq_refl)) as [H1 H2]. exact (own_decision ord g r m t' d x s' e1 H1 H2 HK).
    - apply (IH rules eq_refl). intros s HI. apply HB. right. exact HI. }
  split; [exact HZ|]. rewrite <- EB in HS. rewrite Forall_forall in HZ. split; intro HI.
  - assert (H3 : In 3 (1 :: ds)) by (right; exact HI).
    destruct HS as [[-> _]|[[_ [_ N]]|[[_ [_ [_ N]]]|[_ N]]]]; try tauto. rewrite Forall_forall in N. specialize (N 3 H3). discriminate N.
  - destruct HS as [[_ [E|N]]|[[_ [[E|N] _]]|[[-> _]|[_ N]]]]; try discriminate E; try tauto.
    + destruct (HZ 2 N) as [E|E]; discriminate E.
    + inversion N. discriminate.
Qed.

Lemma catch_all_ordinary g r : catch_all L r -> ordinary L g r /\ preparable_rule L g r.
Proof.
  intro HC. destruct (ca_sender _ _ HC) as [S1 S2]. destruct (ca_receiver _ _ HC) as [R1 R2].
  assert (K : forall name, replaced_name g "*" name -> name = "*") by (intros name H; apply replace_name_iff in H; rewrite star_kept in H; congruence).
  assert (K' : replaced_name g "*" "*") by (apply replace_name_iff; apply star_kept).
  split; [split; [exact (ca_new _ _ HC)|rewrite (ca_tree _ _ HC); discriminate|split]|split; [rewrite (ca_tree _ _ HC); discriminate|split]].
  - rewrite S1. intros name H. rewrite (K name H). exact star_pattern.
  - rewrite R1. intros name H. rewrite (K name H). exact star_pattern.
  - rewrite (ca_operation _ _ HC). exact star_pattern.
  - exact (ca_resource _ _ HC).
  - exists "*". split; [rewrite S1; exact K'|]. intro E. rewrite E in S2. destruct S2 as [S2|[S2|[]]]; discriminate S2.
  - exists "*". split; [rewrite R1; exact K'|]. intro E. rewrite E in R2. destruct R2 as [R2|[R2|[]]]; discriminate R2.
Qed.
Theorem catch_all_returns ord g r e : fair ord -> catch_all L r -> fst (check_one_rule L ord g (load_rule L r) e) <> None.
Proof.
  intros HF HC H. destruct (catch_all_ordinary g r HC) as [HO HP].
  destruct (set_outcome L g HRegex r ord (e_tick e) HF HO) as [[_ HS] _]. specialize (HS HP). destruct HS as (s & t' & HS).
  assert (HV : ru_converted r = false) by (destruct (ca_new _ _ HC) as (_ & _ & _ & _ & E); exact E).
  unfold check_one_rule, mbind, ensure_prepared in H. cbn [load_rule rs_ready] in H.
  change (mkRstate r empty_predef false None) with (load_rule L r) in H. rewrite HS in H. cbn [e_msg] in H.
  unfold set_predefined in HS. cbn [load_rule rs_rule rs_lists rs_prepared] in HS.
  assert (FT : faithful_tree L (ru_tree r)) by (rewrite (ca_tree _ _ HC); exact I).
  destruct (rule_copied L ord r HF (ca_new _ _ HC) FT (e_tick e)) as [t1 EC]. rewrite EC in HS.
  destruct (prepare_rule L g r) as [c| |] eqn:EP; try discriminate HS. injection HS as <- _. cbn [rs_prepared] in H.
  destruct (check_prepared L ord c (mkEst (e_msg e) t')) as [[x|] e1] eqn:EK; [unfold mret in H; discriminate H|].
  apply rule_panic in EK; [|exact (prepared_ready L HCidr g r c HV EP)]. destruct EK as (n & EN & _).
  pose proof (Names_proofs.prepared_fields L g r c HV EP) as (_ & _ & _ & _ & _ & _ & _ & _ & _ & _ & _ & _ & _ & _ & _ & _ & _ & FF).
  rewrite (ca_tree _ _ HC) in FF. congruence.
Qed.

(** ** Names without commas, spaces and wildcards *)
Definition literal_char (c : ascii) : Prop := ~ In c [","; " "; "*"; "?"]%char.
Lemma literal_glob s t : all_chars literal_char s -> (glob s t <-> t = s).
Proof.
  revert t. induction s as [|c s IH]; intros t HC.
  - split; [intro H; inversion H; reflexivity|intros ->; constructor].
  - destruct HC as [HC HS]. assert (N1 : c <> "*"%char) by (intros ->; apply HC; simpl; tauto). assert (N2 : c <> "?"%char) by (intros ->; apply HC; simpl; tauto).
    split.
    + intro H. inversion H; subst; try congruence. f_equal. apply IH; assumption.
    + intros ->. apply g_lit; auto. apply IH; auto.
Qed.
Lemma literal_spaces s : all_chars literal_char s -> without_spaces s = s.
Proof.
  induction s as [|c s IH]; intro H; [reflexivity|]. destruct H as [HC HS]. unfold without_spaces in *. cbn [list_ascii_of_string filter].
  destruct (Ascii.eqb c " ") eqn:E; [exfalso; apply Ascii.eqb_eq in E; subst c; apply HC; simpl; tauto|]. cbn [negb string_of_list_ascii]. f_equal. apply IH. exact HS.
Qed.
Lemma literal_items s items : all_chars literal_char s -> comma_items s items -> items = [s].
Proof.
  intros HC HI. assert (H1 : comma_items s [s]).
  { split; [discriminate|]. split; [|reflexivity]. constructor; [|constructor]. clear - HC. induction s as [|c s IH]; [exact I|]. destruct HC as [HC HS].
    split; [intros ->; apply HC; simpl; tauto|apply IH; exact HS]. }
  apply comma_items_iff in HI, H1. congruence.
Qed.
Theorem literal_accepts s t : all_chars literal_char s -> (name_accepts s t <-> t = s).
Proof.
  intro HC. split.
  - intros (items & item & HI & IN & HG). rewrite (literal_items s items HC HI) in IN. destruct IN as [<-|[]]. rewrite (literal_spaces s HC) in HG. apply literal_glob; auto.
  - intros ->. exists [s], s. split; [|split; [left; reflexivity|rewrite (literal_spaces s HC); apply literal_glob; auto]].
    split; [discriminate|]. split; [|reflexivity]. constructor; [|constructor]. clear - HC. induction s as [|c s IH]; [exact I|]. destruct HC as [HC HS].
    split; [intros ->; apply HC; simpl; tauto|apply IH; exact HS].
Qed.

Theorem documented_methods verb methods method : In (verb, methods) documented_verbs -> In method methods ->
  (operation_accepts verb method <-> ~ In method ["CONSUME"; "PRODUCE"]).
Proof.
  intros HV HM. destruct HV as [E|[E|[]]]; injection E as <- <-; repeat (destruct HM as [<-|HM]; [split; [
    intros [E|[[_ H]|[[_ H]|[N _]]]]; [discriminate E| | |exfalso; apply N; simpl; tauto];
    first [intros [E|[E|[]]]; discriminate E|exfalso; repeat (destruct H as [E|H]; [discriminate E|]); exact H]
   |intro N; first [exfalso; apply N; simpl; tauto|right; right; left; split; [left; reflexivity|simpl; tauto]|right; left; split; [left; reflexivity|simpl; tauto]]]|]); destruct HM.
Qed.

End WithLib.
