(** Messages that agree on what the rules read are decided alike. *)
From Coq Require Import List String Ascii Bool Arith ZArith Lia.
From Verif Require Import Base GoStr GoStr_facts GoFloat Types Json StrUtils Validate Prepare Parse Marshal Lifecycle Eval Check Spec_Tree Tree_proofs Tree_truth
  Spec_Regex Spec_Glob Spec_Match Match_proofs Spec_Leaf Number_proofs Leaf_proofs Leaf_laws Attr_proofs Prepare_proofs Spec_Validate Validate_proofs Spec_Load Load_proofs Spec_Copy Copy_proofs Spec_Grammar Spec_Meaning
  Meaning_proofs Meaning_rules Spec_Relevant.
Import ListNotations.
Open Scope string_scope.

Section Runs.
Variable L : Lib.
Variable ord : order.
(** a relation between messages that moving both to the same element keeps *)
Variable P : message -> message -> Prop.
Hypothesis closed_raw : forall m m' v, P m m' -> same_documents m m' -> P (set_raw_rel m v) (set_raw_rel m' v).
Hypothesis closed_json : forall m m' v, P m m' -> same_documents m m' -> P (set_json_rel m v) (set_json_rel m' v).

Definition twins {A} (x y : M A) : Prop := forall m m' t, P m m' ->
  fst (x (mkEst m t)) = fst (y (mkEst m' t)) /\ e_tick (snd (x (mkEst m t))) = e_tick (snd (y (mkEst m' t))) /\
  P (e_msg (snd (x (mkEst m t)))) (e_msg (snd (y (mkEst m' t)))).

Lemma twins_bind {A B} (x y : M A) (f g : A -> M B) : twins x y -> (forall a, twins (f a) (g a)) -> twins (mbind x f) (mbind y g).
Proof.
  intros HX HF m m' t HP. destruct (HX m m' t HP) as (E1 & E2 & E3). unfold mbind.
  destruct (x (mkEst m t)) as [[a|] [m1 t1]], (y (mkEst m' t)) as [[b|] [m2 t2]]; cbn in *; try discriminate; subst; [|auto].
  injection E1 as ->. apply HF; auto.
Qed.
Lemma twins_msg {B} (f g : message -> M B) : (forall m m', P m m' -> twins (f m) (g m')) -> twins (mbind mmsg f) (mbind mmsg g).
Proof. intros HF m m' t HP. apply (HF m m' HP m m' t HP). Qed.
Lemma twins_ret {A} (a : A) : twins (mret a) (mret a).
Proof. intros m m' t HP. cbn. auto. Qed.
Lemma twins_opt {A} (a : option A) : twins (mopt a) (mopt a).
Proof. intros m m' t HP. cbn. auto. Qed.
Lemma twins_panic {A} : twins (@mpanic A) mpanic.
Proof. intros m m' t HP. cbn. auto. Qed.
Lemma twins_range {A} (x : list (string * A)) : twins (mrange ord x) (mrange ord x).
Proof. intros m m' t HP. cbn. auto. Qed.

Ltac twin := repeat first
  [ apply twins_ret | apply twins_opt | apply twins_panic | apply twins_range | solve [auto]
  | apply twins_bind; [|intros ?]
  | match goal with
    | |- twins (let '_ := ?x in _) _ => destruct x
    | |- twins (if ?b then _ else _) _ => destruct b
    | |- twins (match ?x with _ => _ end) _ => destruct x
    end ].

(** ** Conditions *)
Definition seen (c : cond L) (m m' : message) : Prop :=
  (c_attr c = "payloadSize" -> m_size m = m_size m') /\
  (c_attr c = "requestUseragent" -> m_useragent m = m_useragent m') /\
  (c_attr c = "utcHoursFromMidnight" -> m_t_hours m = m_t_hours m') /\
  (c_attr c = "encryptionType" -> m_enc_type m = m_enc_type m') /\
  (c_attr c = "encryptionVersion" -> m_enc_version m = m_enc_version m') /\
  (c_attr c = "domain" -> m_domain m = m_domain m') /\
  (c_attr c = "$sender" -> get_attribute true (o_sender_attr (c_obj c)) m = get_attribute true (o_sender_attr (c_obj c)) m' /\
     (o_value_is_receiver (c_obj c) = true -> get_attribute false (o_value_attr (c_obj c)) m = get_attribute false (o_value_attr (c_obj c)) m')) /\
  (c_attr c = "$receiver" -> get_attribute false (o_receiver_attr (c_obj c)) m = get_attribute false (o_receiver_attr (c_obj c)) m') /\
  (c_attr c = "senderLabel" -> assoc (l_sender_key (c_lab c)) (m_source_labels m) = assoc (l_sender_key (c_lab c)) (m_source_labels m') /\
     (l_value_is_receiver (c_lab c) = true -> assoc (l_value_key (c_lab c)) (m_dest_labels m) = assoc (l_value_key (c_lab c)) (m_dest_labels m'))) /\
  (c_attr c = "receiverLabel" -> assoc (l_receiver_key (c_lab c)) (m_dest_labels m) = assoc (l_receiver_key (c_lab c)) (m_dest_labels m')) /\
  (c_attr c = "jsonpath" -> same_documents m m').

Lemma twins_bytes c m m' : same_documents m m' -> test_json_bytes L c m = test_json_bytes L c m'.
Proof. intros (E1 & E2 & E3 & E4). unfold test_json_bytes. rewrite E1, E3. reflexivity. Qed.
Lemma same_extra_iface r m m' : same_documents m m' -> extra_iface L r m = extra_iface L r m'.
Proof. intros (E1 & E2 & E3 & E4). unfold extra_iface, extra_iface_one. rewrite E2, E4. reflexivity. Qed.
Lemma same_extra_bytes r m m' : same_documents m m' -> extra_bytes L r m = extra_bytes L r m'.
Proof. intros (E1 & E2 & E3 & E4). unfold extra_bytes, extra_bytes_one. rewrite E1, E3. reflexivity. Qed.
Lemma same_get_extra c m m' : same_documents m m' -> get_extra L c m = get_extra L c m'.
Proof.
  intro H. unfold get_extra. rewrite (same_extra_iface _ _ _ H), (same_extra_bytes _ _ _ H). destruct H as (E1 & E2 & E3 & E4). rewrite E2. reflexivity.
Qed.

Lemma twins_iface c q m m' : same_documents m m' -> twins (test_json_iface L ord c q m) (test_json_iface L ord c q m').
Proof.
  intros (E1 & E2 & E3 & E4). unfold test_json_iface, get_key_value_iface. rewrite E2, E4. twin.
Qed.

Lemma twins_condition c : (forall m m', P m m' -> seen c m m') -> twins (test_condition L ord c) (test_condition L ord c).
Proof.
  intro H. unfold test_condition. apply twins_msg. intros m m' HP.
  destruct (H m m' HP) as (H1 & H2 & H3 & H4 & H5 & H6 & H7 & H8 & H9 & H10 & H11). clear H.
  destruct (is_any (c_attr c) ["true"; "TRUE"]); [twin|]. destruct (is_any (c_attr c) ["false"; "FALSE"]); [twin|].
  destruct (String.eqb_spec (c_attr c) "payloadSize") as [E|_]; [rewrite (H1 E); twin|].
  destruct (String.eqb_spec (c_attr c) "requestUseragent") as [E|_]; [rewrite (H2 E); twin|].
  destruct (String.eqb_spec (c_attr c) "utcHoursFromMidnight") as [E|_]; [rewrite (H3 E); twin|].
  destruct (String.eqb_spec (c_attr c) "encryptionType") as [E|_]; [rewrite (H4 E); twin|].
  destruct (String.eqb_spec (c_attr c) "encryptionVersion") as [E|_]; [rewrite (H5 E); twin|].
  destruct (String.eqb_spec (c_attr c) "domain") as [E|_]; [rewrite (H6 E); twin|].
  destruct (String.eqb_spec (c_attr c) "$sender") as [E|_].
  { destruct (H7 E) as [EA EB]. unfold test_sender_attr. rewrite EA. destruct (o_value_is_receiver (c_obj c)); [rewrite EB by reflexivity|]; apply twins_ret. }
  destruct (String.eqb_spec (c_attr c) "$receiver") as [E|_]; [unfold test_receiver_attr; rewrite (H8 E); twin|].
  destruct (String.eqb_spec (c_attr c) "senderLabel") as [E|_].
  { destruct (H9 E) as [EA EB]. unfold test_sender_label. rewrite EA. destruct (l_value_is_receiver (c_lab c)); [rewrite EB by reflexivity|]; apply twins_ret. }
  destruct (String.eqb_spec (c_attr c) "receiverLabel") as [E|_]; [unfold test_receiver_label; rewrite (H10 E); twin|].
  destruct (String.eqb_spec (c_attr c) "jsonpath") as [E|_]; [|twin].
  specialize (H11 E). rewrite (twins_bytes c _ _ H11), (same_get_extra c _ _ H11).
  apply twins_bind.
  - pose proof H11 as (E1 & E2 & E3 & E4). rewrite E2. destruct (m_raw m'); [|twin]. destruct (j_prep (c_jp c)); [|twin]. apply twins_iface. exact H11.
  - intro flag. twin.
Qed.

(** ** Elements *)
Lemma twins_arrange v : twins (arrange ord v) (arrange ord v).
Proof. unfold arrange. twin. Qed.
Lemma twins_query_all qs doc : twins (query_all L ord qs doc) (query_all L ord qs doc).
Proof. induction qs as [|q qs IH]; cbn [query_all]; [twin|]. destruct q; [|twin]. destruct doc; [|twin]. apply twins_bind; [apply twins_arrange|]. intro. twin. Qed.
Lemma twins_elements_iface a : (forall m m', P m m' -> same_documents m m') -> twins (elements_iface L ord a) (elements_iface L ord a).
Proof.
  intro HD. unfold elements_iface. apply twins_msg. intros m m' HP. destruct (HD m m' HP) as (E1 & E2 & E3 & E4). rewrite E2, E4.
  destruct (relative_parent (a_parent a)); [|apply twins_query_all]. destruct (String.eqb (a_parent a) "$RELATIVE*"); [twin|apply twins_query_all].
Qed.
Lemma same_gather ps m m' acc b : same_documents m m' -> gather L ps m acc b = gather L ps m' acc b.
Proof.
  intros (E1 & E2 & E3 & E4). revert acc b. induction ps as [|q ps IH]; intros; cbn [gather]; [reflexivity|]. rewrite E1, E3.
  destruct (relative_parent q).
  - destruct (m_json_rel m'); [|reflexivity]. destruct (js_get_opt L s _); auto.
  - destruct (m_json m'); [|reflexivity]. destruct (js_get_opt L s _); auto.
Qed.
Lemma twins_elements_bytes a : (forall m m', P m m' -> same_documents m m') -> twins (elements_bytes L ord a) (elements_bytes L ord a).
Proof.
  intro HD. unfold elements_bytes. apply twins_msg. intros m m' HP. rewrite (same_gather _ _ _ _ _ (HD m m' HP)). unfold objects_of_map. twin.
Qed.

Lemma twins_any {V} (set : V -> M unit) getx allv inner : (forall v, twins (set v) (set v)) -> twins inner inner ->
  (forall g, getx = Some g -> twins g g) -> forall vals r acc, twins (any_loop set getx allv inner vals r acc) (any_loop set getx allv inner vals r acc).
Proof.
  intros HS HI HG. induction vals as [|v vals IH]; intros r acc; cbn [any_loop]; [twin|].
  apply twins_bind; [apply HS|intros _]. apply twins_bind; [exact HI|]. intros [flag x]. destruct flag; [|apply IH].
  apply twins_bind; [|intro acc'; destruct allv; [apply IH|twin]].
  destruct getx as [g|]; [|twin]. apply twins_bind; [auto|]. intro. twin.
Qed.
Lemma twins_all {V} (set : V -> M unit) inner : (forall v, twins (set v) (set v)) -> twins inner inner ->
  forall vals, twins (all_loop set inner vals) (all_loop set inner vals).
Proof.
  intros HS HI. induction vals as [|v vals IH]; cbn [all_loop]; [twin|].
  apply twins_bind; [apply HS|intros _]. apply twins_bind; [exact HI|]. intros [flag x]. destruct flag; [apply IH|twin].
Qed.
Lemma twins_quant_loop {V} q a (set : V -> M unit) getx inner vals : (forall v, twins (set v) (set v)) -> twins inner inner -> twins getx getx ->
  twins (quant_loop L q a set getx inner vals) (quant_loop L q a set getx inner vals).
Proof.
  intros HS HI HG. destruct q; cbn [quant_loop]; [|apply twins_all; auto]. apply twins_any; auto.
  intros g. destruct (r_paths (a_ret a)); [|discriminate]. intros [= <-]. exact HG.
Qed.

Lemma twins_set_raw v v' : (forall m m', P m m' -> same_documents m m') -> v = v' -> twins (set_raw_relative v) (set_raw_relative v').
Proof. intros HD <- m m' t HP. cbn. auto. Qed.
Lemma twins_set_json v v' : (forall m m', P m m' -> same_documents m m') -> v = v' -> twins (set_json_relative v) (set_json_relative v').
Proof. intros HD <- m m' t HP. cbn. auto. Qed.

Lemma twins_quant q a inner : (forall m m', P m m' -> same_documents m m') -> twins inner inner ->
  twins (quant_iface L ord q a inner) (quant_iface L ord q a inner) /\ twins (quant_bytes L ord q a inner) (quant_bytes L ord q a inner).
Proof.
  intros HD HI. split.
  - unfold quant_iface. apply twins_bind; [apply twins_elements_iface; auto|]. intro vals. apply twins_msg. intros m m' HP.
    apply twins_bind.
    + apply twins_quant_loop; [intro; apply twins_set_raw; auto|auto|]. apply twins_msg. intros n n' HN. rewrite (same_extra_iface _ _ _ (HD n n' HN)). twin.
    + intro r. apply twins_bind; [|intro; twin]. apply twins_set_raw; auto. apply (HD m m' HP).
  - unfold quant_bytes. apply twins_bind; [apply twins_elements_bytes; auto|]. intros [vals|]; [|twin]. apply twins_msg. intros m m' HP.
    apply twins_bind.
    + apply twins_quant_loop; [intro; apply twins_set_json; auto|auto|]. apply twins_msg. intros n n' HN. rewrite (same_extra_bytes _ _ _ (HD n n' HN)). twin.
    + intro r. apply twins_bind; [|intro; twin]. apply twins_set_json; auto. apply (HD m m' HP).
Qed.

(** ** Trees *)
Fixpoint seen_tree (n : node L) (m m' : message) : Prop :=
  match n with
  | NCond c => seen c m m'
  | NNot n => seen_tree n m m'
  | NAnd ns | NOr ns => fold_right (fun n P => seen_tree n m m' /\ P) True ns
  | NQuant _ _ n => same_documents m m' /\ seen_tree n m m'
  | NTrue | NFalse | NNil => True
  end.
Lemma seen_all ns m m' : fold_right (fun n P => seen_tree n m m' /\ P) True ns <-> Forall (fun n => seen_tree n m m') ns.
Proof. induction ns as [|n ns IH]; cbn; [split; auto|]. rewrite IH. split; [intros []; auto|]. intro H. inversion H; auto. Qed.

Lemma twins_and es acc : Forall (fun e => twins e e) es -> twins (and_loop es acc) (and_loop es acc).
Proof.
  intro H. revert acc. induction H as [|e es HE HS IH]; intro acc; cbn [and_loop]; [twin|].
  apply twins_bind; [exact HE|]. intros [flag x]. destruct flag; [apply IH|twin].
Qed.
Lemma twins_or es out acc : Forall (fun e => twins e e) es -> twins (or_loop es out acc) (or_loop es out acc).
Proof.
  intro H. revert out acc. induction H as [|e es HE HS IH]; intros out acc; cbn [or_loop]; [twin|].
  apply twins_bind; [exact HE|]. intros [flag x]. apply IH.
Qed.

Lemma twins_tree n : (forall m m', P m m' -> seen_tree n m m') -> twins (eval L ord n) (eval L ord n).
Proof.
  induction n as [ns IH|ns IH|n IH|q a n IH| | |c|] using node_ind'; intro H; cbn [eval].
  - apply twins_and. apply Forall_map. rewrite Forall_forall in *. intros n HI. apply IH; auto. intros m m' HP.
    specialize (H m m' HP). cbn [seen_tree] in H. apply seen_all in H. rewrite Forall_forall in H. auto.
  - apply twins_or. apply Forall_map. rewrite Forall_forall in *. intros n HI. apply IH; auto. intros m m' HP.
    specialize (H m m' HP). cbn [seen_tree] in H. apply seen_all in H. rewrite Forall_forall in H. auto.
  - apply twins_bind; [apply IH; auto|]. intros [flag x]. twin.
  - assert (HD : forall m m', P m m' -> same_documents m m') by (intros m m' HP; apply (H m m' HP)).
    assert (HI : twins (eval L ord n) (eval L ord n)) by (apply IH; intros m m' HP; apply (H m m' HP)).
    destruct (twins_quant q a (eval L ord n) HD HI) as [Q1 Q2].
    apply twins_msg. intros m m' HP. destruct (HD m m' HP) as (E1 & E2 & E3 & E4). rewrite E2. destruct (m_raw m'); [|exact Q2]. destruct (a_prep a); [exact Q2|exact Q1].
  - twin.
  - twin.
  - apply twins_condition. exact H.
  - twin.
Qed.

(** ** Rules *)
Record seen_rule (r : rule L) (m m' : message) : Prop := {
  sr_sender : test_sender L r m = test_sender L r m';
  sr_receiver : test_receiver L r m = test_receiver L r m';
  sr_operation : m_method m = m_method m';
  sr_resource : test_resource L r m = test_resource L r m';
  sr_tree : forall n, ru_tree r = Some n -> seen_tree n m m'
}.
Lemma twins_rule r : (forall m m', P m m' -> seen_rule r m m') -> twins (check_prepared L ord r) (check_prepared L ord r).
Proof.
  intro H. unfold check_prepared. apply twins_msg. intros m m' HP. destruct (H m m' HP) as [H1 H2 H3 H4 H5]. rewrite H1, H2, H3, H4.
  assert (HT : forall n, ru_tree r = Some n -> twins (eval L ord n) (eval L ord n)) by (intros n EN; apply twins_tree; intros k k' HK; apply (sr_tree _ _ _ (H k k' HK)); exact EN).
  destruct (ru_tree r) as [n|]; [specialize (HT n eq_refl)|clear HT]; twin.
Qed.
End Runs.

(** ** From the conditions as written to the prepared ones *)
Section WithLib.
Variable L : Lib.
Variable p : predef.

Lemma final_start method v w s : starts (String w s) (final_value method v) -> w <> "^"%char -> final_value method v = v.
Proof.
  unfold final_value. destruct (is_any method _); [|auto]. intros [rest E] HW. unfold list_to_alternatives in E. cbn in E. congruence.
Qed.

(** the value of a condition after the labels are handled *)
Lemma labels_value c c' : handle_labels L c = Ok c' -> c_value c' = c_value c \/ c_value c' = "receiverLabel".
Proof.
  unfold handle_labels. intro H. apply rbind_ok in H. destruct H as ([a1 l1] & H1 & H). apply rbind_ok in H. destruct H as ([a2 l2] & H2 & H).
  apply rbind_ok in H. destruct H as ([v3 l3] & H3 & H). injection H as <-. cbn [c_value].
  destruct (has_prefix (c_value c) "receiverLabel["); [apply rbind_ok in H3; destruct H3 as (k & _ & H3)|]; injection H3 as <- <-; auto.
Qed.
Lemma objects_value c c' : c_obj c = no_obj -> handle_objects L c = Ok c' -> o_value_is_receiver (c_obj c') = true -> c_value c = "$receiver." ++ o_value_attr (c_obj c').
Proof.
  intros EO H. unfold handle_objects in H. rewrite EO in H.
  apply rbind_ok in H. destruct H as ([a1 l1] & H1 & H). apply rbind_ok in H. destruct H as ([a2 l2] & H2 & H).
  apply rbind_ok in H. destruct H as ([v3 l3] & H3 & H). injection H as <-. cbn [c_obj].
  assert (N1 : o_value_is_receiver l1 = false) by (destruct (has_prefix (c_attr c) "$sender."); [apply rbind_ok in H1; destruct H1 as (k & _ & H1)|]; injection H1 as <- <-; reflexivity).
  assert (N2 : o_value_is_receiver l2 = false) by (destruct (has_prefix a1 "$receiver."); [apply rbind_ok in H2; destruct H2 as (k & _ & H2)|]; injection H2 as <- <-; exact N1).
  destruct (has_prefix (c_value c) "$receiver.") eqn:EP.
  - apply rbind_ok in H3. destruct H3 as (k & HK & H3). injection H3 as <- <-. intros _. cbn [o_value_attr].
    apply has_prefix_iff in EP. destruct EP as [y EP]. rewrite EP in HK |- *. change ("$receiver." ++ y) with (String.append "$receiver." y) in HK. rewrite after_dot_receiver in HK.
    injection HK as <-. reflexivity.
  - injection H3 as <- <-. congruence.
Qed.

Lemma object_agrees att method value m m' (sender : bool) x : agree_on_condition p att method value m m' ->
  att = (if sender then "$sender." else "$receiver.") ++ x -> get_attribute sender x m = get_attribute sender x m'.
Proof.
  intros HA E. unfold get_attribute. destruct (String.eqb_spec x "namespace") as [->|_].
  - destruct sender; subst att.
    + apply (ac_text _ _ _ _ _ _ HA m_source_namespace). cbn. tauto.
    + apply (ac_text _ _ _ _ _ _ HA m_dest_namespace). cbn. tauto.
  - destruct (String.eqb_spec x "cluster") as [->|_]; [|reflexivity]. destruct sender; subst att.
    + apply (ac_text _ _ _ _ _ _ HA m_source_cluster). cbn. tauto.
    + apply (ac_text _ _ _ _ _ _ HA m_dest_cluster). cbn. tauto.
Qed.

Lemma seen_other c att m m' method value : c_attr c = att -> In att ("encryptionVersion" :: plain_attributes) -> agree_on_condition p att method value m m' -> seen L c m m'.
Proof.
  intros E HI HA. unfold seen. rewrite E.
  assert (N : forall w, In w ["$sender"; "$receiver"; "senderLabel"; "receiverLabel"; "jsonpath"] -> att <> w).
  { intros w HW EW. subst w. cbn in HW, HI. intuition congruence. }
  assert (T : forall field, In (att, field) text_attributes -> field m = field m') by (apply (ac_text _ _ _ _ _ _ HA)).
  split; [apply (ac_size _ _ _ _ _ _ HA)|]. split; [intros ->; apply T; cbn; tauto|]. split; [apply (ac_hours _ _ _ _ _ _ HA)|].
  split; [intros ->; apply T; cbn; tauto|]. split; [apply (ac_version _ _ _ _ _ _ HA)|]. split; [intros ->; apply T; cbn; tauto|].
  repeat (split; [intro EW; exfalso; eapply N; [|exact EW]; cbn; tauto|]). intro EW. exfalso. eapply N; [|exact EW]. cbn. tauto.
Qed.

Lemma condition_seen att method value ret c m m' : prepares L p att method value ret c -> agree_on_condition p att method value m m' -> seen L c m m'.
Proof.
  intros HP HA. pose proof HP as HP0. apply prepares_inv in HP0.
  destruct HP0 as (v & c0 & c4 & R & _ & _ & _ & _ & _ & _ & _ & _ & _ & VA & VA2 & VM & _).
  assert (HK : exists k, method_is method k).
  { unfold validate_method in VM. destruct (contains_string supported_methods method) eqn:EC; [|discriminate]. apply Validate_proofs.supported_kind. exact EC. }
  destruct HK as [k HK]. apply (attribute_iff _ _ _ _ HK) in VA2. destruct VA2 as [AF LV]. clear c0 c4 VA VM.
  assert (PLAIN : In att ("encryptionVersion" :: plain_attributes) -> seen L c m m').
  { intro HI. apply (seen_other _ att _ _ method value); auto.
    assert (NJ : forall w, In w ["jsonpath:"; "senderLabel["; "receiverLabel["; "$sender."; "$receiver."] -> ~ starts w att).
    { intros w HW [r E]. subst att. cbn in HW, HI. repeat (destruct HW as [<-|HW]; [cbn in HI; intuition discriminate|]). destruct HW. }
    destruct (prepared_attribute L _ _ _ _ _ _ _ HP R) as (c0 & c1 & B & H1 & H2 & _); [apply NJ; cbn; tauto|].
    pose proof (b_attr _ _ _ _ _ _ B) as EA.
    apply labels_kept in H1; [|rewrite EA; apply NJ; cbn; tauto..]. destruct H1 as (A1 & _). apply objects_kept in H2; [|rewrite A1, EA; apply NJ; cbn; tauto..]. destruct H2 as (A2 & _). congruence. }
  inversion AF as [a HI Ea|HI Ea|x HO Ea|x HO Ea|key HL HO Ea|key HL HO Ea|path _ _ _ _ Ea].
  - subst a. apply PLAIN. right. exact HI.
  - apply PLAIN. left. exact Ea.
  - (* $sender. *) subst att.
    destruct (object_attribute L p true x method value ret c v HP R) as (EA & _ & _ & _ & _ & _ & EX & _).
    unfold seen. rewrite EA. do 6 (split; [discriminate|]). split; [|repeat (split; [discriminate|]); discriminate]. intros _. split.
    + rewrite EX. apply (object_agrees _ _ _ _ _ true x HA). reflexivity.
    + intro EV. destruct (prepared_attribute L _ _ _ _ _ _ _ HP R) as (c0 & c1 & B & H1 & H2 & _); [intros [r E]; discriminate|].
      pose proof (labels_value _ _ H1) as LVL. apply labels_kept in H1; [|rewrite (b_attr _ _ _ _ _ _ B); intros [r E]; discriminate..]. destruct H1 as (_ & _ & _ & A4 & _).
      apply objects_value in H2; [|rewrite A4; apply B|exact EV]. destruct LVL as [LVL|LVL]; [|rewrite LVL in H2; discriminate].
      rewrite LVL, (b_value _ _ _ _ _ _ B) in H2.
      assert (EF : final_value method v = v) by (apply (final_start method v "$" "receiver."); [exists (o_value_attr (c_obj c)); exact H2|discriminate]).
      rewrite EF in H2. unfold get_attribute.
      assert (ST : starts "$sender." ("$sender." ++ x)) by (exists x; reflexivity).
      destruct (String.eqb_spec (o_value_attr (c_obj c)) "namespace") as [E|_]; [rewrite E in H2; apply (ac_value _ _ _ _ _ _ HA v m_dest_namespace); auto; subst v; cbn; tauto|].
      destruct (String.eqb_spec (o_value_attr (c_obj c)) "cluster") as [E|_]; [rewrite E in H2; apply (ac_value _ _ _ _ _ _ HA v m_dest_cluster); auto; subst v; cbn; tauto|reflexivity].
  - (* $receiver. *) subst att.
    destruct (object_attribute L p false x method value ret c v HP R) as (EA & _ & _ & _ & _ & _ & EX & _).
    unfold seen. rewrite EA. do 7 (split; [discriminate|]). split; [|repeat (split; [discriminate|]); discriminate]. intros _.
    rewrite EX. apply (object_agrees _ _ _ _ _ false x HA). reflexivity.
  - (* senderLabel *) subst att.
    destruct (prepared_attribute L _ _ _ _ _ _ _ HP R) as (c0 & c1 & B & H1 & H2 & _); [apply not_jsonpath_label|].
    apply (sender_label_handled L key) in H1; [|auto|apply B|apply B]. destruct H1 as (A1 & _ & _ & _ & _ & A6 & A7 & A8 & A9).
    apply objects_kept in H2; [|rewrite A1; intros [r E]; discriminate..]. destruct H2 as (B1 & _ & _ & B4 & _).
    unfold seen. rewrite B1, A1, B4, A7. do 8 (split; [discriminate|]). split; [|split; discriminate]. intros _.
    split; [apply (ac_sender_label _ _ _ _ _ _ HA); reflexivity|]. intro EV.
    rewrite (b_value _ _ _ _ _ _ B) in A8, A9.
    destruct (has_prefix (final_value method v) "receiverLabel[") eqn:EP; [|rewrite A8 in EV by reflexivity; discriminate].
    apply starts_iff in EP. assert (EF : final_value method v = v) by (apply (final_start method v "r" "eceiverLabel["); [exact EP|discriminate]). rewrite EF in EP, A9.
    destruct (LV EP) as (key' & EK & HK'). destruct (A9 key' HK' EK) as [_ ->].
    apply (ac_value_label _ _ _ _ _ _ HA); [exists (key ++ "]"); reflexivity|]. rewrite <- EK. exact R.
  - (* receiverLabel *) subst att.
    destruct (prepared_attribute L _ _ _ _ _ _ _ HP R) as (c0 & c1 & B & H1 & H2 & _); [apply not_jsonpath_label|].
    apply (receiver_label_handled L key) in H1; [|auto|apply B|apply B]. destruct H1 as (A1 & _ & _ & _ & _ & A6 & A7).
    apply objects_kept in H2; [|rewrite A1; intros [r E]; discriminate..]. destruct H2 as (B1 & _ & _ & B4 & _).
    unfold seen. rewrite B1, A1, B4, A7. do 9 (split; [discriminate|]). split; [|discriminate]. intros _.
    apply (ac_receiver_label _ _ _ _ _ _ HA). reflexivity.
  - (* jsonpath *) assert (SJ : starts "jsonpath:" att) by (exists path; auto).
    destruct (Panic_proofs.prepared_parts L _ _ _ _ _ _ HP) as (v' & k' & _ & _ & _ & _ & _ & HC).
    apply starts_iff in SJ. rewrite SJ in HC. destruct HC as (EA & _). apply starts_iff in SJ.
    unfold seen. rewrite EA. do 10 (split; [discriminate|]). intros _. apply (ac_path _ _ _ _ _ _ HA). exact SJ.
Qed.

Lemma agree_all ns m m' : fold_right (fun n P => agree_on_tree L p n m m' /\ P) True ns <-> Forall (fun n => agree_on_tree L p n m m') ns.
Proof. induction ns as [|n ns IH]; cbn; [split; auto|]. rewrite IH. split; [intros []; auto|]. intro H. inversion H; auto. Qed.

Lemma rseq_forall2 {A B} (f : A -> res B) l ys : rseq (map f l) = Ok ys -> Forall2 (fun x y => f x = Ok y) l ys.
Proof.
  revert ys. induction l as [|x l IH]; intros ys H; cbn in H; [injection H as <-; constructor|].
  apply rbind_ok in H. destruct H as (y & HY & H). apply rbind_ok in H. destruct H as (zs & HZ & H). injection H as <-. constructor; auto.
Qed.

Lemma tree_seen n : forall n' m m', made L n -> prepare_node L p n = Ok n' -> agree_on_tree L p n m m' -> seen_tree L n' m m'.
Proof.
  induction n as [ns IH|ns IH|n IH|q a n IH| | |c|] using node_ind'; intros n' m m' HM HP HA; cbn [prepare_node] in HP.
  1,2: destruct (rseq (map (prepare_node L p) ns)) as [ns'| |] eqn:ES; try discriminate HP; injection HP as <-; apply rseq_forall2 in ES;
    cbn [seen_tree agree_on_tree] in *; apply seen_all; apply agree_all in HA;
    assert (HMS : Forall (made L) ns) by (inversion HM; auto); clear HM;
    revert IH HA HMS; induction ES as [|x y ns ns' E ES IHS]; intros IH HA HMS; [constructor|]; inversion IH; inversion HA; inversion HMS; subst; constructor; eauto.
  - destruct (prepare_node L p n) as [n1| |] eqn:EN; try discriminate HP. injection HP as <-. cbn [seen_tree agree_on_tree] in *.
    inversion HM as [| |? [->|HN]| |]; subst; [discriminate EN|]. eauto.
  - apply rbind_ok in HP. destruct HP as (n1 & EN & HP). apply rbind_ok in HP. destruct HP as (a' & EA & HP). injection HP as <-. cbn [seen_tree agree_on_tree] in *.
    destruct HA as [HD HA]. split; [exact HD|]. inversion HM as [| | |? ? ? ? [->|HN]|]; subst; [discriminate EN|]. eauto.
  - injection HP as <-. exact I.
  - injection HP as <-. exact I.
  - destruct (prepare_condition L p c) as [c'| |] eqn:EC; try discriminate HP. injection HP as <-. cbn [seen_tree agree_on_tree] in *.
    apply (condition_seen _ _ _ _ _ _ _ (made_prepares L p c c' HM EC) HA).
  - discriminate HP.
Qed.

(** ** Rules *)
Lemma expand_types name type l : expand L name type = Ok l -> Forall (fun x => x_type x = type) l.
Proof.
  unfold expand. generalize (split_char "," name). intro items. revert l. induction items as [|i items IH]; intros l H; cbn in H; [injection H as <-; constructor|].
  apply rbind_ok in H. destruct H as (x & HX & H). apply rbind_ok in H. destruct H as (xs & HXS & H). injection H as <-. constructor; auto.
  unfold expand_one in HX. destruct (if String.eqb type "subnet" then is_ip_cidr L _ else _) as [[[a b] c] d]. destruct (_ && _ && _); [discriminate|].
  destruct (re_compile L _); [|discriminate]. injection HX as <-. reflexivity.
Qed.

Lemma prepared_fields r c : ru_converted r = false -> prepare_rule L p r = Ok c ->
  Forall (fun x => x_type x = ru_sender_type r) (ru_sender_list c) /\ Forall (fun x => x_type x = ru_receiver_type r) (ru_receiver_list c) /\
  ru_protocol c = ru_protocol r /\ ru_resource_type c = ru_resource_type r.
Proof.
  intros HV H. unfold prepare_rule in H. apply rbind_ok in H. destruct H as (r1 & H1 & H). apply rbind_ok in H. destruct H as (r2 & H2 & H3).
  assert (E1 : ru_sender_type r1 = ru_sender_type r /\ ru_receiver_type r1 = ru_receiver_type r /\ ru_protocol r1 = ru_protocol r /\ ru_resource_type r1 = ru_resource_type r /\ ru_converted r1 = false).
  { destruct (ru_tree r); [apply rbind_ok in H1; destruct H1 as (n' & _ & H1)|]; injection H1 as <-; auto. }
  destruct E1 as (<- & <- & <- & <- & E1). unfold replace_in_rule in H2. apply rbind_ok in H2. destruct H2 as (s & S1 & H2). apply rbind_ok in H2. destruct H2 as (w & S2 & H2).
  injection H2 as <-. unfold convert_fields in H3. cbn [ru_converted] in H3. rewrite E1 in H3.
  apply rbind_ok in H3. destruct H3 as (sl & HS & H). apply rbind_ok in H. destruct H as (rl & HR & H).
  destruct (re_compile L _); [|discriminate]. destruct (re_compile L _); [|discriminate]. injection H as <-. cbn.
  apply expand_types in HS, HR. auto.
Qed.

Lemma rule_seen r c m m' : ru_converted r = false -> (forall n, ru_tree r = Some n -> made L n) -> prepare_rule L p r = Ok c -> agree_on_rule L p r m m' -> seen_rule L c m m'.
Proof.
  intros HV HM HP HA. destruct (prepared_fields r c HV HP) as (FS & FR & EP & ET).
  destruct HA as [A1 A2 A3 A4 A5 A6 A7 A8 A9 A10]. constructor.
  - unfold test_sender. induction FS as [|x xs EX FS IH]; cbn [test_sender_list]; [reflexivity|]. rewrite EX, IH.
    destruct (String.eqb_spec (ru_sender_type r) "subnet") as [E|_]; [destruct (A2 E) as [-> ->]; reflexivity|].
    destruct (is_any (ru_sender_type r) ["*"; "workload"]) eqn:EI; [|reflexivity]. rewrite A1; [reflexivity|]. apply is_any_iff. exact EI.
  - unfold test_receiver. induction FR as [|x xs EX FR IH]; cbn [test_receiver_list]; [reflexivity|]. rewrite EX, IH.
    destruct (String.eqb_spec (ru_receiver_type r) "subnet") as [E|_]; [destruct (A5 E) as [-> ->]; reflexivity|].
    destruct (String.eqb_spec (ru_receiver_type r) "hostname") as [E|_]; [rewrite (A4 E); reflexivity|].
    destruct (is_any (ru_receiver_type r) ["*"; "workload"]) eqn:EI; [|reflexivity]. rewrite A3; [reflexivity|]. apply is_any_iff. exact EI.
  - exact A6.
  - unfold test_resource. rewrite EP, ET. destruct (String.eqb_spec (ru_protocol r) "tcp") as [E|N1]; [rewrite (A7 E); reflexivity|].
    destruct (String.eqb_spec (ru_protocol r) "*") as [E|N2]; [reflexivity|]. destruct (A8 N1 N2) as [-> ->].
    destruct (String.eqb_spec (ru_resource_type r) "*") as [E|N3]; [reflexivity|]. rewrite (A9 N1 N2 N3). reflexivity.
  - intros n' EN. pose proof (prepared_rule_tree L p r c HP) as PT. destruct (ru_tree r) as [n|]; [|congruence].
    destruct PT as (n1 & E1 & HN). rewrite E1 in EN. injection EN as <-. eapply tree_seen; eauto.
Qed.

(** the relation moves with the current element *)
Lemma condition_moves att method value m m' (f : message -> message) : agree_on_condition p att method value m m' -> same_documents (f m) (f m') ->
  (forall x, exists a b, f x = set_raw_rel (set_json_rel x a) b) ->
  agree_on_condition p att method value (f m) (f m').
Proof.
  intros HA HD HF. destruct (HF m) as (a & b & E), (HF m') as (a' & b' & E'). rewrite E, E' in *. clear E E' HF.
  destruct HA as [H1 H2 H3 H4 H5 H6 H7 H8 H9]. constructor; auto.
  - intros field HI. specialize (H4 field HI). cbn in HI. repeat (destruct HI as [HI|HI]; [injection HI as _ <-; exact H4|]). destruct HI.
  - intros v field HS HR HI. specialize (H7 v field HS HR HI). cbn in HI. repeat (destruct HI as [HI|HI]; [injection HI as _ <-; exact H7|]). destruct HI.
Qed.
Lemma tree_moves n m m' (f : message -> message) : same_documents (f m) (f m') -> (forall x, exists a b, f x = set_raw_rel (set_json_rel x a) b) ->
  agree_on_tree L p n m m' -> agree_on_tree L p n (f m) (f m').
Proof.
  intros HD HF. induction n as [ns IH|ns IH|n IH|q a n IH| | |c|] using node_ind'; cbn [agree_on_tree]; auto.
  1,2: rewrite !agree_all, !Forall_forall; rewrite Forall_forall in IH; auto.
  - intros [_ H]. auto.
  - intro H. apply condition_moves; auto.
Qed.
Lemma rule_moves r m m' (f : message -> message) : same_documents (f m) (f m') -> (forall x, exists a b, f x = set_raw_rel (set_json_rel x a) b) ->
  agree_on_rule L p r m m' -> agree_on_rule L p r (f m) (f m').
Proof.
  intros HD HF HA. assert (HT : forall n, ru_tree r = Some n -> agree_on_tree L p n (f m) (f m')) by (intros n EN; apply tree_moves; auto; apply (ar_tree _ _ _ _ _ HA n EN)).
  destruct (HF m) as (a & b & E), (HF m') as (a' & b' & E'). rewrite E, E' in *. clear E E' HF HD.
  destruct HA as [A1 A2 A3 A4 A5 A6 A7 A8 A9 A10]. constructor; auto.
Qed.

Definition agree_on_rules (rules : list (rule L)) (m m' : message) : Prop := Forall (fun r => agree_on_rule L p r m m') rules.
Lemma rules_move rules m m' (f : message -> message) : same_documents (f m) (f m') -> (forall x, exists a b, f x = set_raw_rel (set_json_rel x a) b) ->
  agree_on_rules rules m m' -> agree_on_rules rules (f m) (f m').
Proof. intros HD HF. apply Forall_impl. intros r H. apply rule_moves; auto. Qed.
Lemma rules_raw rules m m' v : agree_on_rules rules m m' -> same_documents m m' -> agree_on_rules rules (set_raw_rel m v) (set_raw_rel m' v).
Proof.
  intros HA HD. apply (rules_move rules m m' (fun x => set_raw_rel x v)); auto.
  - destruct HD as (E1 & E2 & E3 & E4). repeat split; auto.
  - intro x. exists (m_json_rel x), v. destruct x. reflexivity.
Qed.
Lemma rules_json rules m m' v : agree_on_rules rules m m' -> same_documents m m' -> agree_on_rules rules (set_json_rel m v) (set_json_rel m' v).
Proof.
  intros HA HD. apply (rules_move rules m m' (fun x => set_json_rel x v)); auto.
  - destruct HD as (E1 & E2 & E3 & E4). repeat split; auto.
  - intro x. exists v, (m_raw_rel x). destruct x. reflexivity.
Qed.

(** ** Checks *)
Definition fresh (r : rule L) : Prop := underived L r /\ forall n, ru_tree r = Some n -> loaded_tree L n.
(** [s] is [r] as loaded, to be prepared with [p] on first use, or as prepared with [p] *)
Definition stands (g : predef) (r : rule L) (s : rstate L) : Prop :=
  (s = load_rule L r /\ g = p) \/ exists ord t t', fair ord /\ set_predefined L ord p (load_rule L r) t = (Ok tt, s, t').

Lemma fresh_copied ord r t : fair ord -> fresh r -> exists t', copy_rule L ord r t = (Ok r, t').
Proof.
  intros HF [HU HT]. apply rule_copied; auto. destruct (ru_tree r) as [n|] eqn:ET; [|exact I]. apply loaded_faithful. auto.
Qed.

Section Checks.
Variable ord : order.
Hypothesis HF : fair ord.
Variable g : predef.
Variable P : message -> message -> Prop.

Lemma ensured r s : fresh r -> stands g r s -> twins P (ensure_prepared L ord g s) (ensure_prepared L ord g s) /\
  forall e s' e', ensure_prepared L ord g s e = (Some s', e') -> match rs_prepared s' with Some c => prepare_rule L p r = Ok c | None => True end.
Proof.
  intros HR HS. split.
  - intros m m' t HA. unfold ensure_prepared. destruct (rs_ready s); [cbn; auto|]. cbn [e_tick]. destruct (set_predefined L ord g s t) as [[[u| |] s'] t']; cbn; auto.
  - intros e s' e' E. unfold ensure_prepared in E. destruct HS as [[-> ->]|(ord' & t & t' & HF' & HS)].
    + cbn [load_rule rs_ready] in E. unfold set_predefined in E. cbn [load_rule rs_rule] in E. destruct (fresh_copied ord r (e_tick e) HF HR) as [t' EC]. rewrite EC in E.
      destruct (prepare_rule L p r) as [c| |] eqn:EP; [|injection E as <- _; exact I|discriminate]. injection E as <- _. cbn. reflexivity.
    + unfold set_predefined in HS. cbn [load_rule rs_rule] in HS. destruct (fresh_copied ord' r t HF' HR) as [t1 EC]. rewrite EC in HS.
      destruct (prepare_rule L p r) as [c| |] eqn:EP; [|discriminate|discriminate]. injection HS as <- _. cbn [rs_ready] in E. injection E as <- _. cbn. reflexivity.
Qed.

Lemma twins_bind_when {A B} (Q : A -> Prop) (x y : M A) (f h : A -> M B) : twins P x y -> (forall e a e', x e = (Some a, e') -> Q a) ->
  (forall a, Q a -> twins P (f a) (h a)) -> twins P (mbind x f) (mbind y h).
Proof.
  intros HX HQ HF' m m' t HA. destruct (HX m m' t HA) as (E1 & E2 & E3). unfold mbind. specialize (HQ (mkEst m t)).
  destruct (x (mkEst m t)) as [[a|] [m1 t1]], (y (mkEst m' t)) as [[b|] [m2 t2]]; cbn in *; try discriminate; subst; [|auto].
  injection E1 as ->. apply HF'; eauto.
Qed.
End Checks.

Lemma one_rule ord g rules r s : fair ord -> In r rules -> fresh r -> stands g r s -> twins (agree_on_rules rules) (check_one_rule L ord g s) (check_one_rule L ord g s).
Proof.
  intros HF HI HR HS. destruct (ensured ord HF g (agree_on_rules rules) r s HR HS) as [HE HQ].
  unfold check_one_rule. eapply twins_bind_when; [exact HE|exact HQ|]. intros s' HC. cbn beta in HC. destruct (rs_prepared s') as [c|]; [|apply twins_panic].
  apply twins_bind; [|intro; apply twins_ret]. apply twins_rule; [apply rules_raw|apply rules_json|]. intros m m' HA. destruct HR as [HU HT].
  apply (rule_seen r c m m'); auto; [apply HU|intros n EN; apply loaded_made; auto|]. unfold agree_on_rules in HA. rewrite Forall_forall in HA. auto.
Qed.

Lemma twins_run ord g rules rs ss : fair ord -> (forall r, In r rs -> In r rules) -> Forall fresh rs -> Forall2 (stands g) rs ss ->
  twins (agree_on_rules rules) (run_rules L ord g ss) (run_rules L ord g ss).
Proof.
  intros HF HI HR HS. revert HI HR. induction HS as [|r s rs ss H1 HS IH]; intros HI HR; cbn [run_rules]; [apply twins_ret|]. inversion HR; subst.
  apply twins_bind; [apply (one_rule ord g rules r s); auto; apply HI; left; reflexivity|]. intros [x s']. apply twins_bind; [apply IH; auto; intros; apply HI; right; auto|]. intro. apply twins_ret.
Qed.

Theorem same_check ord g rules ss m m' t : fair ord -> Forall fresh rules -> Forall2 (stands g) rules ss -> agree_on_rules rules m m' ->
  fst (check L ord g ss (mkEst m t)) = fst (check L ord g ss (mkEst m' t)) /\ e_tick (snd (check L ord g ss (mkEst m t))) = e_tick (snd (check L ord g ss (mkEst m' t))).
Proof.
  intros HF HR HS HA. assert (HT : twins (agree_on_rules rules) (check L ord g ss) (check L ord g ss)).
  { unfold check. apply twins_bind; [apply (twins_run ord g rules rules); auto|]. intro. apply twins_ret. }
  destruct (HT m m' t HA) as (E1 & E2 & _). auto.
Qed.

(** TestConditions: only the conditions *)
Theorem same_test ord g r s m m' t : fair ord -> fresh r -> stands g r s -> (forall n, ru_tree r = Some n -> agree_on_tree L p n m m') ->
  fst (test_conditions L ord g s (mkEst m t)) = fst (test_conditions L ord g s (mkEst m' t)).
Proof.
  intros HF HR HS HA. set (P := fun m m' => forall n, ru_tree r = Some n -> agree_on_tree L p n m m').
  assert (HT : twins P (test_conditions L ord g s) (test_conditions L ord g s)); [|destruct (HT m m' t HA) as (E & _); exact E].
  destruct (ensured ord HF g P r s HR HS) as [HE HQ].
  unfold test_conditions. eapply twins_bind_when; [exact HE|exact HQ|]. intros s' HC. cbn beta in HC. destruct (rs_prepared s') as [c|]; [|apply twins_panic].
  destruct (ru_tree c) as [n'|] eqn:EN; [|apply twins_ret]. apply twins_bind; [|intro; apply twins_ret].
  pose proof (prepared_rule_tree L p r c HC) as PT. destruct HR as [_ HL]. destruct (ru_tree r) as [n|] eqn:ER; [|congruence]. destruct PT as (n1 & E1 & HN). rewrite E1 in EN. injection EN as <-.
  apply twins_tree.
  - intros k k' v HK HD n0 E0. apply (tree_moves n0 k k' (fun x => set_raw_rel x v)); [| |apply HK; exact E0].
    + destruct HD as (D1 & D2 & D3 & D4). repeat split; auto.
    + intro x. exists (m_json_rel x), v. destruct x. reflexivity.
  - intros k k' v HK HD n0 E0. apply (tree_moves n0 k k' (fun x => set_json_rel x v)); [| |apply HK; exact E0].
    + destruct HD as (D1 & D2 & D3 & D4). repeat split; auto.
    + intro x. exists v, (m_raw_rel x). destruct x. reflexivity.
  - intros k k' HK. apply (tree_seen n n1 k k'); auto. apply loaded_made. auto.
Qed.

(** coverage reports *)
Theorem same_coverage ord g rules ss ms ms' t : fair ord -> Forall fresh rules -> Forall2 (stands g) rules ss ->
  Forall2 (fun m m' => m_id m = m_id m' /\ agree_on_rules rules m m') ms ms' -> coverage L ord g ss ms t = coverage L ord g ss ms' t.
Proof.
  intros HF HR HS HM. unfold coverage. generalize (@nil (string * msg_coverage)). intro mc.
  generalize (fold_left (fun rc s => upsert (ru_id (rs_rule s)) [] rc) ss ([] : list (string * list string))). intro rc. revert t mc rc.
  induction HM as [|m m' ms ms' [EI HA] HM IH]; intros t mc rc; cbn [coverage_loop]; [reflexivity|].
  destruct (same_check ord g rules ss m m' t HF HR HS HA) as [E1 E2]. rewrite EI.
  destruct (check L ord g ss (mkEst m t)) as [[o|] e], (check L ord g ss (mkEst m' t)) as [[o'|] e']; cbn in E1, E2; try discriminate; [|reflexivity].
  injection E1 as <-. rewrite E2. apply IH.
Qed.
End WithLib.

(** ** Fields no rule reads *)
Lemma annotations_seen L c m m' : agree_but_for_annotations m m' -> seen L c m m'.
Proof.
  intros [HD H1 H2 H3 H4 H5 [H6 H7]]. injection H3 as N1 N2 N3 N4. injection H5 as D1 D2 D3 D4 D5 D6. unfold seen, get_attribute.
  rewrite H6, H7, N1, N2, N3, N4, D1, D2, D3, D4, D5, D6. auto 30.
Qed.
Lemma annotations_tree L n m m' : agree_but_for_annotations m m' -> seen_tree L n m m'.
Proof.
  intro H. induction n as [ns IH|ns IH|n IH|q a n IH| | |c|] using node_ind'; cbn [seen_tree]; auto; try (apply seen_all; exact IH).
  - split; [apply H|exact IH].
  - apply annotations_seen. exact H.
Qed.
Lemma annotations_rule L r m m' : agree_but_for_annotations m m' -> seen_rule L r m m'.
Proof.
  intro H. pose proof H as [HD H1 H2 H3 H4 H5 [H6 H7]]. injection H1 as A1 A2 A3 A4. injection H2 as S1 S2 S3. injection H4 as R1 R2 R3 R4 R5. constructor.
  - unfold test_sender. induction (ru_sender_list r) as [|x xs IH]; cbn [test_sender_list]; [reflexivity|]. rewrite IH, A1, A2, S1. reflexivity.
  - unfold test_receiver. induction (ru_receiver_list r) as [|x xs IH]; cbn [test_receiver_list]; [reflexivity|]. rewrite IH, A3, A4, S2, S3. reflexivity.
  - exact R1.
  - unfold test_resource. rewrite R2, R3, R4, R5. reflexivity.
  - intros n _. apply annotations_tree. exact H.
Qed.
Lemma annotations_raw m m' v : agree_but_for_annotations m m' -> same_documents m m' -> agree_but_for_annotations (set_raw_rel m v) (set_raw_rel m' v).
Proof. intros [HD H1 H2 H3 H4 H5 H6] (E1 & E2 & E3 & E4). constructor; auto. repeat split; auto. Qed.
Lemma annotations_json m m' v : agree_but_for_annotations m m' -> same_documents m m' -> agree_but_for_annotations (set_json_rel m v) (set_json_rel m' v).
Proof. intros [HD H1 H2 H3 H4 H5 H6] (E1 & E2 & E3 & E4). constructor; auto. repeat split; auto. Qed.

Theorem annotations_check L ord g ss m m' t : agree_but_for_annotations m m' -> fst (check L ord g ss (mkEst m t)) = fst (check L ord g ss (mkEst m' t)).
Proof.
  intro HA. assert (HT : twins agree_but_for_annotations (check L ord g ss) (check L ord g ss)); [|destruct (HT m m' t HA) as (E & _); exact E].
  unfold check. apply twins_bind; [|intro; apply twins_ret]. induction ss as [|s ss IH]; cbn [run_rules]; [apply twins_ret|].
  apply twins_bind; [|intros [x s']; apply twins_bind; [exact IH|intro; apply twins_ret]].
  unfold check_one_rule. apply twins_bind.
  - intros k k' u HK. unfold ensure_prepared. destruct (rs_ready s); [cbn; auto|]. cbn [e_tick]. destruct (set_predefined L ord g s u) as [[[w| |] s'] t']; cbn; auto.
  - intro s'. destruct (rs_prepared s') as [c|]; [|apply twins_panic]. apply twins_bind; [|intro; apply twins_ret].
    apply twins_rule; [apply annotations_raw|apply annotations_json|]. intros k k' HK. apply annotations_rule. exact HK.
Qed.
