(** Rules read from JSON documents are those the documents say. *)
From Coq Require Import List String Ascii Bool Arith ZArith Lia.
From Verif Require Import Base GoStr GoFloat Types Json StrUtils Validate Prepare Parse Marshal Lifecycle Lifecycle_proofs
  Spec_Tree Spec_Load Load_proofs Decode_proofs Spec_Copy Spec_Grammar Grammar_proofs Grammar_tree Grammar_loads Spec_Crash Crash_proofs JsonDoc Spec_JsonDoc JsonDoc_proofs JsonDoc_structs.
From Verif Require Spec_Json Json_proofs.
Import ListNotations.
Open Scope string_scope.
Local Arguments String.prefix : simpl never.

Ltac other_fields := intros k' f' NE HF';
  repeat (destruct HF' as [E'|HF']; [injection E' as <- <-; first [congruence | apply part_keeps; reflexivity]|]); destruct HF'.
Ltac is_named := unfold named; cbn; repeat (constructor; [cbn; intuition discriminate|]); constructor.
Ltac find_field := first [left; reflexivity | right; find_field].
Ltac field_of H HN HD g k :=
  let F := match type of H with jd_members ?F _ _ _ = _ => F end in
  let HO := fresh "HO" in
  let K := fresh "K" in
  assert (K : forall k' f', k' <> k -> In (k', f') F -> keeps g f') by other_fields;
  pose proof H as HO; eapply (struct_part F HN g _ _ k) in HO; [|find_field|intros ? ?b; repeat (destruct b as [b ?]); reflexivity|exact K|exact HD]; clear K.

Section WithLib.
Variable L : Lib.
Variable ord : order.
Variable re_text : option (string -> option (RE L)).
Variable exp_in : json -> P (expanded L * bool).
Hypothesis fair_ord : fair ord.

(** ** Names and types *)
Lemma string_accepts j s : says_text j s -> accepts (jd_lift jd_string) j.
Proof. intros HT a t. destruct HT; eexists _, t; reflexivity. Qed.
Lemma text_part {A} (fields : list (string * (json -> A -> P (A * bool)))) g set k m a t a' t' : named fields -> In (k, jd_part g set (jd_lift jd_string)) fields ->
  (forall a b, g (set a b) = b) -> (forall k' f', k' <> k -> In (k', f') fields -> keeps g f') -> g a = "" -> distinct m ->
  jd_members fields m a t = (Ok (a', false), t') -> opt m k "" says_text (g a').
Proof.
  intros HN HI HG HK H0 HD H. pose proof (struct_part fields HN g set _ k m HI HG HK a t a' t' HD H) as HO. rewrite H0 in HO.
  eapply (opt_map (fun x => x)) in HO; [exact HO|]. cbn. intros j b _ (t1 & t2 & E). apply lift_ok in E. destruct E as [E _]. apply text_iff in E. exact E.
Qed.

Section Sides.
Variables name_key type_key : string.
Hypothesis keys_differ : fold_text name_key <> fold_text type_key /\ fold_text name_key <> "-" /\ fold_text type_key <> "-".
Lemma side_named : named (jside_fields L exp_in name_key type_key).
Proof.
  destruct keys_differ as (H1 & H2 & H3). unfold named. cbn [map fst jside_fields]. change (fold_text "-") with "-". constructor; [intros [?|[?|[]]]; congruence|]. constructor; [intros [?|[]]; congruence|]. constructor; [intros []|constructor].
Qed.
Ltac side_others := intros k' f' NE HF'; destruct keys_differ as (D1 & D2 & D3); destruct HF' as [E'|[E'|[E'|[]]]]; injection E' as <- <-; first [congruence | apply part_keeps; reflexivity].
Lemma side_sound j t x t' : (forall raw m, j = JObj raw m -> distinct m) -> jd_struct (jside_fields L exp_in name_key type_key) j ("", "", []) t = (Ok (x, false), t') ->
  says_names name_key type_key j (fst x) /\ ((forall raw m, j = JObj raw m -> no_key m "-") -> snd x = []).
Proof.
  intros HC H. pose proof side_named as HN. unfold jd_struct in H. destruct j as [|b|n|raw s|raw l|raw m]; try (apply pret_ok in H; destruct H as [H _]; try discriminate H).
  - injection H as <-. cbn. split; [left; auto|reflexivity].
  - specialize (HC raw m eq_refl). split.
    + right. exists raw, m. split; [reflexivity|]. split.
      * eapply (text_part _ (fun s : jside L => fst (fst s))); eauto; [left; reflexivity|reflexivity|side_others|reflexivity].
      * eapply (text_part _ (fun s : jside L => snd (fst s))); eauto; [right; left; reflexivity|reflexivity|side_others|reflexivity].
    + intro HP. specialize (HP raw m eq_refl).
      pose proof (struct_part _ HN (fun s : jside L => snd s) _ _ "-" m ltac:(right; right; left; reflexivity) (fun _ _ => eq_refl) ltac:(side_others) _ _ _ _ HC H) as HO.
      exact (opt_none _ _ _ _ _ HP HO).
Qed.
Lemma side_accepts j x : (forall raw m, j = JObj raw m -> distinct m) -> says_names name_key type_key j x -> (forall raw m, j = JObj raw m -> no_key m "-") ->
  accepts (jd_struct (jside_fields L exp_in name_key type_key)) j.
Proof.
  intros HC [[-> _]|(raw & m & -> & H1 & H2)] HP a t; [exists a, t; reflexivity|]. specialize (HC raw m eq_refl). specialize (HP raw m eq_refl). cbn [jd_struct].
  apply struct_ok; [exact side_named|]. intros n j f HK HF. destruct HF as [E|[E|[E|[]]]]; injection E as <- <-; apply part_accepts.
  - eapply string_accepts. exact (opt_at _ _ _ _ _ _ HC H1 HK).
  - eapply string_accepts. exact (opt_at _ _ _ _ _ _ HC H2 HK).
  - destruct (HP j HK).
Qed.
End Sides.
Lemma resource_named : named (jresource_fields L re_text).
Proof. is_named. Qed.
Lemma resource_sound j t x t' : (forall raw m, j = JObj raw m -> distinct m) -> jd_struct (jresource_fields L re_text) j ("", "", None) t = (Ok (x, false), t') ->
  says_names "resourceName" "resourceType" j (snd (fst x), fst (fst x)) /\ ((forall raw m, j = JObj raw m -> no_key m "-") -> snd x = None).
Proof.
  intros HC H. pose proof resource_named as HN. unfold jd_struct in H. destruct j as [|b|n|raw s|raw l|raw m]; try (apply pret_ok in H; destruct H as [H _]; try discriminate H).
  - injection H as <-. cbn. split; [left; auto|reflexivity].
  - specialize (HC raw m eq_refl). split.
    + right. exists raw, m. split; [reflexivity|]. split; cbn [fst snd].
      * eapply (text_part _ (fun s : jresource L => snd (fst s))); eauto; [right; left; reflexivity|reflexivity|other_fields|reflexivity].
      * eapply (text_part _ (fun s : jresource L => fst (fst s))); eauto; [left; reflexivity|reflexivity|other_fields|reflexivity].
    + intro HP. specialize (HP raw m eq_refl). field_of H HN HC (fun s : jresource L => snd s) "-". exact (opt_none _ _ _ _ _ HP HO).
Qed.
Lemma resource_accepts j x : (forall raw m, j = JObj raw m -> distinct m) -> says_names "resourceName" "resourceType" j x -> (forall raw m, j = JObj raw m -> no_key m "-") ->
  accepts (jd_struct (jresource_fields L re_text)) j.
Proof.
  intros HC [[-> _]|(raw & m & -> & H1 & H2)] HP a t; [exists a, t; reflexivity|]. specialize (HC raw m eq_refl). specialize (HP raw m eq_refl). cbn [jd_struct].
  apply struct_ok; [exact resource_named|]. intros n j f HK HF. destruct HF as [E|[E|[E|[]]]]; injection E as <- <-; apply part_accepts.
  - eapply string_accepts. exact (opt_at _ _ _ _ _ _ HC H2 HK).
  - eapply string_accepts. exact (opt_at _ _ _ _ _ _ HC H1 HK).
  - destruct (HP j HK).
Qed.

(** ** Conditions *)
Lemma braces_iff s : (String.eqb s "{}" || String.eqb s "[]") = true <-> In s ["{}"; "[]"].
Proof. rewrite orb_true_iff, !String.eqb_eq. cbn. intuition congruence. Qed.
Lemma conditions_sound j old t x t' : jd_conditions L ord j old t = (Ok (x, false), t') -> says_tree L j x.
Proof.
  unfold jd_conditions. intro H. apply pbind_ok in H. destruct H as (y & t1 & H1 & H2). apply pret_ok in H2. destruct H2 as [H2 _]. injection H2 as ->.
  unfold unmarshal_json_tree in H1. destruct (String.eqb (raw_of j) "{}" || String.eqb (raw_of j) "[]") eqn:EB.
  - apply braces_iff in EB. apply pret_ok in H1. destruct H1 as [H1 _]. injection H1 as <-. constructor. exact EB.
  - destruct (json_parse L (raw_of j)) as [v|] eqn:EP; [|apply pret_ok in H1; destruct H1; discriminate].
    apply pbind_ok in H1. destruct H1 as (n & t2 & H1 & H2). apply pret_ok in H2. destruct H2 as [H2 _]. injection H2 as <-.
    apply sy_some with (v := v).
    + rewrite <- braces_iff, EB. discriminate.
    + apply Json_proofs.parse_iff. exact EP.
    + eapply grammar_sound; eauto. eapply parsed_go_value. eauto.
Qed.
Lemma conditions_accepts j x : says_tree L j x -> accepts (jd_conditions L ord) j.
Proof.
  intros HT a t. unfold jd_conditions, unmarshal_json_tree. destruct HT as [j HI|j v n HI HD HR].
  - apply braces_iff in HI. rewrite HI. exists None, t. reflexivity.
  - destruct (String.eqb (raw_of j) "{}" || String.eqb (raw_of j) "[]") eqn:EB; [apply braces_iff in EB; contradiction|].
    apply Json_proofs.parse_iff in HD. rewrite HD. destruct (grammar_loads L ord v n t fair_ord (parsed_go_value _ _ _ HD) HR) as (n' & t' & E).
    exists (Some n'), t'. unfold pbind. rewrite E. reflexivity.
Qed.

(** ** Rules *)
Notation fields := (jrule_fields L ord re_text exp_in).
Lemma rule_named : named fields.
Proof. is_named. Qed.
Lemma map_accepts j es : says_map j es -> accepts (jd_lift jd_map) j.
Proof.
  intros HM a t. destruct HM as [|raw m es HF]; [exists [], t; reflexivity|]. destruct (entries_total m es HF a) as [r E]. exists r, t. unfold jd_lift, pret. cbn [jd_map]. rewrite E. reflexivity.
Qed.
Lemma rule_sound m t r t' : distinct_rule m -> jd_members fields m (empty_rule L) t = (Ok (r, false), t') ->
  says_rule L m r /\ (plain_one m -> underived L r).
Proof.
  intros (HD & HC & HM) H. pose proof rule_named as HN.
  assert (HX : forall k j, In k ["sender"; "receiver"; "resource"] -> at_key m k j -> forall raw s, j = JObj raw s -> distinct s) by (intros k j HI HK raw s ->; eauto).
  assert (HS : opt m "sender" ("", "", []) (fun j b => says_names "senderName" "senderType" j (fst b) /\ ((forall raw s, j = JObj raw s -> no_key s "-") -> snd b = [])) (ru_sender_name r, ru_sender_type r, ru_sender_list r)).
  { field_of H HN HD (fun r : rule L => (ru_sender_name r, ru_sender_type r, ru_sender_list r)) "sender". eapply (opt_map (fun x => x)) in HO; [exact HO|].
    cbn. intros y b HY (t1 & t2 & E). apply side_sound in E; [exact E|repeat split; discriminate|eapply HX; [|exact HY]; cbn; tauto]. }
  assert (HR : opt m "receiver" ("", "", []) (fun j b => says_names "receiverName" "receiverType" j (fst b) /\ ((forall raw s, j = JObj raw s -> no_key s "-") -> snd b = [])) (ru_receiver_name r, ru_receiver_type r, ru_receiver_list r)).
  { field_of H HN HD (fun r : rule L => (ru_receiver_name r, ru_receiver_type r, ru_receiver_list r)) "receiver". eapply (opt_map (fun x => x)) in HO; [exact HO|].
    cbn. intros y b HY (t1 & t2 & E). apply side_sound in E; [exact E|repeat split; discriminate|eapply HX; [|exact HY]; cbn; tauto]. }
  assert (HQ : opt m "resource" ("", "", None) (fun j b => says_names "resourceName" "resourceType" j (snd (fst b), fst (fst b)) /\ ((forall raw s, j = JObj raw s -> no_key s "-") -> snd b = None)) (ru_resource_type r, ru_resource_name r, ru_resource_regex r)).
  { field_of H HN HD (fun r : rule L => (ru_resource_type r, ru_resource_name r, ru_resource_regex r)) "resource". eapply (opt_map (fun x => x)) in HO; [exact HO|].
    cbn. intros y b HY (t1 & t2 & E). apply resource_sound in E; [exact E|eapply HX; [|exact HY]; cbn; tauto]. }
  split.
  - constructor.
    + eapply (text_part _ (@ru_id L)); eauto; [cbn; tauto|reflexivity|other_fields|reflexivity].
    + apply (opt_map fst) with (R' := says_names "senderName" "senderType") in HS; [exact HS|]. intros y x _ [HZ _]. exact HZ.
    + apply (opt_map fst) with (R' := says_names "receiverName" "receiverType") in HR; [exact HR|]. intros y x _ [HZ _]. exact HZ.
    + eapply (text_part _ (@ru_protocol L)); eauto; [cbn; tauto|reflexivity|other_fields|reflexivity].
    + apply (opt_map (fun b => (snd (fst b), fst (fst b)))) with (R' := says_names "resourceName" "resourceType") in HQ; [exact HQ|]. intros y x _ [HZ _]. exact HZ.
    + eapply (text_part _ (@ru_operation L)); eauto; [cbn; tauto|reflexivity|other_fields|reflexivity].
    + field_of H HN HD (@ru_tree L) "conditions". eapply (opt_map (fun x => x)) in HO; [exact HO|]. cbn. intros y b HY (t1 & t2 & E). eapply conditions_sound; exact E.
    + eapply (text_part _ (@ru_decision L)); eauto; [cbn; tauto|reflexivity|other_fields|reflexivity].
    + field_of H HN HD (@ru_metadata L) "metadata". eapply (opt_map (fun x => x)) in HO; [exact HO|]. cbn. intros y b HY (t1 & t2 & E). apply lift_ok in E. destruct E as [E _].
      apply map_exact in E; [exact E|]. intros raw s ->. eauto.
    + eapply (text_part _ (@ru_hash L)); eauto; [cbn; tauto|reflexivity|other_fields|reflexivity].
  - intros (P1 & P2 & P3). repeat split.
    + destruct HS as [[_ HS]|(y & HY & _ & HS)]; [congruence|]. apply HS. intros raw s ->. apply (P3 "sender" raw); auto. cbn. tauto.
    + destruct HR as [[_ HR]|(y & HY & _ & HR)]; [congruence|]. apply HR. intros raw s ->. apply (P3 "receiver" raw); auto. cbn. tauto.
    + destruct HQ as [[_ HQ]|(y & HY & _ & HQ)]; [congruence|]. apply HQ. intros raw s ->. apply (P3 "resource" raw); auto. cbn. tauto.
    + field_of H HN HD (@ru_operation_regex L) "operationRegex". exact (opt_none _ _ _ _ _ P2 HO).
    + field_of H HN HD (@ru_converted L) "-". exact (opt_none _ _ _ _ _ P1 HO).
Qed.
Lemma rule_accepts m r : distinct_rule m -> says_rule L m r -> plain_one m -> forall a t, exists a' t', jd_members fields m a t = (Ok (a', false), t').
Proof.
  intros (HD & HC & HM) HR (P1 & P2 & P3). apply struct_ok; [exact rule_named|].
  intros k y f HK HF. destruct HR as [R1 R2 R3 R4 R5 R6 R7 R8 R9 R10].
  assert (HX : forall raw s, In k ["sender"; "receiver"; "resource"] -> y = JObj raw s -> distinct s /\ no_key s "-") by (intros raw s HI ->; split; eauto).
  repeat (destruct HF as [E|HF]; [injection E as <- <-; apply part_accepts; try (eapply string_accepts; eapply opt_at; [exact HD| |exact HK]; eassumption; fail)|]).
  - eapply side_accepts; [repeat split; discriminate| |exact (opt_at _ _ _ _ _ _ HD R2 HK)|]; intros raw s E; apply (HX raw s); auto; cbn; tauto.
  - eapply side_accepts; [repeat split; discriminate| |exact (opt_at _ _ _ _ _ _ HD R3 HK)|]; intros raw s E; apply (HX raw s); auto; cbn; tauto.
  - eapply resource_accepts; [|exact (opt_at _ _ _ _ _ _ HD R5 HK)|]; intros raw s E; apply (HX raw s); auto; cbn; tauto.
  - eapply conditions_accepts. exact (opt_at _ _ _ _ _ _ HD R7 HK).
  - eapply map_accepts. exact (opt_at _ _ _ _ _ _ HD R9 HK).
  - destruct (P2 y HK).
  - destruct (P1 y HK).
  - destruct HF.
Qed.
Lemma one_sound j t r t' : (forall raw m, j = JObj raw m -> distinct_rule m) -> jd_rule L ord re_text exp_in j t = (Ok (r, false), t') ->
  says_one L j r /\ ((forall raw m, j = JObj raw m -> plain_one m) -> underived L r).
Proof.
  intros HC H. unfold jd_rule, jd_struct in H. destruct j as [|b|n|raw s|raw l|raw m]; try (apply pret_ok in H; destruct H as [H _]; try discriminate H).
  - injection H as <-. split; [left; repeat split|]. intros _. repeat split.
  - apply rule_sound in H; [|eauto]. destruct H as [H1 H2]. split; [right; eauto|eauto].
Qed.
Lemma one_accepts j r t : (forall raw m, j = JObj raw m -> distinct_rule m) -> says_one L j r -> (forall raw m, j = JObj raw m -> plain_one m) ->
  exists r' t', jd_rule L ord re_text exp_in j t = (Ok (r', false), t').
Proof.
  intros HC [[-> _]|(raw & m & -> & HR)] HP; [exists (empty_rule L), t; reflexivity|]. eapply rule_accepts; eauto.
Qed.
Lemma list_sound l : forall t rs t', (forall raw m, In (JObj raw m) l -> distinct_rule m) -> jd_items (jd_rule L ord re_text exp_in) l t = (Ok (rs, false), t') ->
  Forall2 (says_one L) l rs /\ ((forall raw m, In (JObj raw m) l -> plain_one m) -> Forall (underived L) rs).
Proof.
  induction l as [|j l IH]; intros t rs t' HC H.
  - cbn in H. apply pret_ok in H. destruct H as [H _]. injection H as <-. split; constructor.
  - apply items_cons in H. destruct H as (r & rs' & t1 & -> & H1 & H2). apply one_sound in H1; [|intros; eapply HC; left; eauto].
    apply IH in H2; [|intros; eapply HC; right; eauto]. destruct H1 as [A1 A2], H2 as [B1 B2]. split; [constructor; auto|]. intro HP. constructor.
    + apply A2. intros. eapply HP. left. eauto.
    + apply B2. intros. eapply HP. right. eauto.
Qed.
Lemma list_accepts l rs : (forall raw m, In (JObj raw m) l -> distinct_rule m) -> Forall2 (says_one L) l rs -> (forall raw m, In (JObj raw m) l -> plain_one m) ->
  forall t, exists rs' t', jd_items (jd_rule L ord re_text exp_in) l t = (Ok (rs', false), t').
Proof.
  intros HC HF HP. induction HF as [|j r l rs HR HF IH]; intro t; [exists [], t; reflexivity|]. cbn [jd_items].
  destruct (one_accepts j r t) as (r' & t1 & E1); auto; [intros; eapply HC; left; eauto|intros; eapply HP; left; eauto|]. unfold pbind. rewrite E1.
  destruct IH with (t := t1) as (rs' & t2 & E2); [intros; eapply HC; right; eauto|intros; eapply HP; right; eauto|]. rewrite E2. eexists _, _. reflexivity.
Qed.
Lemma outer_named : named [("rules", jd_slice (jd_rule L ord re_text exp_in))].
Proof. is_named. Qed.
Lemma doc_sound j t rs t' : distinct_rules j -> jd_rules L ord re_text exp_in j t = (Ok (rs, false), t') ->
  says_rules L j rs /\ (plain_document j -> Forall (underived L) rs).
Proof.
  intros [HD HR] H. unfold jd_rules, jd_struct in H. destruct j as [|b|n|raw s|raw l|raw m]; try (apply pret_ok in H; destruct H as [H _]; try discriminate H).
  - injection H as <-. split; [left; auto|constructor].
  - specialize (HD raw m eq_refl).
    pose proof (struct_field _ outer_named (fun x => x) "rules" _ m (or_introl eq_refl) ltac:(intros k' f' NE [E|[]]; injection E as <- _; congruence) _ _ _ _ HD H) as HO. cbn beta in HO.
    assert (HL : forall raw' l, at_key m "rules" (JArr raw' l) -> forall raw'' m', In (JObj raw'' m') l -> rule_in (JObj raw m) m') by (intros; exists raw, m, raw', l, raw''; auto).
    destruct HO as [[HN HO]|(j & HJ & a1 & t1 & a2 & t2 & -> & HX & <-)].
    + subst rs. split; [right; exists raw, m; split; auto; left; auto|constructor].
    + assert (HY : says_list L j a2 /\ (plain_document (JObj raw m) -> Forall (underived L) a2)).
      { destruct j as [|b|n|raw' s|raw' l|raw' m']; try (apply pret_ok in HX; destruct HX as [HX _]; try discriminate HX).
        - injection HX as <-. split; constructor.
        - cbn [jd_slice] in HX. apply list_sound in HX; [|intros; apply HR; eauto]. destruct HX as [X1 X2]. split; [constructor; auto|]. intro HP. apply X2. intros. apply HP. eauto. }
      destruct HY as [Y1 Y2]. split; [right; exists raw, m; split; auto; right; eauto|exact Y2].
Qed.
Lemma doc_accepts j rs t : distinct_rules j -> plain_document j -> says_rules L j rs -> exists rs' t', jd_rules L ord re_text exp_in j t = (Ok (rs', false), t').
Proof.
  intros [HD HR] HP [[-> _]|(raw & m & -> & HO)]; [exists [], t; reflexivity|]. specialize (HD raw m eq_refl). cbn [jd_rules jd_struct].
  apply struct_ok; [exact outer_named|]. intros n j f HK [E|[]]. injection E as <- <-. pose proof (opt_at _ _ _ _ _ _ HD HO HK) as HL. intros a u.
  destruct HL as [|raw' js rs HF]; [exists [], u; reflexivity|]. cbn [jd_slice].
  assert (HL : forall raw'' m', In (JObj raw'' m') js -> rule_in (JObj raw m) m') by (intros; exists raw, m, raw', js, raw''; auto).
  eapply list_accepts; eauto.
Qed.
Theorem rules_sound s j t rs t' : is_document j s -> distinct_rules j -> json_rules L ord re_text exp_in s t = (Ok rs, t') ->
  says_rules L j rs /\ (plain_document j -> Forall (underived L) rs).
Proof.
  intros HS HD H. apply read_iff in HS. unfold json_rules in H. rewrite HS in H. unfold jd_finish in H. apply pbind_ok in H. destruct H as ([a bad] & t1 & H1 & H2).
  destruct bad; apply pret_ok in H2; destruct H2 as [H2 _]; [discriminate H2|]. injection H2 as <-. eapply doc_sound; eauto.
Qed.
Theorem rules_accepted s j rs t : is_document j s -> distinct_rules j -> plain_document j -> says_rules L j rs -> exists rs' t', json_rules L ord re_text exp_in s t = (Ok rs', t').
Proof.
  intros HS HD HP HR. apply read_iff in HS. unfold json_rules. rewrite HS. destruct (doc_accepts j rs t HD HP HR) as (rs' & t' & E). exists rs', t'. unfold jd_finish, pbind. rewrite E. reflexivity.
Qed.
Theorem not_a_document s t : (forall j, ~ is_document j s) -> json_rules L ord re_text exp_in s t = (Err, t).
Proof. intro H. unfold json_rules. destruct (json_read s) as [j|] eqn:E; [apply read_iff in E; destruct (H j E)|reflexivity]. Qed.

(** ** Panics *)
Lemma lift_no_panic {A} (f : json -> A -> A * bool) j a t t' : jd_lift f j a t = (Panic, t') -> False.
Proof. unfold jd_lift, pret. intro H. injection H. discriminate. Qed.
Lemma regex_no_panic j a t t' : jd_regex L re_text j a t = (Panic, t') -> False.
Proof. unfold jd_regex. destruct j, re_text as [f|]; try (destruct (f s)); intro H; discriminate H. Qed.
Lemma side_panic nk tk j a t t' : fold_text nk <> fold_text tk /\ fold_text nk <> "-" /\ fold_text tk <> "-" -> (forall raw m, j = JObj raw m -> no_key m "-") ->
  jd_struct (jside_fields L exp_in nk tk) j a t = (Panic, t') -> False.
Proof.
  intros HK HP H. unfold jd_struct in H. destruct j; try discriminate H. specialize (HP raw m eq_refl). apply struct_panic in H; [|apply side_named; auto]. destruct H as (n & j & f & a1 & t1 & t2 & H1 & H2 & H3).
  destruct H2 as [E|[E|[E|[]]]]; injection E as <- <-; [apply part_panic in H3; eapply lift_no_panic; eauto..|destruct (HP j H1)].
Qed.
Lemma resource_panic j a t t' : jd_struct (jresource_fields L re_text) j a t = (Panic, t') -> False.
Proof.
  intro H. unfold jd_struct in H. destruct j; try discriminate H. apply struct_panic in H; [|apply resource_named; auto]. destruct H as (n & j & f & a1 & t1 & t2 & H1 & H2 & H3).
  destruct H2 as [E|[E|[E|[]]]]; injection E as <- <-; apply part_panic in H3; [eapply lift_no_panic; eauto..|eapply regex_no_panic; eauto].
Qed.
Lemma conditions_panic j a t t' : jd_conditions L ord j a t = (Panic, t') -> exists v, Spec_Json.document L v (raw_of j) /\ crashes L "" v.
Proof.
  unfold jd_conditions. intro H. apply pbind_cases in H. destruct H as [(x & t1 & _ & H)|[[H _]|[_ H]]]; [discriminate H|discriminate H|].
  apply (json_panics L (raw_of j) t). exists ord. split; [auto|]. rewrite H. reflexivity.
Qed.
Lemma one_panic j t t' : (forall raw m, j = JObj raw m -> plain_one m) -> jd_rule L ord re_text exp_in j t = (Panic, t') ->
  exists raw m c v, j = JObj raw m /\ at_key m "conditions" c /\ Spec_Json.document L v (raw_of c) /\ crashes L "" v.
Proof.
  intros HP H. unfold jd_rule, jd_struct in H. destruct j as [|b|n|raw s|raw l|raw m]; try discriminate H. destruct (HP raw m eq_refl) as (P1 & P2 & P3).
  apply struct_panic in H; [|exact rule_named]. destruct H as (n & j & f & a1 & t1 & t2 & H1 & H2 & H3).
  repeat (destruct H2 as [E|H2]; [injection E as <- <-; apply part_panic in H3; try (destruct (lift_no_panic _ _ _ _ _ H3); fail)|]).
  - destruct (side_panic "senderName" "senderType" j _ _ _ ltac:(repeat split; discriminate) ltac:(intros raw' s ->; apply (P3 "sender" raw' s); [cbn; tauto|auto]) H3).
  - destruct (side_panic "receiverName" "receiverType" j _ _ _ ltac:(repeat split; discriminate) ltac:(intros raw' s ->; apply (P3 "receiver" raw' s); [cbn; tauto|auto]) H3).
  - destruct (resource_panic _ _ _ _ H3).
  - apply conditions_panic in H3. destruct H3 as (v & V1 & V2). exists raw, m, j, v. auto.
  - destruct (regex_no_panic _ _ _ _ H3).
  - destruct H2.
Qed.
Theorem rules_panic s j t : is_document j s -> plain_document j -> fst (json_rules L ord re_text exp_in s t) = Panic ->
  exists c v, conditions_of j c /\ Spec_Json.document L v (raw_of c) /\ crashes L "" v.
Proof.
  intros HS HP H. apply read_iff in HS. unfold json_rules in H. rewrite HS in H. unfold jd_finish in H.
  destruct (pbind (jd_rules L ord re_text exp_in j) (fun '(a, bad) => pret (if bad then Err else Ok a)) t) as [r t'] eqn:E. cbn in H. subst r.
  apply pbind_cases in E. destruct E as [([a bad] & t1 & _ & E)|[[E _]|[_ E]]]; [destruct bad; discriminate E|discriminate E|].
  unfold jd_rules, jd_struct in E. destruct j as [|b|n|raw x|raw l|raw m]; try discriminate E. apply struct_panic in E; [|exact outer_named].
  destruct E as (n & j & f & a1 & t1 & t2 & H1 & H2 & H3). destruct H2 as [E|[]]. injection E as <- <-. destruct j as [|b|n|raw' x|raw' l|raw' m']; try discriminate H3.
  cbn [jd_slice] in H3. apply items_panic in H3. destruct H3 as (j & u1 & u2 & HJ & HE).
  assert (HL : forall raw'' m', In (JObj raw'' m') l -> rule_in (JObj raw m) m') by (intros; exists raw, m, raw', l, raw''; auto).
  apply one_panic in HE; [|intros raw'' m' ->; apply HP; eauto]. destruct HE as (raw'' & m' & c & v & -> & K1 & K2 & K3). exists c, v. split; auto. exists m'. eauto.
Qed.
End WithLib.
