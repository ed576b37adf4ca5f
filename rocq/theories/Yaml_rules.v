(** Rules read from YAML documents are those the documents say. *)
From Coq Require Import List String Ascii Bool Arith ZArith Floats.SpecFloat Lia.
From Verif Require Import Base GoStr GoFloat Types Json StrUtils Validate Prepare Parse Marshal Lifecycle Lifecycle_proofs Messages Fields Yaml
  Spec_Tree Spec_Load Load_proofs Spec_Copy Spec_Grammar Grammar_proofs Grammar_tree Grammar_loads Spec_Fields Spec_Yaml Yaml_proofs.
Import ListNotations.
Open Scope string_scope.
Local Arguments String.prefix : simpl never.

Lemma opt_map {A B} (phi : A -> B) m k a (R : yaml -> A -> Prop) (R' : yaml -> B -> Prop) x :
  (forall y x, at_key m k y -> R y x -> R' y (phi x)) -> opt m k a R x -> opt m k (phi a) R' (phi x).
Proof. intros H [[HN ->]|(y & HY & HR)]; [left; auto|right; eauto]. Qed.
Lemma opt_none {A} m k (a : A) R x : no_key m k -> opt m k a R x -> x = a.
Proof. intros HN [[_ ->]|(y & HY & _)]; auto. destruct (HN y HY). Qed.
Lemma at_key_clean m k y : clean (YMap m) -> at_key m k y -> clean y.
Proof. intros HC (key & _ & HI). inversion HC as [| |? HF _ _]; subst. rewrite Forall_forall in HF. apply (HF _ HI). Qed.
Lemma at_key_in m ks k y : Forall2 (fun e k => text (fst e) k) m ks -> at_key m k y -> In k ks.
Proof.
  intros HL (key & HT & HI). induction HL as [|e x l l' HE _ IH]; [destruct HI|]. destruct HI as [->|HI]; [|right; auto].
  left. cbn in HE. exact (text_fun _ _ _ HT HE).
Qed.
Lemma at_key_unique m k y y' : distinct_texts m -> at_key m k y -> at_key m k y' -> y' = y.
Proof.
  intros (ks & HT & HN). revert HN. induction HT as [|e x l l' HE HL IH]; intros HN (key & HK & HI) (key' & HK' & HI'); [destruct HI|].
  inversion HN as [|? ? HX HN']; subst.
  destruct HI as [E|HI], HI' as [E'|HI']; try subst e.
  - injection E' as _ ->. reflexivity.
  - exfalso. apply HX. cbn in HE. rewrite (text_fun _ _ _ HK HE). apply (at_key_in l l' k y' HL). exists key'. auto.
  - exfalso. apply HX. cbn in HE. rewrite (text_fun _ _ _ HK' HE). apply (at_key_in l l' k y HL). exists key. auto.
  - apply IH; auto; [exists key|exists key']; auto.
Qed.
Lemma opt_at {A} m k (a : A) R x y : distinct_texts m -> opt m k a R x -> at_key m k y -> R y x.
Proof.
  intros HD [[HX _]|(y' & HY & HR)] HA; [destruct (HX y HA)|]. rewrite (at_key_unique m k y' y HD HY HA). exact HR.
Qed.
Lemma clean_distinct m : clean (YMap m) -> distinct_texts m.
Proof. intro HC. inversion HC. auto. Qed.
Ltac others := intros k' f' NE HF'; apply by_name_in in HF';
  repeat (destruct HF' as [E'|HF']; [injection E' as <- <-; first [congruence | apply part_keeps; reflexivity]|]); destruct HF'.
Ltac field_of H HD g k :=
  let F := match type of H with decode_struct ?F _ _ _ = _ => F end in
  let HO := fresh "HO" in
  let K := fresh "K" in
  assert (K : forall k' f', k' <> k -> F k' = Some f' -> keeps g f') by others;
  pose proof (fun S => struct_part F g _ _ k _ eq_refl S K _ _ _ _ HD H) as HO; clear K;
  specialize (HO ltac:(intros a b; repeat (destruct b as [b ?]); reflexivity)).

Section WithLib.
Variable L : Lib.
Variable ord : order.
Variable re_text : option (string -> option (RE L)).
Hypothesis fair_ord : fair ord.

(** ** Names and types *)
Section Sides.
Variables name_key type_key : string.
Hypothesis keys_differ : name_key <> type_key /\ name_key <> "-" /\ type_key <> "-".
Lemma side_name : by_name (side_fields L name_key type_key) name_key =
  Some (part (fun s => fst (fst s)) (fun s x => (x, snd (fst s), snd s)) (lift decode_string)).
Proof. unfold by_name, side_fields. cbn. rewrite String.eqb_refl. reflexivity. Qed.
Lemma side_type : by_name (side_fields L name_key type_key) type_key =
  Some (part (fun s => snd (fst s)) (fun s x => (fst (fst s), x, snd s)) (lift decode_string)).
Proof.
  unfold by_name, side_fields. cbn. destruct keys_differ as (H & _). destruct (String.eqb_spec name_key type_key); [contradiction|]. 
  try (destruct (String.eqb_spec type_key name_key); [congruence|]). rewrite String.eqb_refl. reflexivity.
Qed.
Lemma side_dash : by_name (side_fields L name_key type_key) "-" =
  Some (part snd (fun s x => (fst (fst s), snd (fst s), x)) (decode_list (decode_expanded L))).
Proof.
  destruct keys_differ as (_ & H1 & H2). unfold by_name, side_fields. cbn [assoc].
  destruct (String.eqb_spec name_key "-"); [contradiction|]. try (destruct (String.eqb_spec "-" name_key); [congruence|]).
  destruct (String.eqb_spec type_key "-"); [contradiction|]. try (destruct (String.eqb_spec "-" type_key); [congruence|]). reflexivity.
Qed.
Lemma side_sound y t x t' : clean y -> decode_side L name_key type_key y ("", "", []) t = (Ok (x, false), t') ->
  name_and_type name_key type_key y (fst x) /\ (side_plain y -> snd x = []).
Proof.
  intros HC H. unfold decode_side, decode_into in H. destruct y as [s v|l|m].
  - destruct v; apply pret_ok in H; destruct H as [H _]; try discriminate H. injection H as <-. cbn. split; [left; split; [exists s|]; reflexivity|reflexivity].
  - apply pret_ok in H. destruct H as [H _]. discriminate H.
  - pose proof (clean_distinct m HC) as HD. split.
    + right. exists m. split; [reflexivity|]. split.
      * pose proof (struct_part _ _ _ _ name_key m side_name (fun _ _ => eq_refl) ltac:(others) _ _ _ _ HD H) as HO.
        eapply (opt_map (fun x => x)) in HO; [exact HO|]. cbn. intros y b _ (t1 & t2 & E). apply lift_ok in E. destruct E as [E _]. apply text_iff in E. exact E.
      * pose proof (struct_part _ _ _ _ type_key m side_type (fun _ _ => eq_refl) ltac:(others) _ _ _ _ HD H) as HO.
        eapply (opt_map (fun x => x)) in HO; [exact HO|]. cbn. intros y b _ (t1 & t2 & E). apply lift_ok in E. destruct E as [E _]. apply text_iff in E. exact E.
    + intro HP. specialize (HP m eq_refl). pose proof (struct_part _ _ _ _ "-" m side_dash (fun _ _ => eq_refl) ltac:(others) _ _ _ _ HD H) as HO.
      apply (opt_none _ _ _ _ _ HP) in HO. exact HO.
Qed.
Lemma string_accepts y s : text y s -> accepts (lift decode_string) y.
Proof. intros HT a t. apply (text_iff y a) in HT. exists s, t. apply lift_ok. auto. Qed.
Lemma null_accepts {A} (new : A) field y : null y -> accepts (decode_into new field) y.
Proof. intros [s ->] a t. exists new, t. reflexivity. Qed.
Lemma side_accepts y x : clean y -> name_and_type name_key type_key y x -> side_plain y -> accepts (decode_side L name_key type_key) y.
Proof.
  intros HC [[HN _]|(m & -> & H1 & H2)] HP; [apply null_accepts; auto|]. intros a t. pose proof (clean_distinct m HC) as HD. unfold decode_side, decode_into.
  apply struct_ok; auto. intros k y f HK HF. apply by_name_in in HF. destruct HF as [E|[E|[E|[]]]]; injection E as <- <-; apply part_accepts.
  - eapply string_accepts. exact (opt_at _ _ _ _ _ _ HD H1 HK).
  - eapply string_accepts. exact (opt_at _ _ _ _ _ _ HD H2 HK).
  - destruct (HP m eq_refl y HK).
Qed.
End Sides.
Lemma resource_sound y t x t' : clean y -> decode_resource L y ("", "", None) t = (Ok (x, false), t') ->
  name_and_type "resourceName" "resourceType" y (snd (fst x), fst (fst x)) /\ snd x = None.
Proof.
  intros HC H. unfold decode_resource, decode_into in H. destruct y as [s v|l|m].
  - destruct v; apply pret_ok in H; destruct H as [H _]; try discriminate H. injection H as <-. cbn. split; [left; split; [exists s|]; reflexivity|reflexivity].
  - apply pret_ok in H. destruct H as [H _]. discriminate H.
  - pose proof (clean_distinct m HC) as HD. split.
    + right. exists m. split; [reflexivity|]. split; cbn [fst snd].
      * field_of H HD (fun s : resource L => snd (fst s)) "resourceName".
        eapply (opt_map (fun x => x)) in HO; [exact HO|]. cbn. intros y b _ (t1 & t2 & E). apply lift_ok in E. destruct E as [E _]. apply text_iff in E. exact E.
      * field_of H HD (fun s : resource L => fst (fst s)) "resourceType".
        eapply (opt_map (fun x => x)) in HO; [exact HO|]. cbn. intros y b _ (t1 & t2 & E). apply lift_ok in E. destruct E as [E _]. apply text_iff in E. exact E.
    + apply (struct_frame _ snd) in H; [exact H|]. intros k y f _ HF. apply by_name_in in HF. destruct HF as [E|[E|[]]]; injection E as <- <-; apply part_keeps; reflexivity.
Qed.
Lemma resource_accepts y x : clean y -> name_and_type "resourceName" "resourceType" y x -> accepts (decode_resource L) y.
Proof.
  intros HC [[HN _]|(m & -> & H1 & H2)]; [apply null_accepts; auto|]. intros a t. pose proof (clean_distinct m HC) as HD. unfold decode_resource, decode_into.
  apply struct_ok; auto. intros k y f HK HF. apply by_name_in in HF. destruct HF as [E|[E|[]]]; injection E as <- <-; apply part_accepts; eapply string_accepts.
  - exact (opt_at _ _ _ _ _ _ HD H2 HK).
  - exact (opt_at _ _ _ _ _ _ HD H1 HK).
Qed.

(** ** Conditions *)
Lemma null_text_iff t : null_text t GNil = true <-> In t [""; "~"; "null"].
Proof.
  unfold null_text. cbn. rewrite !orb_true_iff, andb_true_r, !String.eqb_eq. split.
  - intros [[H|[H|H]]|H]; try discriminate; auto.
  - intros [H|[H|[H|[]]]]; subst; auto.
Qed.
Lemma call_sound y v t tree bad t' : clean y -> decode_any y = Some v -> (pdo t <- unmarshal_yaml_tree L ord v; pret (Ok (t, false))) t = (Ok (tree, bad), t') -> tree_text L y tree.
Proof.
  intros HC HV H. apply pbind_ok in H. destruct H as (x & t1 & H1 & H2). apply pret_ok in H2. destruct H2 as [H2 _]. injection H2 as <- _.
  unfold unmarshal_yaml_tree in H1. apply pbind_ok in H1. destruct H1 as (n & t2 & H1 & H2). apply pret_ok in H2. destruct H2 as [H2 _]. injection H2 as <-.
  apply (any_iff y v HC) in HV. apply tt_some with (v := v); auto. eapply grammar_sound; eauto. eapply value_go; eauto.
Qed.
Lemma conditions_sound y old t x t' : clean y -> decode_conditions L ord y old t = (Ok (x, false), t') -> tree_text L y x.
Proof.
  intros HC H. destruct (clean_decodes y HC) as (v & HV & _). unfold decode_conditions in H. rewrite HV in H. destruct y as [s w|l|m]; try (eapply call_sound; eauto; fail).
  destruct (null_text s w) eqn:EN; [|eapply call_sound; eauto]. destruct (has_value w) eqn:EW; apply pret_ok in H; destruct H as [H _]; [discriminate H|].
  injection H as <-. destruct w; try discriminate EW. constructor. apply null_text_iff. exact EN.
Qed.
Lemma conditions_accepts y x : clean y -> tree_text L y x -> accepts (decode_conditions L ord) y.
Proof.
  intros HC H a t. destruct H as [s HS|y v n HV HR].
  - apply null_text_iff in HS. unfold decode_conditions. rewrite HS. cbn. exists None, t. reflexivity.
  - pose proof (value_go y v HC HV) as HG. destruct (grammar_loads L ord v n t fair_ord HG HR) as (n' & t' & E).
    apply (any_iff y v HC) in HV. unfold decode_conditions. rewrite HV.
    assert (EC : (pdo t <- unmarshal_yaml_tree L ord v; pret (Ok (t, false))) t = (Ok (Some n', false), t')).
    { unfold unmarshal_yaml_tree, pbind. rewrite E. reflexivity. }
    destruct y as [s w|l|m]; eauto. injection HV as ->. 
    assert (EX : (exists es, entries_of v es) \/ exists l, v = GArr l).
    { destruct HR; eauto. }
    replace (null_text s v) with false; eauto.
    destruct EX as [(es & [EX|EX])|(l & EX)]; subst; inversion HC as [? ? HS| |]; subst; destruct HS.
Qed.

(** ** Rules *)
Lemma text_accepts m k s y : distinct_texts m -> opt m k "" text s -> at_key m k y -> accepts (lift decode_string) y.
Proof. intros HD HO HK. eapply string_accepts. eapply opt_at; eauto. Qed.
Lemma entries_ok {A} (elem : yaml -> A * bool) R (HE : forall y a, elem y = (a, false) <-> R y a) m es : Forall2 (fun e f => text (fst e) (fst f) /\ R (snd e) (snd f)) m es ->
  forall old, exists r, decode_entries elem m old = (r, false).
Proof.
  induction 1 as [|[k y] [k' a] m es [H1 H2] _ IH]; intro old; cbn [decode_entries]; [eauto|]. cbn in *. apply (text_iff k "") in H1. rewrite H1. apply HE in H2. rewrite H2. apply IH.
Qed.
Lemma map_accepts {A} (elem : yaml -> A * bool) R (HE : forall y a, elem y = (a, false) <-> R y a) y es : mapping R y es -> accepts (lift (decode_map elem)) y.
Proof.
  intros H a t. destruct H as [s|m es HF]; [exists [], t; reflexivity|]. destruct (entries_ok elem R HE m es HF a) as [r E]. exists r, t. apply lift_ok. auto.
Qed.
Definition text_elem_iff y a : decode_string y "" = (a, false) <-> text y a := text_iff y "" a.

Notation fields := (by_name (rule_fields L ord re_text)).
Lemma rule_text_field k m t r t' (g : rule L -> string) set :
  fields k = Some (part g set (lift decode_string)) -> (forall a b, g (set a b) = b) ->
  (forall k' f', k' <> k -> fields k' = Some f' -> keeps g f') -> g (empty_rule L) = "" ->
  clean (YMap m) -> decode_struct fields m (empty_rule L) t = (Ok (r, false), t') -> opt m k "" text (g r).
Proof.
  intros H1 H2 H3 H4 HC H. pose proof (struct_part _ _ _ _ k m H1 H2 H3 _ _ _ _ (clean_distinct m HC) H) as HO. rewrite H4 in HO.
  eapply (opt_map (fun x => x)) in HO; [exact HO|]. cbn. intros y b _ (t1 & t2 & E). apply lift_ok in E. destruct E as [E _]. apply text_iff in E. exact E.
Qed.
Lemma rule_sound m t r t' : clean (YMap m) -> decode_struct fields m (empty_rule L) t = (Ok (r, false), t') ->
  rule_says L m r /\ (plain_rule m -> underived L r).
Proof.
  intros HC H. pose proof (clean_distinct m HC) as HD.
  assert (HS : opt m "sender" ("", "", []) (fun y b => name_and_type "senderName" "senderType" y (fst b) /\ (side_plain y -> snd b = [])) (ru_sender_name r, ru_sender_type r, ru_sender_list r)).
  { field_of H HD (fun r : rule L => (ru_sender_name r, ru_sender_type r, ru_sender_list r)) "sender". eapply (opt_map (fun x => x)) in HO; [exact HO|].
    cbn. intros y b HY (t1 & t2 & E). apply side_sound in E; [exact E|repeat split; discriminate|exact (at_key_clean _ _ _ HC HY)]. }
  assert (HR : opt m "receiver" ("", "", []) (fun y b => name_and_type "receiverName" "receiverType" y (fst b) /\ (side_plain y -> snd b = [])) (ru_receiver_name r, ru_receiver_type r, ru_receiver_list r)).
  { field_of H HD (fun r : rule L => (ru_receiver_name r, ru_receiver_type r, ru_receiver_list r)) "receiver". eapply (opt_map (fun x => x)) in HO; [exact HO|].
    cbn. intros y b HY (t1 & t2 & E). apply side_sound in E; [exact E|repeat split; discriminate|exact (at_key_clean _ _ _ HC HY)]. }
  assert (HQ : opt m "resource" ("", "", None) (fun y b => name_and_type "resourceName" "resourceType" y (snd (fst b), fst (fst b)) /\ snd b = None) (ru_resource_type r, ru_resource_name r, ru_resource_regex r)).
  { field_of H HD (fun r : rule L => (ru_resource_type r, ru_resource_name r, ru_resource_regex r)) "resource". eapply (opt_map (fun x => x)) in HO; [exact HO|].
    cbn. intros y b HY (t1 & t2 & E). apply resource_sound in E; [exact E|exact (at_key_clean _ _ _ HC HY)]. }
  split.
  - constructor.
    + eapply (rule_text_field "ruleID"); eauto; [reflexivity|reflexivity|others].
    + apply (opt_map fst) with (R' := name_and_type "senderName" "senderType") in HS; [exact HS|]. intros y x _ [HX _]. exact HX.
    + apply (opt_map fst) with (R' := name_and_type "receiverName" "receiverType") in HR; [exact HR|]. intros y x _ [HX _]. exact HX.
    + eapply (rule_text_field "protocol"); eauto; [reflexivity|reflexivity|others].
    + apply (opt_map (fun b => (snd (fst b), fst (fst b)))) with (R' := name_and_type "resourceName" "resourceType") in HQ; [exact HQ|]. intros y x _ [HX _]. exact HX.
    + eapply (rule_text_field "operation"); eauto; [reflexivity|reflexivity|others].
    + field_of H HD (@ru_tree L) "conditions". eapply (opt_map (fun x => x)) in HO; [exact HO|]. cbn. intros y b HY (t1 & t2 & E). eapply conditions_sound; [exact (at_key_clean _ _ _ HC HY)|exact E].
    + eapply (rule_text_field "decision"); eauto; [reflexivity|reflexivity|others].
    + field_of H HD (@ru_metadata L) "metadata". eapply (opt_map (fun x => x)) in HO; [exact HO|]. cbn. intros y b HY (t1 & t2 & E). apply lift_ok in E. destruct E as [E _].
      apply (map_iff _ _ text_elem_iff y b (at_key_clean _ _ _ HC HY)) in E. exact E.
    + eapply (rule_text_field "hash"); eauto; [reflexivity|reflexivity|others].
  - intros (P1 & P2 & P3 & P4). repeat split.
    + destruct HS as [[_ HS]|(y & HY & _ & HS)]; [congruence|]. apply HS. exact (P3 y HY).
    + destruct HR as [[_ HR]|(y & HY & _ & HR)]; [congruence|]. apply HR. exact (P4 y HY).
    + destruct HQ as [[_ HQ]|(y & HY & _ & HQ)]; [congruence|]. exact HQ.
    + field_of H HD (@ru_operation_regex L) "operationRegex". exact (opt_none _ _ _ _ _ P2 HO).
    + field_of H HD (@ru_converted L) "-". exact (opt_none _ _ _ _ _ P1 HO).
Qed.
Lemma rule_accepts m r : clean (YMap m) -> rule_says L m r -> plain_rule m -> forall a t, exists a' t', decode_struct fields m a t = (Ok (a', false), t').
Proof.
  intros HC HR (P1 & P2 & P3 & P4). pose proof (clean_distinct m HC) as HD. apply struct_ok; auto.
  intros k y f HK HF. apply by_name_in in HF. destruct HR as [R1 R2 R3 R4 R5 R6 R7 R8 R9 R10]. pose proof (at_key_clean _ _ _ HC HK) as HY.
  repeat (destruct HF as [E|HF]; [injection E as <- <-; apply part_accepts; try (eapply text_accepts; [exact HD| |exact HK]; eassumption; fail)|]).
  - eapply side_accepts; eauto. eapply (opt_at _ _ _ _ _ _ HD R2 HK).
  - eapply side_accepts; eauto. eapply (opt_at _ _ _ _ _ _ HD R3 HK).
  - eapply resource_accepts; eauto. exact (opt_at _ _ _ _ _ _ HD R5 HK).
  - eapply conditions_accepts; eauto. exact (opt_at _ _ _ _ _ _ HD R7 HK).
  - eapply map_accepts; [exact text_elem_iff|]. exact (opt_at _ _ _ _ _ _ HD R9 HK).
  - destruct (P2 y HK).
  - destruct (P1 y HK).
  - destruct HF.
Qed.
Lemma decode_rule_sound y t r t' : clean y -> decode_rule L ord re_text y t = (Ok (r, false), t') ->
  rule_text L y r /\ ((forall m, y = YMap m -> plain_rule m) -> underived L r).
Proof.
  intros HC H. unfold decode_rule, decode_into in H. destruct y as [s v|l|m].
  - destruct v; apply pret_ok in H; destruct H as [H _]; try discriminate H. injection H as <-. split; [|intros _; repeat split]. left. split; [exists s; reflexivity|repeat split].
  - apply pret_ok in H. destruct H as [H _]. discriminate H.
  - apply rule_sound in H; auto. destruct H as [H1 H2]. split; [right; exists m; auto|]. intro HP. apply H2. apply HP. reflexivity.
Qed.
Lemma decode_rule_accepts y r t : clean y -> rule_text L y r -> (forall m, y = YMap m -> plain_rule m) -> exists r' t', decode_rule L ord re_text y t = (Ok (r', false), t').
Proof.
  intros HC [[HN _]|(m & -> & HR)] HP; [destruct (null_accepts (empty_rule L) fields y HN (empty_rule L) t) as (r' & t' & E); exists r', t'; exact E|].
  exact (rule_accepts m r HC HR (HP m eq_refl) (empty_rule L) t).
Qed.
Lemma structs_cons {A} (elem : yaml -> P (A * bool)) y l t xs t' : decode_structs elem (y :: l) t = (Ok (xs, false), t') ->
  exists x xs' t1, xs = x :: xs' /\ elem y t = (Ok (x, false), t1) /\ decode_structs elem l t1 = (Ok (xs', false), t').
Proof.
  cbn [decode_structs]. intro H. apply pbind_ok in H. destruct H as ([x b] & t1 & H1 & H2). apply pbind_ok in H2. destruct H2 as ([xs' b'] & t2 & H2 & H3). apply pret_ok in H3. destruct H3 as [H3 ->].
  destruct b, b'; try discriminate H3. injection H3 as <-. eauto 7.
Qed.
Lemma decode_rules_list l : forall t rs t', Forall clean l -> decode_structs (decode_rule L ord re_text) l t = (Ok (rs, false), t') ->
  Forall2 (rule_text L) l rs /\ ((forall m, In (YMap m) l -> plain_rule m) -> Forall (underived L) rs).
Proof.
  induction l as [|y l IH]; intros t rs t' HC H.
  - cbn in H. apply pret_ok in H. destruct H as [H _]. injection H as <-. split; [constructor|]. intros _. constructor.
  - apply structs_cons in H. destruct H as (r & rs' & t1 & -> & H1 & H2). inversion HC; subst. apply decode_rule_sound in H1; auto. apply IH in H2; auto.
    destruct H1 as [A1 A2], H2 as [B1 B2]. split; [constructor; auto|]. intro HP. constructor; [apply A2; intros m ->; apply HP; left; reflexivity|apply B2; intros m HM; apply HP; right; auto].
Qed.
Lemma decode_rules_list_ok l rs : Forall clean l -> Forall2 (rule_text L) l rs -> (forall m, In (YMap m) l -> plain_rule m) ->
  forall t, exists rs' t', decode_structs (decode_rule L ord re_text) l t = (Ok (rs', false), t').
Proof.
  intros HC HR. induction HR as [|y r l rs HR _ IH]; intros HP t; [exists [], t; reflexivity|]. inversion HC; subst. cbn [decode_structs].
  destruct (decode_rule_accepts y r t) as (r' & t1 & E1); auto; [intros m ->; apply HP; left; reflexivity|].
  destruct (IH H2 (fun m HM => HP m (or_intror HM)) t1) as (rs' & t2 & E2). unfold pbind. rewrite E1, E2. eexists _, _. reflexivity.
Qed.
Lemma in_clean l : clean (YSeq l) -> Forall clean l.
Proof. intro H. inversion H. auto. Qed.

Theorem rules_sound y t rs t' : clean y -> read_rules L ord re_text y t = (Ok rs, t') ->
  rules_text L y rs /\ (plain_rules y -> Forall (underived L) rs).
Proof.
  intros HC H. unfold read_rules, finish in H. apply pbind_ok in H. destruct H as ([rs1 b] & t1 & H1 & H2). destruct b; apply pret_ok in H2; destruct H2 as [H2 _]; [discriminate H2|]. injection H2 as <-.
  unfold decode_rules, decode_into in H1. destruct y as [s v|l|m].
  - destruct v; apply pret_ok in H1; destruct H1 as [H1 _]; try discriminate H1. injection H1 as <-. split; [left; split; [exists s|]; reflexivity|intros _; constructor].
  - apply pret_ok in H1. destruct H1 as [H1 _]. discriminate H1.
  - pose proof (struct_field (by_name [("rules", decode_list (decode_rule L ord re_text))]) (fun x : list (rule L) => x) "rules" (decode_list (decode_rule L ord re_text)) m eq_refl) as HS.
    specialize (HS ltac:(intros k' f' NE HF; apply by_name_in in HF; destruct HF as [E|[]]; injection E as <- <-; congruence) _ _ _ _ (clean_distinct m HC) H1).
    assert (HO : opt m "rules" [] (fun y rs => listing (rule_text L) y rs /\ ((forall l m', y = YSeq l -> In (YMap m') l -> plain_rule m') -> Forall (underived L) rs)) rs1).
    { eapply (opt_map (fun x => x)) in HS; [exact HS|]. cbn. intros y b HY (a1 & t2 & a2 & t3 & -> & E & ->). pose proof (at_key_clean _ _ _ HC HY) as HCy.
      unfold decode_list in E. destruct y as [s v|l|m'].
      - destruct v; apply pret_ok in E; destruct E as [E _]; try discriminate E. injection E as <-. split; [constructor|intros _; constructor].
      - apply decode_rules_list in E; [|apply in_clean; auto]. destruct E as [E1 E2]. split; [constructor; auto|]. intro HP. apply E2. intros m' HM. eapply HP; eauto.
      - apply pret_ok in E. destruct E as [E _]. discriminate E. }
    split.
    + right. exists m. split; auto. eapply (opt_map (fun x => x)) in HO; [exact HO|]. cbn. intros y x _ [HX _]. exact HX.
    + intro HP. destruct HO as [[_ ->]|(y & HY & _ & HO)]; [constructor|]. apply HO. intros l m' -> HM. exact (HP m l m' eq_refl HY HM).
Qed.
Theorem rules_accepted y rs t : clean y -> plain_rules y -> rules_text L y rs -> exists rs' t', read_rules L ord re_text y t = (Ok rs', t').
Proof.
  intros HC HP HR. enough (HX : exists rs' t', decode_rules L ord re_text y t = (Ok (rs', false), t')).
  { destruct HX as (rs' & t' & E). exists rs', t'. unfold read_rules, finish, pbind. rewrite E. reflexivity. }
  destruct HR as [[[s ->] _]|(m & -> & HO)]; [exists [], t; reflexivity|]. pose proof (clean_distinct m HC) as HD. unfold decode_rules, decode_into. apply struct_ok; auto.
  intros k y f HK HF a u. apply by_name_in in HF. destruct HF as [E|[]]; injection E as <- <-. pose proof (at_key_clean _ _ _ HC HK) as HCy.
  apply (fun HO => opt_at _ _ _ _ _ y HD HO HK) in HO. destruct HO as [s|l xs HF]; [exists [], u; reflexivity|]. cbn [decode_list].
  apply (decode_rules_list_ok l xs); auto; [apply in_clean; auto|]. intros m' HM. exact (HP m l m' eq_refl HK HM).
Qed.
End WithLib.

(** ** Files *)
Lemma distinct_keys_ok ks : ForallOrdPairs (fun a b => ~ same_key a b) ks -> Forall scalar_value ks -> distinct_keys ks = true.
Proof.
  induction 1 as [|k ks HF _ IH]; intro HS; [reflexivity|]. inversion HS; subst. cbn. rewrite IH; auto. rewrite andb_true_r. apply negb_true_iff. apply not_true_iff_false. intro HX.
  apply existsb_exists in HX. destruct HX as (k' & HI & HE). rewrite Forall_forall in HF. rewrite (same_key_eqb k k') in HE; auto. discriminate.
Qed.
Lemma clean_keys m ks : Forall2 (fun e k => text (fst e) k) m ks -> Forall (fun e => clean (fst e)) m ->
  all_some (map (fun e => decode_any (fst e)) m) = Some (key_values m) /\ Forall scalar_value (key_values m).
Proof.
  intros HT HC. revert HC. induction HT as [|e k m ks HE _ IH]; intro HC; [split; [reflexivity|constructor]|]. inversion HC as [|? ? C1 C2]; subst. destruct (IH C2) as [E1 E2].
  destruct (clean_key e k C1 HE) as (t & v & EK & HV). unfold key_values in *. cbn. rewrite EK. cbn. rewrite E1. cbn. split; [reflexivity|constructor; auto].
Qed.
Theorem clean_tested y : clean y -> test_yaml y = true.
Proof.
  induction y as [t v|l IH|m IH] using yaml_ind'; intro HC; inversion HC as [|? HL|? HM (ks & HT & HN) HD]; subst; [reflexivity| |].
  - cbn. apply forallb_forall. intros y HI. rewrite Forall_forall in IH, HL. auto.
  - cbn. rewrite Forall_forall in IH, HM. apply andb_true_iff. split.
    + apply forallb_forall. intros e HI. destruct (IH e HI), (HM e HI). apply andb_true_iff. auto.
    + destruct (clean_keys m ks HT) as [E1 E2]; [apply Forall_forall; intros e HI; apply (HM e HI)|]. rewrite E1. rewrite distinct_keys_ok; auto. rewrite andb_true_r. apply negb_true_iff. apply not_true_iff_false. intro HX.
      apply existsb_exists in HX. destruct HX as (k & HI & HE). rewrite Forall_forall in E2. rewrite (scalar_not_collection k (E2 k HI)) in HE. discriminate.
Qed.

(** ** Dictionaries *)
Lemma strings_iff y a : decode_strings y = (a, false) <-> listing text y a.
Proof. unfold decode_strings. apply slice_iff. exact text_elem_iff. Qed.
Lemma predef_sound y t p t' : clean y -> decode_predef y t = (Ok (p, false), t') -> dictionary_text y (p_strings p) (p_lists p).
Proof.
  intros HC H. unfold decode_predef, decode_into in H. destruct y as [s v|l|m].
  - destruct v; apply pret_ok in H; destruct H as [H _]; try discriminate H. injection H as <-. left. split; [exists s; reflexivity|split; reflexivity].
  - apply pret_ok in H. destruct H as [H _]. discriminate H.
  - pose proof (clean_distinct m HC) as HD. right. exists m. split; [reflexivity|]. split.
    + field_of H HD p_strings "predefinedStrings". eapply (opt_map (fun x => x)) in HO; [exact HO|]. cbn. intros y b HY (t1 & t2 & E). apply lift_ok in E. destruct E as [E _].
      apply (map_iff _ _ text_elem_iff y b (at_key_clean _ _ _ HC HY)) in E. exact E.
    + field_of H HD p_lists "predefinedLists". eapply (opt_map (fun x => x)) in HO; [exact HO|]. cbn. intros y b HY (t1 & t2 & E). apply lift_ok in E. destruct E as [E _].
      apply (map_iff _ _ strings_iff y b (at_key_clean _ _ _ HC HY)) in E. exact E.
Qed.
Lemma predef_accepts y strings lists t : clean y -> dictionary_text y strings lists -> (forall m, y = YMap m -> no_key m "-") -> exists p t', decode_predef y t = (Ok (p, false), t').
Proof.
  intros HC [[[s ->] _]|(m & -> & H1 & H2)] HP; [exists empty_predef, t; reflexivity|]. pose proof (clean_distinct m HC) as HD. unfold decode_predef, decode_into. apply struct_ok; auto.
  intros k y f HK HF. apply by_name_in in HF. destruct HF as [E|[E|[E|[]]]]; injection E as <- <-; apply part_accepts.
  - eapply map_accepts; [exact text_elem_iff|]. exact (opt_at _ _ _ _ _ _ HD H1 HK).
  - eapply map_accepts; [exact strings_iff|]. exact (opt_at _ _ _ _ _ _ HD H2 HK).
  - destruct (HP m eq_refl y HK).
Qed.
