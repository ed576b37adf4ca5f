(** Proofs about GetRuleStrings. *)
From Coq Require Import List String Ascii Bool Arith Lia.
From Verif Require Import Base GoStr GoStr_facts Types Strings Prepare Prepare_proofs Spec_Tree Spec_Glob Spec_Leaf Spec_Validate Spec_Text Load_proofs Spec_Strings Strings_proofs Hash_proofs Text_proofs Spec_Show.
Import ListNotations.
Open Scope string_scope.

Lemma or_default_iff x s : shown_or_default x s <-> or_default x = s.
Proof.
  unfold or_default. destruct (String.eqb_spec x "") as [E|N].
  - split; [intros [|]; congruence|intros <-; apply sd_default; auto].
  - split; [intros [|]; congruence|intros <-; apply sd_field; auto].
Qed.
Lemma party_iff t n s : shown_party t n s <-> party_string t n = s.
Proof.
  unfold party_string. destruct (String.eqb_spec t "") as [E|N].
  - split; [intros [|]; congruence|intros <-; apply sp_untyped; auto].
  - split; [intros [|]; congruence|intros <-; apply sp_typed; auto].
Qed.
Lemma resource_iff t n s : shown_resource t n s <-> resource_string t n = s.
Proof.
  unfold resource_string. destruct (String.eqb_spec t "") as [E|N].
  - split; [intros [|]; congruence|intros <-; apply sr_untyped; auto].
  - split; [intros [|]; congruence|intros <-; apply sr_typed; auto].
Qed.

Theorem rule_strings_iff L (r : rule L) s : get_rule_strings L r = Some s <-> shows_rule L r s.
Proof.
  unfold get_rule_strings. split.
  - destruct (ru_tree r) as [n|] eqn:ET; [|discriminate]. destruct (node_string L n) as [c|] eqn:EN; [|discriminate]. intro H. injection H as <-.
    constructor; cbn; try apply or_default_iff; try apply party_iff; try apply resource_iff; auto. exists n. auto.
  - intros [H1 H2 H3 H4 H5 H6 (n & E & EN)]. apply or_default_iff in H3, H5, H6. apply party_iff in H1, H2. apply resource_iff in H4.
    rewrite E, EN, H1, H2, H3, H4, H5, H6. destruct s; reflexivity.
Qed.
Theorem rule_strings_panic L (r : rule L) : get_rule_strings L r = None <-> forall n, ru_tree r = Some n -> ~ no_nil L n.
Proof.
  unfold get_rule_strings. destruct (ru_tree r) as [n|] eqn:E.
  - pose proof (text_exists L n) as HX. destruct (node_string L n) as [s|].
    + split; [discriminate|]. intro H. exfalso. apply (H n eq_refl). apply HX. eauto.
    + split; auto. intros _ n' E' HN. injection E' as <-. apply HX in HN. destruct HN. discriminate.
  - split; auto. intros _ n E'. discriminate.
Qed.

(** ** What the texts determine *)
Lemma default_same x y : or_default x = or_default y <-> same_or_default x y.
Proof.
  unfold or_default, same_or_default. simpl. destruct (String.eqb_spec x "") as [->|NX], (String.eqb_spec y "") as [->|NY].
  - tauto.
  - split; [intros <-; tauto|]. intros [<-|[_ [H|[H|[]]]]]; congruence.
  - split; [intros ->; tauto|]. intros [->|[[H|[H|[]]] _]]; congruence.
  - split; [auto|]. intros [H|[[H|[H|[]]] [K|[K|[]]]]]; congruence.
Qed.
Lemma colon_cut t1 n1 t2 n2 : avoids [":"]%char t1 -> avoids [":"]%char t2 -> t1 ++ ":" ++ n1 = t2 ++ ":" ++ n2 -> t1 = t2 /\ n1 = n2.
Proof. intros H1 H2 E. apply (cut_at ":"%char [":"%char] t1 t2 n1 n2); auto. left; auto. Qed.
Lemma default_plain : avoids [":"]%char "{default type}" /\ avoids [":"]%char "default".
Proof. split; repeat split; simpl; intuition discriminate. Qed.
Lemma party_same t1 n1 t2 n2 : avoids [":"]%char t1 /\ t1 <> "{default type}" -> avoids [":"]%char t2 /\ t2 <> "{default type}" ->
  (party_string t1 n1 = party_string t2 n2 <-> t1 = t2 /\ n1 = n2).
Proof.
  intros [A1 N1] [A2 N2]. split; [|intros [-> ->]; auto]. unfold party_string.
  change ("{default type}::" ++ n1) with ("{default type}" ++ ":" ++ ":" ++ n1). change ("{default type}::" ++ n2) with ("{default type}" ++ ":" ++ ":" ++ n2).
  destruct default_plain as [D _].
  destruct (String.eqb_spec t1 "") as [->|M1], (String.eqb_spec t2 "") as [->|M2]; intro E; apply colon_cut in E; auto; destruct E as [E1 E2]; auto; try congruence.
  split; [auto|injection E2; auto].
Qed.
Lemma resource_same t1 n1 t2 n2 : avoids [":"]%char t1 -> avoids [":"]%char t2 ->
  (resource_string t1 n1 = resource_string t2 n2 <-> same_resource t1 n1 t2 n2).
Proof.
  intros A1 A2. unfold resource_string, same_resource. change "default:default" with ("default" ++ ":" ++ "default"). destruct default_plain as [_ D].
  destruct (String.eqb_spec t1 "") as [->|M1], (String.eqb_spec t2 "") as [->|M2].
  - tauto.
  - split; [intro E; apply colon_cut in E; auto; destruct E as [<- <-]; tauto|]. intros [[E _]|[_ [E|[-> ->]]]]; congruence.
  - split; [intro E; apply colon_cut in E; auto; destruct E as [-> ->]; tauto|]. intros [[E _]|[[E|[-> ->]] _]]; congruence.
  - split; [intro E; apply colon_cut in E; auto|]. intros [[-> ->]|[[E|[-> ->]] [E'|[-> ->]]]]; congruence.
Qed.

Theorem rule_strings_same L (r1 r2 : rule L) n1 n2 : plain_types L r1 -> plain_types L r2 -> ru_tree r1 = Some n1 -> ru_tree r2 = Some n2 -> legible L n1 -> legible L n2 ->
  (get_rule_strings L r1 = get_rule_strings L r2 <-> shown_alike L r1 r2).
Proof.
  intros P1 P2 E1 E2 G1 G2. unfold plain_types in P1, P2.
  inversion P1 as [|? ? S1 Q1]; subst. inversion Q1 as [|? ? V1 Q1']; subst. inversion Q1' as [|? ? R1 _]; subst. clear P1 Q1 Q1'.
  inversion P2 as [|? ? S2 Q2]; subst. inversion Q2 as [|? ? V2 Q2']; subst. inversion Q2' as [|? ? R2 _]; subst. clear P2 Q2 Q2'.
  assert (TX : forall n, legible L n -> exists s, node_string L n = Some s).
  { intros n H. apply text_exists. induction n using Tree_proofs.node_ind'; inversion H; subst; constructor; auto.
    all: rewrite Forall_forall in *; intros x HI; auto. }
  destruct (TX n1 G1) as [s1 T1]. destruct (TX n2 G2) as [s2 T2]. pose proof (text_determines L n1 n2 G1 G2) as TD. rewrite T1, T2 in TD.
  unfold get_rule_strings, shown_alike, alike_conditions. rewrite E1, E2, T1, T2. cbn [option_map].
  pose proof (party_same _ (ru_sender_name r1) _ (ru_sender_name r2) S1 S2) as I1. pose proof (party_same _ (ru_receiver_name r1) _ (ru_receiver_name r2) V1 V2) as I2.
  pose proof (resource_same _ (ru_resource_name r1) _ (ru_resource_name r2) (proj1 R1) (proj1 R2)) as I3.
  rewrite <- I3, <- !default_same, <- TD. split.
  - intro H. injection H as H1 H2 H3 H4 H5 H6 H7. apply I1 in H1. apply I2 in H2. destruct H1, H2. subst. tauto.
  - intros (H1 & H2 & H3 & H4 & H5 & H6 & H7 & H8 & H9). assert (X1 := proj2 I1 (conj H1 H2)). assert (X2 := proj2 I2 (conj H3 H4)). injection H9 as ->. congruence.
Qed.

(** preparation keeps them *)
Theorem prepared_rule_strings L p (r r' : rule L) : prepare_rule L p r = Ok r' ->
  (forall n, ru_tree r = Some n -> made L n /\ no_references L n /\ no_empty_is L n) ->
  ~ starts "#" (ru_sender_name r) -> ~ starts "#" (ru_receiver_name r) -> get_rule_strings L r' = get_rule_strings L r.
Proof.
  intros HP HT HS HR. destruct (prepared_rule_text L p r r' HP HT HS HR) as (_ & EC & _).
  destruct (rule_texts L _ _ _ HP) as (N1 & N2 & _ & F1 & F2 & F3 & F4 & F5 & F6 & F7 & F8 & _ & _).
  assert (ES : forall x y, ~ starts "#" x -> replaced_name p x y -> y = x).
  { intros x y H H'. destruct H'; auto; exfalso; apply H; subst; eexists; reflexivity. }
  apply ES in N1; auto. apply ES in N2; auto.
  unfold get_rule_strings. rewrite N1, N2, F2, F3, F4, F5, F6, F7, F8. unfold conditions_string in EC.
  destruct (ru_tree r) as [n|] eqn:E1, (ru_tree r') as [n'|] eqn:E2.
  - rewrite EC. auto.
  - exfalso. symmetry in EC. exact (text_not_none _ _ EC).
  - exfalso. exact (text_not_none _ _ EC).
  - auto.
Qed.
