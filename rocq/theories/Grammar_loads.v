(** Values of the grammar are loaded whatever the order in which maps are visited. *)
From Coq Require Import List String Ascii Bool Arith ZArith Permutation Lia.
From Verif Require Import Base GoStr GoStr_facts GoFloat Types Json StrUtils Validate Prepare Parse Spec_Tree Match_proofs
  Spec_Leaf Leaf_proofs Spec_Validate Validate_proofs Spec_Load Lifecycle Spec_Lifecycle Lifecycle_proofs Load_proofs Load_order
  Spec_Names Spec_Grammar Grammar_proofs Grammar_tree Crash_proofs.
Import ListNotations.
Open Scope string_scope.
Local Arguments String.prefix : simpl never.

Section WithLib.
Variable L : Lib.
Variable ord : order.
Hypothesis Hfair : fair ord.
Notation Par := "parentJsonpathAttribute".
Notation Ret := "returnValueJsonpath".
Definition loads_under (v : iface) (p : string) : Prop := forall t, exists n t', interpret L ord v p t = (Ok n, t').

Lemma ret_value_any x r old : ret_value L x no_ret r -> exists r', ret_value L x old r'.
Proof.
  intros (m & H1 & H2 & H3). destruct m as [|e m].
  - exists old, []. auto.
  - exists r, (e :: m). auto.
Qed.
Lemma loop_loads es s : assoc Par es = Some (GStr s) -> legal_parent s ->
  (forall x, assoc Ret es = Some x -> exists r, ret_value L x no_ret r) ->
  (forall k x, assoc k es = Some x -> inner_key k -> loads_under x k) ->
  forall ks, incl ks (map fst es) -> forall a i t, In Par ks \/ a_parent a <> "" ->
  exists a' i' t', aa_loop L ord (kids_of L ord es) ks a i t = (Ok (a', i'), t') /\ a_parent a' <> "".
Proof.
  intros HP HL HR HI. induction ks as [|k ks IH]; intros HK a i t HA; cbn [aa_loop].
  - destruct HA as [[]|HA]. exists a, i, t. split; auto.
  - assert (HK' : incl ks (map fst es)) by (intros y HY; apply HK; right; auto).
    destruct (keys_assoc k es (HK k (or_introl eq_refl))) as [x HX]. rewrite assoc_kids, HX.
    destruct (String.eqb k Par) eqn:E1; [|destruct (String.eqb k Ret) eqn:E2].
    + apply String.eqb_eq in E1. subst k. rewrite HP in HX. injection HX as <-. unfold pbind at 1, pret at 1. cbn [as_string].
      apply valid_iff in HL. rewrite HL. apply IH; auto. right. cbn [a_parent]. apply legal_text. apply valid_iff. auto.
    + apply String.eqb_eq in E2. subst k. destruct (HR x HX) as [r Hr]. destruct (ret_value_any x r (a_ret a) Hr) as [r' Hr'].
      unfold pbind at 1. rewrite (return_tick L ord x (a_ret a) r' t Hfair Hr'). apply IH; auto. destruct HA as [[HA|HA]|HA]; [discriminate HA|auto|right; auto].
    + apply String.eqb_neq in E1, E2. destruct (HI k x HX (conj E1 E2) t) as (n & t1 & HN). unfold pbind at 1. rewrite HN. apply IH; auto.
      destruct HA as [[HA|HA]|HA]; [congruence|auto|auto].
Qed.

Lemma map_loads v es : entries_of v es -> go_value v ->
  (forall k x, In (k, x) es -> forall p n, reads L p x n -> loads_under x p) ->
  forall p n, reads L p v n -> loads_under v p.
Proof.
  intros HE HG IH p n H t. pose proof (map_entries_distinct _ _ HE HG) as HN. pose proof (map_entries_values _ _ HE HG) as HV.
  rewrite (interpret_map L ord v es); auto. unfold handle_map. rewrite kids_condition, plain_kids.
  inversion H as [v' es' att method value ret c HE' HC HT HS HP|v' es' att method value ret c f HE' HC HT HS HP|v' k w n' HE' HP HR|v' k w n' HE' HP HR|x n' HP HR|l ns f HP HF
    |v' es' q s r inner HP HE' HC HL HPar HLeg HRet HAll HCho]; subst.
  - pose proof (entries_unique _ _ _ HE HE') as ->. assert (EC : is_condition_node es = true) by (apply is_condition_iff; auto). rewrite EC.
    assert (E : node_condition L es p = Ok (NCond c)) by (apply node_condition_iff; auto; exists att, method, value, ret, c; auto). rewrite E. exists (NCond c), t. reflexivity.
  - pose proof (entries_unique _ _ _ HE HE') as ->. assert (EC : is_condition_node es = true) by (apply is_condition_iff; auto). rewrite EC.
    assert (E : node_condition L es p = Ok (f [NCond c])) by (apply node_condition_iff; auto; exists att, method, value, ret, c; split; auto; split; auto; right; eauto).
    rewrite E. exists (f [NCond c]), t. reflexivity.
  - pose proof (entries_unique _ _ _ HE' HE) as ->. rewrite single_not_condition. cbn [kids_of map fst snd].
    destruct (IH k w (or_introl eq_refl) k n HR t) as (n1 & t1 & E). simpl in HP. destruct HP as [<-|[<-|[<-|[<-|[<-|[<-|[]]]]]]]; exists n1, t1; exact E.
  - pose proof (entries_unique _ _ _ HE' HE) as ->. rewrite single_not_condition. cbn [kids_of map fst snd].
    destruct (IH k w (or_introl eq_refl) k n' HR t) as (n1 & t1 & E). exists (NNot n1), t1. cbn. unfold pbind. rewrite E. reflexivity.
  - exfalso. destruct HE as [HE|HE]; discriminate.
  - exfalso. destruct HE as [HE|HE]; discriminate.
  - pose proof (entries_unique _ _ _ HE HE') as ->.
    destruct (is_condition_node es) eqn:EC; [apply (is_condition_iff es HN) in EC; tauto|].
    assert (HQ : exists n t', any_all_node L ord q (kids_of L ord es) t = (Ok n, t')).
    { unfold any_all_node. rewrite keys_kids. assert (EL : List.length (kids_of L ord es) = List.length es) by apply map_length. rewrite EL.
      assert (E1 : (List.length es =? 2)%nat || (List.length es =? 3)%nat = true) by (rewrite orb_true_iff, !Nat.eqb_eq; auto). rewrite E1. cbn [negb].
      assert (HPI : In Par (map fst es)) by (apply in_map_iff; exists (Par, GStr s); auto).
      assert (E2 : contains_string (map fst es) Par = true) by (apply contains_in; auto). rewrite E2. cbn [negb].
      unfold pbind at 1, prange at 1. rewrite keys_kids.
      destruct (loop_loads es s) with (ks := ord t (map fst es)) (a := empty_aa L) (i := NNil (L := L)) (t := S t) as (a' & i' & t' & E & HA); auto.
      - apply assoc_in_iff; auto.
      - intros x HX. apply assoc_in in HX. rewrite Forall_forall in HV. exists r. apply (ret_value_iff L x r (HV _ HX)).
        assert (HU : forall y, In (Ret, y) es -> y = x).
        { intros y HY. apply (assoc_in_iff _ _ es HN) in HY. apply (assoc_in_iff _ _ es HN) in HX. congruence. }
        destruct HRet as [HA|y HY HE2|y ts r HY HE2 HT HF HS].
        + exfalso. apply HA. apply in_map_iff. exists (Ret, x). auto.
        + left. rewrite <- (HU _ HY). auto.
        + right. exists ts. rewrite <- (HU _ HY). auto.
      - intros k x HX HI. apply assoc_in in HX. destruct (HAll _ _ HX HI) as [m HM]. exact (IH k x HX k m HM).
      - intros k HK. eapply Permutation_in; [apply Hfair|exact HK].
      - left. eapply Permutation_in; [apply Permutation_sym, Hfair|exact HPI].
      - unfold pbind. rewrite E. apply String.eqb_neq in HA. rewrite HA. eexists _, _. reflexivity. }
    simpl in HP. destruct HP as [E|[E|[]]]; injection E as <- <-; exact HQ.
Qed.

Lemma seq_loads l : Forall (fun x => loads_under x "") l -> forall t, exists ns t', pseq (map (fun x => interpret L ord x "") l) t = (Ok ns, t').
Proof.
  induction 1 as [|x l HX _ IH]; intro t; cbn [map pseq].
  - exists [], t. reflexivity.
  - destruct (HX t) as (n & t1 & E). unfold pbind at 1. rewrite E. destruct (IH t1) as (ns & t2 & E2). unfold pbind. rewrite E2. eexists _, _. reflexivity.
Qed.

Theorem reads_load v : go_value v -> forall p n, reads L p v n -> loads_under v p.
Proof.
  induction v as [| | | | |l IH|m IH|m IH] using iface_ind'; intros HG p n H.
  1-5: exfalso; inversion H; subst; match goal with HE : entries_of _ _ |- _ => destruct HE; discriminate end.
  - inversion HG as [| | | | |? HL| |]; subst.
    inversion H as [v' es' att method value ret c HE'|v' es' att method value ret c f HE'|v' k w n' HE'|v' k w n' HE'|x n' HP HR|l' ns f HP HF|v' es' q s r inner HP HE']; subst;
      try (destruct HE'; discriminate).
    + inversion IH as [|? ? HX _]; inversion HL as [|? ? HGX _]; subst. intro t. cbn [interpret String.eqb]. exact (HX HGX "" n HR t).
    + intro t. cbn [interpret].
      assert (HS : exists ns t', pseq (map (fun x => interpret L ord x "") l) t = (Ok ns, t')).
      { apply seq_loads. clear -IH HL HF. revert ns HF. induction l as [|x l IHl]; intros ns HF; constructor; inversion IH; inversion HL; inversion HF; subst; eauto. }
      destruct HS as (ns' & t' & E). exists (f ns'), t'. unfold handle_array, pbind. simpl in HP. destruct HP as [P|[P|[P|[]]]]; injection P as <- <-; cbn; rewrite E; reflexivity.
  - apply (map_loads (GMapS m) m) with (n := n); auto; [left; auto|]. inversion HG as [| | | | | |? HN HL|]; subst. rewrite Forall_forall in IH, HL. intros k x HI. apply (IH _ HI). exact (HL _ HI).
  - assert (HE : exists es, entries_of (GMapI m) es).
    { inversion H as [v' es' att method value ret c HE'|v' es' att method value ret c f HE'|v' k w n' HE'|v' k w n' HE'|x n' HP HR|l' ns f HP HF|v' es' q s r inner HP HE']; subst; eauto. }
    destruct HE as [es HE]. apply (map_loads (GMapI m) es) with (n := n); auto. pose proof (map_entries_values _ _ HE HG) as HV. destruct HE as [HE|HE]; [discriminate|]. injection HE as ->. rewrite Forall_map in IH.
    rewrite Forall_forall in IH, HV. intros k x HI. apply (IH _ HI). exact (HV _ HI).
Qed.
End WithLib.

Theorem grammar_loads L ord v n t : fair ord -> go_value v -> reads L "" v n -> exists n' t', parse_conditions_tree L ord v t = (Ok n', t').
Proof. intros HF HG HR. exact (reads_load L ord HF v HG "" n HR t). Qed.

(** ** NOT over a list *)
Lemma not_listed L l n : reads L "" (GMapS [("NOT", GArr l)]) n <-> exists ns, Forall2 (reads L "") l ns /\ n = NNot (last ns NNil).
Proof.
  split.
  - intro H. inversion H as [v es att method value ret c HE HK HT HS HW|v es att method value ret c f HE HK HT HS HW|v k w n0 HE HW HR|v k w n0 HE HW HR|x n0 HW HR|l0 ns f HW HF|v es q s r inner HW]; subst.
    + exfalso. assert (es = [("NOT", GArr l)]) as -> by (destruct HE as [HE|HE]; [congruence|discriminate]). destruct HK as (a & b & c0 & d & _ & _ & _ & _ & HK). apply Permutation_length in HK. discriminate HK.
    + exfalso. cbn in HW. intuition congruence.
    + assert (k = "NOT" /\ w = GArr l) as [-> ->] by (destruct HE as [HE|HE]; [injection HE; auto|discriminate]).
      inversion HR as [v2 es2 att2 method2 value2 ret2 c2 HE2 HK2 HT2 HS2 HW2|v2 es2 att2 method2 value2 ret2 c2 f2 HE2 HK2 HT2 HS2 HW2|v2 k2 w2 n2 HE2 HW2 HR2|v2 k2 w2 n2 HE2 HW2 HR2|x2 n2 HW2 HR2|l2 ns f HW2 HF2|v2 es2 q2 s2 r2 inner2 HW2]; subst.
      all: try (destruct HE2; discriminate).
      * discriminate.
      * cbn in HW2. destruct HW2 as [E|[E|[E|[]]]]; try discriminate. injection E as <-. eauto.
      * cbn in HW2. intuition discriminate.
    + discriminate.
    + cbn in HW. intuition congruence.
  - intros (ns & HF & ->). eapply rd_keyword; [left; reflexivity|cbn; tauto|]. apply rd_list with (f := fun ns => NNot (last ns NNil)); [cbn; tauto|exact HF].
Qed.
Lemma not_last L l x n : reads L "" (GMapS [("NOT", GArr (l ++ [x])%list)]) n <-> (exists ns, Forall2 (reads L "") l ns) /\ exists k, reads L "" x k /\ n = NNot k.
Proof.
  rewrite not_listed. split.
  - intros (ns & HF & ->). apply Forall2_app_inv_l in HF. destruct HF as (ns1 & ns2 & H1 & H2 & ->). inversion H2 as [|? k ? ns3 HX HN]; subst. inversion HN; subst.
    split; [eauto|]. exists k. split; auto. rewrite last_last. reflexivity.
  - intros ([ns HF] & k & HX & ->). exists (ns ++ [k])%list. split; [apply Forall2_app; auto|]. rewrite last_last. reflexivity.
Qed.
