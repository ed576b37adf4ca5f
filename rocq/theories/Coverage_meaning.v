(** The coverage report of freshly loaded rules, from the meaning of the rules as written. *)
From Coq Require Import List String Ascii Bool Arith ZArith Sorted Lia.
From Verif Require Import Base GoStr GoFloat Types Json StrUtils Validate Prepare Parse Marshal Eval Lifecycle Check Spec_Tree Spec_Regex Spec_Match Spec_Leaf
  Spec_Decision Check_proofs Spec_Coverage Coverage_proofs Spec_Meaning Meaning_proofs Meaning_rules.
Import ListNotations.
Open Scope string_scope.

Section WithLib.
Variable L : Lib.
Hypothesis HRegex : RegexSpec L.
Hypothesis HCidr : CidrSpec L.
Hypothesis HNum : NumberSpec L.
Hypothesis HStar : jp_prepare L "$.*" <> None.
Hypothesis HRel : forall rest, jp_prepare L ("$RELATIVE" ++ rest) = None.
Variables (p : predef) (ord : order) (rules : list (rule L)).
Hypothesis HF : fair ord.

(** some rule of the given kind decides about the message *)
Definition decides (P : rule L -> Prop) (m : message) : Prop := exists r d, In r rules /\ P r /\ verdict L p r m d /\ d <> 0.

Lemma ran_verdicts m o : ascii_message m -> (forall r, In r rules -> good_rule L p r m) -> ran L ord p (map (load_rule L) rules) m o ->
  Forall2 (fun r d => verdict L p r m d) rules (out_results o) /\ decision_is_strictest (out_results o) (out_decision o) /\ enumerates_applied (out_results o) (out_applied o).
Proof.
  intros HA HG (t & e & HC). destruct (check_verdict L HRegex HCidr HNum HStar HRel p ord rules m t HF HA HG) as (o' & e' & HC' & HV & HS).
  rewrite HC in HC'. injection HC' as <- <-. split; auto. split; auto. eapply check_applied; eauto.
Qed.
Lemma at_both {A B} (R : A -> B -> Prop) l l' i x y : Forall2 R l l' -> nth_error l i = Some x -> nth_error l' i = Some y -> R x y.
Proof. intro H. revert i. induction H; intros [|i]; cbn; try discriminate; eauto. congruence. Qed.
Lemma at_left {A B} (R : A -> B -> Prop) l l' i x : Forall2 R l l' -> nth_error l i = Some x -> exists y, nth_error l' i = Some y /\ R x y.
Proof. intro H. revert i. induction H; intros [|i]; cbn; try discriminate; eauto. intro E. injection E as ->. eauto. Qed.
Lemma at_right {A B} (R : A -> B -> Prop) l l' i y : Forall2 R l l' -> nth_error l' i = Some y -> exists x, nth_error l i = Some x /\ R x y.
Proof. intro H. revert i. induction H; intros [|i]; cbn; try discriminate; eauto. intro E. injection E as ->. eauto. Qed.

Lemma applied_decides (P : rule L -> Prop) m o : Forall2 (fun r d => verdict L p r m d) rules (out_results o) -> enumerates_applied (out_results o) (out_applied o) ->
  ((exists i r, In i (out_applied o) /\ nth_error rules i = Some r /\ P r) <-> decides P m).
Proof.
  intros HV [_ HE]. split.
  - intros (i & r & HI & HR & HP). apply HE in HI. destruct HI as (d & HD & HN). exists r, d. split; [eapply nth_error_In; eauto|]. split; auto. split; [|auto].
    exact (at_both (fun r d => verdict L p r m d) _ _ _ _ _ HV HR HD).
  - intros (r & d & HI & HP & HVd & HN). apply In_nth_error in HI. destruct HI as [i Hi]. destruct (at_left _ _ _ _ _ HV Hi) as (d' & Hd & HV').
    assert (d' = d) by (eapply verdict_unique; eauto). subst d'. exists i, r. split; auto. apply HE. eauto.
Qed.

Theorem coverage_written ms t : (forall m, In m ms -> ascii_message m) -> (forall m r, In m ms -> In r rules -> good_rule L p r m) ->
  exists mc rc, coverage L ord p (map (load_rule L) rules) ms t = Some (mc, rc) /\
  (forall id, (exists r, In r rules /\ ru_id r = id) <-> exists l, assoc id rc = Some l) /\
  (forall id l, assoc id rc = Some l -> forall mid, In mid l <-> exists m, In m ms /\ m_id m = mid /\ decides (fun r => ru_id r = id) m) /\
  (forall id c, assoc id mc = Some c -> exists m, In m ms /\ m_id m = id /\
     (cov_covered c = true <-> decides (fun _ => True) m) /\ (forall rid, In rid (cov_ids c) <-> decides (fun r => ru_id r = rid) m) /\
     (forall r d, In r rules -> verdict L p r m d -> d <= cov_decision c) /\ (cov_decision c = 0 \/ exists r, In r rules /\ verdict L p r m (cov_decision c))) /\
  (forall m, In m ms -> exists c, assoc (m_id m) mc = Some c).
Proof.
  intros HA HG. destruct (coverage L ord p (map (load_rule L) rules) ms t) as [[mc rc]|] eqn:EC.
  2:{ exfalso. destruct (coverage_none L ord p _ ms _ _ _ EC) as (m & t' & HI & E).
      destruct (check_verdict L HRegex HCidr HNum HStar HRel p ord rules m t' HF (HA m HI) (fun r => HG m r HI)) as (o & e & E' & _). rewrite E' in E. discriminate. }
  exists mc, rc. split; auto. destruct (coverage_ok L _ _ _ _ _ _ _ EC) as (os & HR & HM & HMN & HRC & HRN). destruct (coverage_listed L _ _ _ _ _ _ _ EC) as (os' & HR' & HLs).
  assert (HO : forall os, Forall2 (ran L ord p (map (load_rule L) rules)) ms os -> forall m o, In (m, o) (combine ms os) -> In m ms /\ ran L ord p (map (load_rule L) rules) m o).
  { clear. intros os H. induction H as [|m o ms os H1 H2 IH]; intros m' o' HI; [destruct HI|]. destruct HI as [E|HI]; [injection E as <- <-; split; [left; auto|auto]|]. destruct (IH _ _ HI). split; [right|]; auto. }
  assert (HO' : forall os, Forall2 (ran L ord p (map (load_rule L) rules)) ms os -> forall m, In m ms -> exists o, In (m, o) (combine ms os)).
  { clear. intros os H. induction H as [|m o ms os H1 H2 IH]; intros m' HI; [destruct HI|]. destruct HI as [<-|HI]; [exists o; left; auto|]. destruct (IH _ HI) as [o' Ho]. exists o'. right. auto. }
  assert (HD : forall i, nth_error (map (load_rule L) rules) i = option_map (load_rule L) (nth_error rules i)) by (intro; apply nth_error_map).
  assert (HIds : ids_of L (map (load_rule L) rules) = map (fun r => ru_id r) rules) by (unfold ids_of; rewrite map_map; reflexivity).
  split; [|split; [|split]].
  - intro id. rewrite HIds in *. split.
    + intros (r & HI & E). destruct (HRC id) as (parts & HP & _); [apply in_map_iff; eauto|eauto].
    + intros [l E]. destruct (in_dec string_dec id (map (fun r => ru_id r) rules)) as [I|I]; [apply in_map_iff in I; destruct I as (r & E1 & HI); eauto|]. rewrite (HRN _ I) in E. discriminate.
  - intros id l E mid. rewrite (HLs _ _ E). split.
    + intros (m & o & i & s & HC & EM & HI & HS & EI). destruct (HO _ HR' _ _ HC) as [HMs HRan]. destruct (ran_verdicts m o (HA m HMs) (fun r => HG m r HMs) HRan) as (HV & _ & HE).
      exists m. split; auto. split; auto. apply (applied_decides _ m o HV HE). rewrite HD in HS. destruct (nth_error rules i) as [r|] eqn:ER; [|discriminate]. injection HS as <-. exists i, r. auto.
    + intros (m & HMs & EM & HDc). destruct (HO' _ HR' _ HMs) as [o Ho]. destruct (HO _ HR' _ _ Ho) as [_ HRan]. destruct (ran_verdicts m o (HA m HMs) (fun r => HG m r HMs) HRan) as (HV & _ & HE).
      apply (applied_decides _ m o HV HE) in HDc. destruct HDc as (i & r & HI & HN & EI). exists m, o, i, (load_rule L r). rewrite HD, HN. auto.
  - intros id c E. destruct (HM _ _ E) as (o & (before & m & after & EL & EI & _) & HDs). destruct (HO _ HR m o) as [HMs HRan]; [rewrite EL; apply in_elt|].
    destruct (ran_verdicts m o (HA m HMs) (fun r => HG m r HMs) HRan) as (HV & HS & HE). destruct HDs as (D1 & D2 & D3 & _). exists m. split; auto. split; auto.
    assert (HMx : (forall r d, In r rules -> verdict L p r m d -> d <= out_decision o) /\ (out_decision o = 0 \/ exists r, In r rules /\ verdict L p r m (out_decision o))).
    { split.
      - intros r d HI HVd. apply In_nth_error in HI. destruct HI as [i Hi]. destruct (at_left _ _ _ _ _ HV Hi) as (d' & Hd & HV'). assert (d' = d) by (eapply verdict_unique; eauto). subst d'.
        apply nth_error_In in Hd. assert (HB : d = 0 \/ d = 1 \/ d = 2 \/ d = 3) by (destruct HVd as [[_ [[-> _]|[[-> _]|[-> _]]]]|[_ ->]]; auto).
        destruct HS as [[-> _]|[(-> & _ & N3)|[(-> & _ & N2 & N3)|[-> HZ]]]].
        + lia.
        + destruct HB as [->|[->|[->| ->]]]; try lia. tauto.
        + destruct HB as [->|[->|[->| ->]]]; try lia; tauto.
        + rewrite Forall_forall in HZ. rewrite (HZ _ Hd). lia.
      - assert (HI : out_decision o = 0 \/ In (out_decision o) (out_results o)) by (destruct HS as [[-> ?]|[(-> & ? & _)|[(-> & ? & _)|[-> _]]]]; auto).
        destruct HI as [HI|HI]; [auto|]. right. apply In_nth_error in HI. destruct HI as [i Hi]. destruct (at_right _ _ _ _ _ HV Hi) as (r & Hr & HV'). exists r. split; auto. eapply nth_error_In; eauto. }
    rewrite D2. split; [|split; [|exact HMx]].
    + rewrite D1. split.
      * intro HN. destruct HMx as [_ [HZ|(r & HI & HVd)]]; [congruence|]. exists r, (out_decision o). auto.
      * intros (r & d & HI & _ & HVd & HN) HZ. destruct HMx as [HX _]. specialize (HX _ _ HI HVd). lia.
    + intro rid. rewrite <- (applied_decides _ m o HV HE). rewrite HIds in D3. split.
      * intro HI. apply In_nth_error in HI. destruct HI as [k Hk]. destruct (at_right _ _ _ _ _ D3 Hk) as (i & Hi & HN). rewrite nth_error_map in HN.
        destruct (nth_error rules i) as [r|] eqn:ER; [|discriminate]. injection HN as HN. exists i, r. split; [eapply nth_error_In; eauto|auto].
      * intros (i & r & HI & HN & HP). apply In_nth_error in HI. destruct HI as [k Hk]. destruct (at_left _ _ _ _ _ D3 Hk) as (rid' & Hr & HN'). rewrite nth_error_map, HN in HN'. cbn in HN'. injection HN' as HN'.
        apply nth_error_In in Hr. congruence.
  - intros m HMs. destruct (assoc (m_id m) mc) as [c|] eqn:E; [eauto|]. apply HMN in E. rewrite Forall_forall in E. exfalso. exact (E m HMs eq_refl).
Qed.
End WithLib.
