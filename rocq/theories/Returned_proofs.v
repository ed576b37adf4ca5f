(** The extra data of evaluated trees and checked rules is what the return values say. *)
From Coq Require Import List String Ascii Bool Arith ZArith Permutation Lia.
From Verif Require Import Base GoStr GoStr_facts GoFloat Types Json StrUtils Validate Prepare Parse Marshal Lifecycle Eval Check Spec_Tree Tree_proofs Tree_truth Spec_Extra Extra_proofs Tree_laws
  Match_proofs Spec_Regex Spec_Glob Glob_proofs Spec_Match Names_proofs Spec_Leaf Number_proofs Leaf_proofs Leaf_laws Attr_proofs Spec_Validate Validate_proofs Prepare_proofs
  Spec_Load Load_proofs Mongo_proofs Spec_Panic Panic_proofs Spec_Outcome Outcome_proofs Lifecycle_proofs Spec_Raw Raw_pieces Raw_proofs Raw_panic Spec_Grammar Grammar_proofs Spec_Copy Copy_proofs Check_proofs Spec_Decision
  Spec_Meaning Meaning_proofs Meaning_rules Spec_Returned.
Import ListNotations.
Open Scope string_scope.

Section WithLib.
Variable L : Lib.

(** ** Records *)
Lemma collect_record {X} (value : string -> message -> option iface -> Prop) m (g : X -> option (option (string * iface))) (h : string * string -> X) rets e :
  collect g (map h rets) = Some e ->
  (forall name w o, In (name, w) rets -> g (h (name, w)) = Some o -> match o with None => value w m None | Some (k, v) => k = name /\ value w m (Some v) end) ->
  record value m rets e.
Proof.
  revert e. induction rets as [|[name w] rets IH]; cbn [map collect]; intros e H HG.
  - injection H as <-. constructor.
  - destruct (g (h (name, w))) as [o|] eqn:EO; [|discriminate]. destruct (collect g (map h rets)) as [ys|] eqn:EC; [|discriminate]. injection H as <-.
    pose proof (HG name w o (or_introl eq_refl) EO) as HO. assert (HR : record value m rets ys) by (apply IH; auto; intros; eapply HG; eauto; right; auto).
    destruct o as [[k v]|]; [destruct HO as [-> HO]; apply re_entry; auto|apply re_absent; auto].
Qed.

Section Named.
Variables (rets : list (string * string)) (strip : string -> string) (prep : string -> option (JQ L)) (r : retpart L).
Hypothesis HN : NoDup (keys rets).
Hypothesis HR : r = mkRet (Some (map (fun kv => (fst kv, strip (snd kv))) rets)) (Some rets)
  (map (fun kv => (fst kv, prep (snd kv))) rets) (map (fun kv => (fst kv, has_prefix (snd kv) "jsonpath:$RELATIVE")) rets).

Lemma named_at B (f : string -> B) name w : In (name, w) rets -> assoc name (map (fun kv => (fst kv, f (snd kv))) rets) = Some (f w).
Proof. intro HI. apply in_assoc; [unfold keys in *; rewrite map_map; exact HN|]. apply in_map_iff. exists (name, w). auto. Qed.

Lemma parsed_record m e : m_raw m <> None -> extra_iface L r m = Some e ->
  record (fun w m v => value_found L (has_prefix w "jsonpath:$RELATIVE") (strip w) (prep w) m v) m rets e.
Proof.
  intros HM H. subst r. unfold extra_iface in H. cbn [r_prep] in H. eapply collect_record; [exact H|]. intros name w o HI HO.
  unfold extra_iface_one in HO. cbn [fst snd r_rel r_paths] in HO. unfold get_flag, get_str in HO.
  rewrite (named_at _ (fun s => has_prefix s "jsonpath:$RELATIVE") _ _ HI), (named_at _ strip _ _ HI) in HO.
  destruct (String.eqb_spec (strip w) "$*") as [E|E].
  - destruct (if has_prefix w "jsonpath:$RELATIVE" then m_raw_rel m else m_raw m) as [d|] eqn:ED; [|discriminate]. injection HO as <-. split; auto. apply vf_whole; auto.
  - destruct (prep w) as [f|] eqn:EP.
    + destruct (if has_prefix w "jsonpath:$RELATIVE" then m_raw_rel m else m_raw m) as [d|] eqn:ED; [|discriminate].
      assert (HV : value_found L (has_prefix w "jsonpath:$RELATIVE") (strip w) (Some f) m (asks L f d)) by (apply vf_query; auto).
      unfold asks in HV. unfold query_interface in HO. destruct (jp_query L f d) as [v [err|]].
      * destruct (contains err _); cbn [negb] in HO; injection HO as <-; auto.
      * injection HO as <-. auto.
    + injection HO as <-. split; auto. apply vf_no_query; auto.
Qed.
Lemma raw_record m e : m_raw m = None -> extra_bytes L r m = Some e ->
  record (fun w m v => value_found L (has_prefix w "jsonpath:$RELATIVE") (strip w) (prep w) m v) m rets e.
Proof.
  intros HM H. subst r. unfold extra_bytes in H. cbn [r_paths] in H. eapply collect_record; [exact H|]. intros name w o HI HO.
  unfold extra_bytes_one in HO. cbn [fst snd r_rel] in HO. unfold get_flag in HO. rewrite (named_at _ (fun s => has_prefix s "jsonpath:$RELATIVE") _ _ HI) in HO.
  destruct (if has_prefix w "jsonpath:$RELATIVE" then m_json_rel m else m_json m) as [d|] eqn:ED; [|discriminate]. injection HO as <-.
  destruct (js_get L d (strip w)) as [t failed] eqn:EG. pose proof (vf_raw L _ _ (prep w) m d t failed HM ED EG) as HV. cbn [fst].
  destruct (json_parse L t); auto.
Qed.
Lemma either_record m e : (m_raw m <> None -> extra_iface L r m = Some e) -> (m_raw m = None -> extra_bytes L r m = Some e) ->
  record (fun w m v => value_found L (has_prefix w "jsonpath:$RELATIVE") (strip w) (prep w) m v) m rets e.
Proof. intros H1 H2. destruct (m_raw m) as [d|] eqn:E; [apply parsed_record|apply raw_record]; auto; rewrite ?E in *; try (apply H1); congruence. Qed.
End Named.

Lemma record_mono (V V' : string -> message -> option iface -> Prop) m rets e : (forall name w v, In (name, w) rets -> V w m v -> V' w m v) -> record V m rets e -> record V' m rets e.
Proof.
  intros HV H. induction H as [|name w v rets e H1 H2 IH|name w rets e H1 H2 IH]; [constructor| |].
  - apply re_entry; [eapply HV; eauto; left; auto|]. apply IH. intros; eapply HV; eauto; right; eauto.
  - apply re_absent; [eapply HV; eauto; left; auto|]. apply IH. intros; eapply HV; eauto; right; eauto.
Qed.

Lemma condition_record cn c m rets e : distinct_returns cn -> cn_ret cn = Some rets -> c_ret c = c_ret (condition_from_node L cn) ->
  get_extra L c m = Some e -> record (condition_value L) m rets e.
Proof.
  intros HD ER EC HE. unfold distinct_returns in HD. rewrite ER in HD. unfold condition_from_node in EC. rewrite ER in EC. cbn [c_ret] in EC.
  eapply record_mono; [|apply (either_record rets cond_ret_path (fun w => jp_prepare L (cond_ret_path w)) (c_ret c) HD EC)].
  - intros name w v _ HV. exists (has_prefix w "jsonpath:$RELATIVE"), (cond_ret_path w). split; [apply Leaf_proofs.starts_iff|]. split; [apply replaces_swapped|exact HV].
  - intro HM. unfold get_extra in HE. destruct (m_raw m); [exact HE|congruence].
  - intro HM. unfold get_extra in HE. rewrite HM in HE. exact HE.
Qed.

Lemma element_record a m rets e : NoDup (keys rets) -> Forall (fun e => starts "jsonpath:$RELATIVE" (snd e)) rets -> a_ret a = set_return_values L rets -> a_prep a <> [] ->
  any_record L a m e -> record (element_value L) m rets e.
Proof.
  intros HN HS EA HP HE. unfold any_record in HE. unfold set_return_values in EA.
  eapply record_mono; [|apply (either_record rets aa_ret_path (fun w => match prepare_query L (aa_ret_path w) with Ok q => q | _ => None end) (a_ret a) HN EA)].
  - intros name w v HI HV. rewrite Forall_forall in HS. destruct (HS _ HI) as [rest E]. cbn [snd] in E. subst w. cbv beta in HV. unfold aa_ret_path in HV.
    rewrite has_prefix_app, replace_first_app in HV. exists rest. eexists. split; [reflexivity|]. split; [|exact HV]. apply query_for_iff. reflexivity.
  - intro HM. destruct (m_raw m); [|congruence]. destruct (a_prep a); [congruence|exact HE].
  - intro HM. rewrite HM in HE. exact HE.
Qed.

(** ** Trees *)
Hypothesis HNum : NumberSpec L.
Hypothesis HStar : jp_prepare L "$.*" <> None.
Variable p : predef.
Notation outcome := (tree_outcome L (leaf_outcome L) (contexts L) (any_record L)).

Lemma outcome_means n0 n m b x : made L n0 -> prepare_node L p n0 = Ok n -> covered L p n0 m -> outcome n m b x -> (b = true <-> means L p n0 m).
Proof. intros HM HP HC HO. eapply (truth_meaning L HNum HStar); eauto. eapply outcome_truth; eauto. Qed.

Lemma prepared_returns a a' : prepare_aa L a = Ok a' -> a_ret a' = a_ret a /\ a_prep a' <> [].
Proof.
  unfold prepare_aa. intro H. apply rbind_ok in H. destruct H as (qs & HQ & H). injection H as <-. split; auto. cbn [a_prep].
  destruct (split_char "," (a_parent a)) as [|s l] eqn:E; [exfalso; eapply split_char_cons; eauto|].
  cbn [rmapM] in HQ. apply rbind_ok in HQ. destruct HQ as (q & _ & HQ). apply rbind_ok in HQ. destruct HQ as (qs' & _ & HQ). injection HQ as <-.
  destruct (a_prep a); discriminate.
Qed.

Lemma kept_hits (P : message -> Prop) ms bs : Forall2 (fun m b => b = true <-> P m) ms bs -> kept P ms (map fst (filter snd (combine ms bs))).
Proof.
  induction 1 as [|m b ms bs H HF IH]; [constructor|]. cbn [combine filter snd]. destruct b.
  - cbn [map fst]. apply ke_in; [apply H; auto|exact IH].
  - apply ke_out; [intro HX; apply H in HX; discriminate|exact IH].
Qed.
Lemma filter_combine (ms : list message) bs : List.length ms = List.length bs -> (In true bs <-> map fst (filter snd (combine ms bs)) <> []).
Proof.
  revert bs. induction ms as [|m ms IH]; intros [|b bs] H; try discriminate; cbn; [tauto|]. injection H as H. destruct b; cbn.
  - split; [discriminate|auto].
  - rewrite <- IH by auto. split; [intros [E|E]; [discriminate|auto]|auto].
Qed.
Lemma forall2_weaken {A B} (R R' : A -> B -> Prop) l l' : (forall x y, R x y -> R' x y) -> Forall2 R l l' -> Forall2 R' l l'.
Proof. intros H. induction 1; constructor; auto. Qed.
Lemma forall2_length {A B} (R : A -> B -> Prop) l l' : Forall2 R l l' -> List.length l = List.length l'.
Proof. induction 1; cbn; auto. Qed.

Theorem tree_returned n0 : made L n0 -> copyable L n0 -> forall n m b x, prepare_node L p n0 = Ok n -> covered L p n0 m ->
  outcome n m b x -> returned L p n0 m b x.
Proof.
  induction n0 as [ns IH|ns IH|n0 IH|q a n0 IH| | |c|] using node_ind'; intros HMD HCP n m b x HP HC HT; pose proof (outcome_means _ _ _ _ _ HMD HP HC HT) as HB; cbn [prepare_node] in HP.
  - apply rmap_ok in HP. destruct HP as (ns' & HP & ->). apply rseq_map_ok in HP. inversion HMD as [? HF| | | |]; subst. inversion HCP as [? _ HFC| | | |]; subst. clear HMD HCP HB.
    cbn [covered] in HC. rewrite fold_and_in in HC. cbn [tree_outcome] in HT.
    assert (HE : Forall2 (fun n0 n => forall b x, outcome n m b x -> returned L p n0 m b x) ns ns').
    { clear HT b x. induction HP as [|y z ns ns' HXY HR IHR]; constructor; inversion IH; inversion HF; inversion HFC; subst.
      - intros b x HT. eapply H1; eauto. apply HC. left; auto.
      - apply IHR; auto. intros w HW. apply HC. right; auto. }
    clear IH HF HFC HC HP. destruct HT as (ev & rest & rs & EM & HR & HS & HX).
    assert (HG : forall ns ns' rs, Forall2 (fun n0 n => forall b x, outcome n m b x -> returned L p n0 m b x) ns ns' ->
      Forall2 (fun (f : bool -> extra -> Prop) r => f (fst r) (snd r)) (map (fun n' => outcome n' m) ns') rs -> Forall2 (fun n0 r => returned L p n0 m (fst r) (snd r)) ns rs).
    { clear. intros ns ns' rs H. revert rs. induction H as [|y z ns ns' H1 H2 IH]; intros rs HR; cbn [map] in HR; inversion HR; subst; constructor; auto. }
    assert (HT : forall ns rs, Forall2 (fun n0 r => returned L p n0 m (fst r) (snd r)) ns rs -> Forall (fun r => fst r = true) rs -> Forall2 (fun n0 y => returned L p n0 m true y) ns (map snd rs)).
    { clear. intros ns rs H. induction H as [|y z ns rs H1 H2 IH]; intro HF; inversion HF; subst; cbn [map]; constructor; auto. rewrite <- H3. exact H1. }
    apply map_eq_app in EM. destruct EM as (n1 & n2 & -> & <- & <-). apply Forall2_app_inv_r in HE. destruct HE as (m1 & m2 & H1 & H2 & ->).
    pose proof (HG _ _ _ H1 HR) as HG1. destruct HS as [(-> & EN & HF)|(-> & rs0 & r & -> & EF & HF)].
    + destruct n2; [|discriminate]. inversion H2; subst. rewrite app_nil_r. eapply rt_and; [apply HT; eauto|exact HX].
    + apply Forall2_app_inv_r in HG1. destruct HG1 as (l1 & l2 & G1 & G2 & ->). inversion G2 as [|y z ? ? G3 G4]; subst. inversion G4; subst. rewrite <- app_assoc. cbn [app].
      rewrite map_app in HX. cbn [map] in HX. rewrite EF in G3. eapply rt_and_false; [apply HT; eauto|exact G3|exact HX].
  - apply rmap_ok in HP. destruct HP as (ns' & HP & ->). apply rseq_map_ok in HP. inversion HMD as [|? HF| | |]; subst. inversion HCP as [|? _ HFC| | |]; subst. clear HMD HCP.
    cbn [covered] in HC. rewrite fold_and_in in HC. cbn [tree_outcome] in HT. destruct HT as (rs & HR & _ & ->).
    assert (HE : Forall2 (fun n0 n => forall b x, outcome n m b x -> returned L p n0 m b x /\ (b = true <-> means L p n0 m)) ns ns').
    { clear HR rs. clear HB. induction HP as [|y z ns ns' HXY HR IHR]; constructor; inversion IH; inversion HF; inversion HFC; subst.
      - intros b' x HT. split; [eapply H1; eauto; apply HC; left; auto|]. eapply outcome_means; eauto. apply HC; left; auto.
      - apply IHR; auto. intros w HW. apply HC. right; auto. }
    assert (EX : List.concat (map (@snd bool extra) (filter fst rs)) = List.concat (map (fun r : bool * extra => if fst r then snd r else []) rs)).
    { clear - rs. induction rs as [|[[] y] rs IH]; cbn; auto. rewrite IH. auto. }
    unfold result in *. rewrite EX. apply rt_or; [|exact HB]. clear - HE HR. revert rs HR. induction HE as [|y z ns ns' H1 H2 IH]; intros rs HR; cbn [map] in HR; inversion HR; subst; cbn [map]; constructor; auto.
    destruct y0 as [[] v]; cbn [fst snd] in *; apply H1 in H3; destruct H3 as [G1 G2].
    + left. exact G1.
    + right. split; auto. intro HX. apply G2 in HX. discriminate.
  - apply rmap_ok in HP. destruct HP as (n' & HP & ->). cbn [tree_outcome] in HT. destruct HT as [-> _]. apply rt_not. exact HB.
  - apply rbind_ok in HP. destruct HP as (n' & HP & H). apply rbind_ok in H. destruct H as (a' & HA & H). injection H as <-.
    destruct q.
    2:{ assert (x = []) as ->; [|apply rt_all; exact HB]. cbn [tree_outcome] in HT. destruct HT as [(ms & _ & E & _)|(_ & _ & E)]; exact E. }
    inversion HMD as [| | |q' s r n'' HI HV HE HR|]; subst. inversion HCP as [| | |? ? ? _ HK HCI|]; subst.
    assert (HMI : made L n0) by (destruct HI as [->|HI]; [discriminate|auto]). clear HI HMD HCP.
    destruct (prepared_returns _ _ HA) as [EA EP]. cbn [a_ret] in EA.
    pose proof (fun r' => prepared_contexts L HStar (mkAA (replace_all s "jsonpath:" "") [] s r []) a' m r' eq_refl HA) as HX.
    cbn [tree_outcome] in HT. destruct HT as [(ms & HCt & HT)|(HCt & -> & ->)]; apply HX in HCt; [|apply rt_any_error; exact HCt].
    destruct HR as [->|(rets & HNE & -> & HS)].
    + assert (x = []) as ->; [|apply rt_any_plain; auto]. unfold any_outcome, declared in HT. rewrite EA in HT. cbn in HT.
      destruct HT as [(_ & -> & _)|(_ & _ & _ & _ & _ & _ & _ & H)]; auto.
    + unfold any_outcome in HT. assert (ED : declared L a' = map (fun kv => (fst kv, aa_ret_path (snd kv))) rets) by (unfold declared; rewrite EA; reflexivity).
      rewrite ED in HT. destruct rets as [|e0 rets]; [congruence|]. cbn [map] in HT. destruct HT as (bs & H1 & H2 & H3).
      cbn [covered] in HC. destruct HC as [_ HC].
      assert (HM : Forall2 (fun m' b => b = true <-> means L p n0 m') ms bs).
      { pose proof (HC ms) as HC'. clear - H1 HC' HCt HMI HP HNum HStar. specialize (fun m' => HC' m' HCt). clear HCt.
        induction H1 as [|m' b ms bs [y Hy] H1 IH]; constructor; [eapply outcome_means; eauto; apply HC'; left; auto|]. apply IH. intros; apply HC'; right; auto. }
      eapply rt_any with (ms := ms) (hits := map fst (filter snd (combine ms bs))); [exact HCt|reflexivity|apply kept_hits; exact HM| |].
      * eapply forall2_weaken; [|exact H3]. intros m' e HE'. eapply (element_record a'); eauto. apply sorted_distinct. exact HK.
      * rewrite H2. apply filter_combine. eapply forall2_length; eauto.
  - injection HP as <-. cbn in HT. destruct HT as [-> ->]. constructor.
  - injection HP as <-. cbn in HT. destruct HT as [-> ->]. constructor.
  - apply rmap_ok in HP. destruct HP as (c' & HP & ->). cbn [tree_outcome] in HT.
    pose proof (made_prepares L p _ _ HMD HP) as HPR. destruct (prepared_parts L _ _ _ _ _ _ HPR) as (v & k & _ & _ & _ & ER & _ & HA).
    apply leaf_extra in HT.
    assert (HAT : c_attr c' = "jsonpath" <-> starts "jsonpath:" (c_attr c)).
    { rewrite <- Leaf_proofs.starts_iff. destruct (has_prefix (c_attr c) "jsonpath:"); [tauto|]. split; [tauto|discriminate]. }
    inversion HMD as [| | | |cn ? HD HV]; subst. pose proof (accepted_fields _ _ _ HV) as (_ & _ & _ & EC & _).
    assert (RO : match r_orig (c_ret c) with Some rets => cn_ret cn = Some rets /\ r_paths (c_ret c) <> None | None => r_paths (c_ret c) = None end).
    { rewrite EC. unfold condition_from_node. destruct (cn_ret cn); cbn; auto. split; auto. discriminate. }
    destruct HT as [(E1 & -> & E2 & e & E3 & ->)|[H ->]].
    + destruct (r_orig (c_ret c)) as [rets|] eqn:EO; [|rewrite ER in E2; congruence].
      destruct RO as [RO _]. eapply rt_condition; [apply HB; auto|apply HAT; auto|exact EO|].
      eapply (condition_record cn c'); eauto. rewrite ER. exact EC.
    + destruct b; [|apply rt_condition_false; intro HX; apply HB in HX; discriminate].
      apply rt_plain; [apply HB; auto|]. destruct H as [H|[H|H]]; [left; rewrite <- HAT; auto|discriminate|].
      right. destruct (r_orig (c_ret c)); auto. rewrite ER in H. destruct RO as [_ RO]. congruence.
  - discriminate.
Qed.

(** ** The data is determined, up to the order of the elements of maps *)
Lemma found_unique rel path q m v v' : value_found L rel path q m v -> value_found L rel path q m v' -> v = v'.
Proof. intros H H'. destruct H, H'; try congruence. Qed.
Lemma condition_value_unique w m v v' : condition_value L w m v -> condition_value L w m v' -> v = v'.
Proof.
  intros (r & path & H1 & H2 & H3) (r' & path' & H1' & H2' & H3'). apply first_swapped_iff in H2, H2'. subst path path'.
  assert (r' = r) by (destruct r, r'; auto; [apply H1', H1|symmetry; apply H1, H1']; auto). subst r'. exact (found_unique _ _ _ _ _ _ H3 H3').
Qed.
Lemma element_value_unique w m v v' : element_value L w m v -> element_value L w m v' -> v = v'.
Proof.
  intros (r & q & H1 & H2 & H3) (r' & q' & H1' & H2' & H3'). subst w. cbn in H1'. injection H1' as <-. apply query_for_iff in H2, H2'. subst q q'. exact (found_unique _ _ _ _ _ _ H3 H3').
Qed.
Lemma record_unique (V : string -> message -> option iface -> Prop) m rets e e' : (forall w v v', V w m v -> V w m v' -> v = v') -> record V m rets e -> record V m rets e' -> e = e'.
Proof.
  intros HV H. revert e'. induction H as [|name w v rets e H1 H2 IH|name w rets e H1 H2 IH]; intros e' H'; inversion H'; subst; auto.
  - f_equal; [|auto]. f_equal. match goal with H : V w m (Some _) |- _ => pose proof (HV _ _ _ H1 H) as E end. congruence.
  - match goal with H : V w m None |- _ => pose proof (HV _ _ _ H1 H) as E end. discriminate.
  - match goal with H : V w m (Some _) |- _ => pose proof (HV _ _ _ H1 H) as E end. discriminate.
Qed.
Lemma kept_in {A} (P : A -> Prop) l k : kept P l k -> forall x, In x k <-> In x l /\ P x.
Proof.
  induction 1 as [|y l k H1 H2 IH|y l k H1 H2 IH]; intro x; cbn [In]; [tauto| |]; rewrite IH; intuition (subst; auto); tauto.
Qed.
Lemma kept_same {A} (P : A -> Prop) l k k' : kept P l k -> kept P l k' -> k = k'.
Proof. intro H. revert k'. induction H; intros k' H'; inversion H'; subst; auto; try tauto. f_equal; auto. Qed.
Lemma kept_perm {A} (P : A -> Prop) l l' k : Permutation l l' -> kept P l k -> exists k', kept P l' k' /\ Permutation k k'.
Proof.
  intro HP. revert k. induction HP as [|x l l' HP IH|x y l|l l' l'' HP1 IH1 HP2 IH2]; intros k H.
  - eauto.
  - inversion H as [|? ? k0 HX HK|? ? k0 HX HK]; subst; destruct (IH _ HK) as (k' & H1 & H2).
    + exists (x :: k'). split; [apply ke_in; auto|constructor; auto].
    + exists k'. split; [apply ke_out; auto|auto].
  - inversion H as [|? ? k0 HX HK|? ? k0 HX HK]; subst; inversion HK as [|? ? k1 HX' HK'|? ? k1 HX' HK']; subst.
    + eexists. split; [apply ke_in; [exact HX'|apply ke_in; [exact HX|exact HK']]|constructor].
    + eexists. split; [apply ke_out; [exact HX'|apply ke_in; [exact HX|exact HK']]|reflexivity].
    + eexists. split; [apply ke_in; [exact HX'|apply ke_out; [exact HX|exact HK']]|reflexivity].
    + eexists. split; [apply ke_out; [exact HX'|apply ke_out; [exact HX|exact HK']]|reflexivity].
  - destruct (IH1 _ H) as (k1 & H1 & H2). destruct (IH2 _ H1) as (k2 & H3 & H4). exists k2. split; auto. etransitivity; eauto.
Qed.
Lemma image_perm {A B} (R : A -> B -> Prop) l l' k k' : (forall x y y', R x y -> R x y' -> y = y') -> Permutation l l' -> Forall2 R l k -> Forall2 R l' k' -> Permutation k k'.
Proof.
  intros HU HP. revert k k'. induction HP as [|x l l' HP IH|x y l|l l' l'' HP1 IH1 HP2 IH2]; intros k k' H H'.
  - inversion H; inversion H'; subst. constructor.
  - inversion H; inversion H'; subst. match goal with H1 : R x _, H2 : R x _ |- _ => pose proof (HU _ _ _ H1 H2) as -> end. constructor. auto.
  - inversion H as [|? a ? k0 H1 HR]; inversion H' as [|? a' ? k0' H1' HR']; subst. inversion HR as [|? b ? k1 H2 HR1]; inversion HR' as [|? b' ? k1' H2' HR1']; subst.
    rewrite (HU _ _ _ H1 H2'), (HU _ _ _ H2 H1'). replace k1' with k1; [constructor|]. clear - HU HR1 HR1'. revert k1' HR1'. induction HR1; intros k' H'; inversion H'; subst; auto. f_equal; eauto.
  - assert (HX : exists k1, Forall2 R l' k1).
    { clear - HP1 H. revert k H. induction HP1 as [|x l l' HP IH|x y l|l l' l'' HP1 IH1 HP2 IH2]; intros k H; eauto.
      - inversion H; subst. destruct (IH _ H4) as (k1 & HK). eauto.
      - inversion H as [|? a ? k0 H1 HR]; subst. inversion HR as [|? b ? k1 H2 HR1]; subst. eauto.
      - destruct (IH1 _ H) as (k1 & HK). eauto. }
    destruct HX as (k1 & HK). etransitivity; [eapply IH1; eauto|eapply IH2; eauto].
Qed.
Lemma ranges_perm a a' m ms ms' : a_prep a = [] -> prepare_aa L a = Ok a' -> ranges_over L a m (Some ms) -> ranges_over L a m (Some ms') -> Permutation ms ms'.
Proof. intros HE HA H H'. apply (prepared_contexts L HStar _ _ _ _ HE HA) in H, H'. exact (contexts_perm L _ _ _ _ H H'). Qed.

Theorem returned_means n0 : made L n0 -> forall n m b x, prepare_node L p n0 = Ok n -> covered L p n0 m -> returned L p n0 m b x -> (b = true <-> means L p n0 m).
Proof.
  induction n0 as [ns IH|ns IH|n0 IH|q a n0 IH| | |c|] using node_ind'; intros HMD n m b x HP HC HT; cbn [prepare_node] in HP.
  - apply rmap_ok in HP. destruct HP as (ns' & HP & ->). apply rseq_map_ok in HP. inversion HMD as [? HF| | | |]; subst. clear HMD.
    cbn [covered] in HC. rewrite fold_and_in in HC. cbn [means]. rewrite fold_and_in.
    assert (HE : forall n0, In n0 ns -> forall b x, returned L p n0 m b x -> (b = true <-> means L p n0 m)).
    { clear HT b x. induction HP as [|y z ns ns' HXY HR IHR]; [intros ? []|]. inversion IH; inversion HF; subst. intros n1 [<-|HI] b x HT.
      - eapply H1; eauto. apply HC. left; auto.
      - eapply IHR; eauto. intros w HW. apply HC. right; auto. }
    inversion HT as [| | | | | |? ? xs ? HF2 HL|before k after ? xs y ? HF2 HK HL| | | | |]; subst.
    + split; auto. intros _ y HI. clear - HF2 HE HI. induction HF2 as [|u v ns xs H1 H2 IH]; [destruct HI|]. destruct HI as [<-|HI].
      * apply (HE u (or_introl eq_refl) _ _ H1). auto.
      * apply IH; auto. intros; eapply HE; eauto. right; auto.
    + split; [discriminate|]. intro HA. assert (HI : In k (before ++ k :: after)) by (apply in_elt). apply (HE _ HI _ _ HK). apply HA. exact HI.
  - inversion HT; subst; auto.
  - inversion HT; subst; auto.
  - apply rbind_ok in HP. destruct HP as (n' & HP & H). apply rbind_ok in H. destruct H as (a' & HA & H). injection H as <-.
    destruct q; [|inversion HT; subst; auto].
    assert (EP : a_prep a = []) by (inversion HMD; reflexivity). clear HMD.
    inversion HT as [| | | | | | | | |? ? ? ms rets hits ? ? HRg HO HK HRc HB|? ? ? ? HO HB|? ? ? HRg|]; subst; auto.
    + rewrite HB. cbn [means]. split.
      * intro HN. destruct hits as [|h hits]; [congruence|]. exists ms, h. pose proof (proj1 (kept_in _ _ _ HK h) (or_introl eq_refl)) as [H1 H2]. auto.
      * intros (ms' & m' & H1 & H2 & H3) ->. apply (proj2 (kept_in _ _ _ HK m')). split; auto. eapply Permutation_in; [|exact H2]. exact (ranges_perm _ _ _ _ _ EP HA H1 HRg).
    + split; [discriminate|]. cbn [means]. intros (ms' & m' & H1 & H2 & H3). exfalso. exact (ranges_error L HStar _ _ _ _ EP HA H1 HRg).
  - inversion HT; subst. cbn. tauto.
  - inversion HT; subst. cbn. split; [discriminate|tauto].
  - inversion HT; subst; tauto || (split; [discriminate|tauto]).
  - inversion HT.
Qed.

Lemma last_perm xs xs' x x' : Forall2 (@Permutation _) xs xs' -> last_non_empty xs x -> last_non_empty xs' x' -> Permutation x x'.
Proof.
  assert (HE : forall xs xs', Forall2 (@Permutation (list (string * iface))) xs xs' -> Forall (fun y => y = []) xs -> Forall (fun y => y = []) xs').
  { clear. induction 1 as [|y z l l' H1 H2 IH]; intro HF; inversion HF; subst; constructor; auto. apply Permutation_nil. auto. }
  assert (HS : forall xs xs', Forall2 (@Permutation (list (string * iface))) xs xs' -> Forall2 (@Permutation (list (string * iface))) xs' xs) by (clear; induction 1; constructor; auto; symmetry; auto).
  intros HP [[-> H1]|(N1 & b1 & a1 & -> & H1)] [[-> H2]|(N2 & b2 & a2 & E2 & H2)].
  - constructor.
  - exfalso. apply (HE _ _ HP) in H1. subst xs'. rewrite Forall_forall in H1. apply N2, H1. apply in_elt.
  - exfalso. apply (HE _ _ (HS _ _ HP)) in H2. rewrite Forall_forall in H2. apply N1, H2. apply in_elt.
  - apply Forall2_app_inv_l in HP. destruct HP as (c1 & c2 & HP1 & HP2 & ->). inversion HP2 as [|? y ? d HX HD]; subst. clear HP2. pose proof (HE _ _ HD H1) as HD'.
    assert (NY : y <> []) by (intros ->; apply N1; apply Permutation_nil; symmetry; auto). rewrite HX.
    assert (E : y = x'); [|subst; reflexivity]. clear - E2 H2 HD' N2 NY. revert b2 E2. induction c1 as [|u c1 IH]; intros [|w b2] E; cbn [app] in E.
    + congruence.
    + injection E as E1 E. exfalso. subst d. rewrite Forall_forall in HD'. apply N2, HD', in_elt.
    + injection E as E1 E. exfalso. subst a2. rewrite Forall_forall in H2. apply NY, H2, in_elt.
    + injection E as E1 E. eauto.
Qed.

Theorem returned_unique n0 : made L n0 -> forall n m b x b' x', prepare_node L p n0 = Ok n -> covered L p n0 m -> returned L p n0 m b x -> returned L p n0 m b' x' ->
  b = b' /\ Permutation x x'.
Proof.
  intros HMD n m b x b' x' HP HC HT HT'.
  assert (EB : b = b').
  { pose proof (returned_means _ HMD _ _ _ _ HP HC HT) as H1. pose proof (returned_means _ HMD _ _ _ _ HP HC HT') as H2. destruct b, b'; auto; [symmetry; apply H2, H1|apply H1, H2]; auto. }
  split; auto. subst b'. revert HMD n m b x x' HP HC HT HT'.
  induction n0 as [ns IH|ns IH|n0 IH|q a n0 IH| | |c|] using node_ind'; intros HMD n m b x x' HP HC HT HT'; cbn [prepare_node] in HP.
  - apply rmap_ok in HP. destruct HP as (ns' & HP & ->). apply rseq_map_ok in HP. inversion HMD as [? HF| | | |]; subst. clear HMD.
    cbn [covered] in HC. rewrite fold_and_in in HC.
    assert (HE : forall n0, In n0 ns -> (forall b x, returned L p n0 m b x -> (b = true <-> means L p n0 m)) /\ forall b x x', returned L p n0 m b x -> returned L p n0 m b x' -> Permutation x x').
    { clear HT HT' b x x'. induction HP as [|y z ns ns' HXY HR IHR]; [intros ? []|]. inversion IH; inversion HF; subst. intros n1 [<-|HI].
      - split; [intros; eapply returned_means; eauto; apply HC; left; auto|]. intros; eapply H1; eauto. apply HC. left; auto.
      - eapply IHR; eauto. intros w HW. apply HC. right; auto. }
    clear HP HC IH HF ns'.
    assert (HG : forall l xs xs', (forall n0, In n0 l -> In n0 ns) -> Forall2 (fun n y => returned L p n m true y) l xs -> Forall2 (fun n y => returned L p n m true y) l xs' -> Forall2 (@Permutation _) xs xs').
    { intros l xs xs' HI H. revert xs'. induction H as [|u v l xs H1 H2 IH]; intros xs' H'; inversion H'; subst; constructor; [eapply HE; eauto; apply HI; left; auto|apply IH; auto; intros; apply HI; right; auto]. }
    inversion HT as [| | | | | |? ? xs ? HF2 HL|before k after ? xs y ? HF2 HK HL| | | | |]; subst;
    inversion HT' as [| | | | | |? ? xs' ? HF2' HL'|before' k' after' ? xs' y' ? HF2' HK' HL' E'| | | | |]; subst.
    + eapply last_perm; [|exact HL|exact HL']. eapply HG; eauto.
    + assert (HB : before' = before /\ k' = k).
      { clear HG HL HL' HT HT'. revert before' E' xs' HF2' xs HF2 HE. induction before as [|u before IH]; intros [|u' before'] E' xs' HF2' xs HF2 HE; cbn [app] in E'.
        - injection E' as -> _. auto.
        - injection E' as -> _. exfalso. inversion HF2'; subst. destruct (HE k (or_introl eq_refl)) as [HM _]. apply HM in H1, HK. assert (false = true) by (apply HK, H1; auto). discriminate.
        - injection E' as -> _. exfalso. inversion HF2; subst. destruct (HE u (or_introl eq_refl)) as [HM _]. apply HM in H1, HK'. assert (false = true) by (apply HK', H1; auto). discriminate.
        - injection E' as -> E'. inversion HF2 as [|? ? ? ? _ G1]; inversion HF2' as [|? ? ? ? _ G2]; subst. destruct (IH _ E' _ G2 _ G1) as [-> ->]; [intros; apply HE; right; auto|auto]. }
      destruct HB as [-> ->]. eapply last_perm; [|exact HL|exact HL']. apply Forall2_app.
      * eapply (HG before); [intros n0 HI; apply in_or_app; auto|exact HF2|exact HF2'].
      * constructor; [|constructor]. eapply (proj2 (HE k (in_elt _ _ _))); eauto.
  - apply rmap_ok in HP. destruct HP as (ns' & HP & ->). apply rseq_map_ok in HP. inversion HMD as [|? HF| | |]; subst. clear HMD.
    cbn [covered] in HC. rewrite fold_and_in in HC.
    assert (HE : forall n0, In n0 ns -> (forall b x, returned L p n0 m b x -> (b = true <-> means L p n0 m)) /\ forall b x x', returned L p n0 m b x -> returned L p n0 m b x' -> Permutation x x').
    { clear HT HT' b x x'. induction HP as [|y z ns ns' HXY HR IHR]; [intros ? []|]. inversion IH; inversion HF; subst. intros n1 [<-|HI].
      - split; [intros; eapply returned_means; eauto; apply HC; left; auto|]. intros; eapply H1; eauto. apply HC. left; auto.
      - eapply IHR; eauto. intros w HW. apply HC. right; auto. }
    clear HP HC IH HF ns'. inversion HT as [| | | | | | | |? ? xs ? HF2 HB| | | |]; subst. inversion HT' as [| | | | | | | |? ? xs' ? HF2' HB'| | | |]; subst.
    clear HB HB' HT HT'. revert xs' HF2'. induction HF2 as [|u v l xs H1 H2 IH]; intros xs' H'; inversion H' as [|? v' ? xs'' H1' H2']; subst; [constructor|]. cbn [List.concat].
    apply Permutation_app; [|apply IH; auto; intros; apply HE; right; auto]. destruct (HE u (or_introl eq_refl)) as [HM HU].
    destruct H1 as [H1|[H1 ->]], H1' as [H1'|[H1' ->]]; eauto; exfalso; [apply H1', (HM _ _ H1)|apply H1, (HM _ _ H1')]; auto.
  - inversion HT; inversion HT'; subst. constructor.
  - apply rbind_ok in HP. destruct HP as (n' & HP & H). apply rbind_ok in H. destruct H as (a' & HA & H). injection H as <-.
    assert (EP : a_prep a = []) by (inversion HMD; reflexivity). clear HMD.
    inversion HT as [| | | | | | | | |? ? ? ms rets hits ? ? HRg HO HK HRc HB|? ? ? ? HO HB|? ? ? HRg|]; subst; inversion HT' as [| | | | | | | | |? ? ? ms' rets' hits' ? ? HRg' HO' HK' HRc' HB'|? ? ? ? HO' HB'|? ? ? HRg'|]; subst; try congruence; try constructor.
    + assert (rets' = rets) by congruence. subst rets'. pose proof (ranges_perm _ a' m ms ms' EP HA HRg HRg') as HPm.
      destruct (kept_perm _ _ _ _ HPm HK) as (k & HK1 & HK2). pose proof (kept_same _ _ _ _ HK1 HK') as ->.
      eapply image_perm; [|exact HK2|exact HRc|exact HRc']. intros m' e e' H1 H2. eapply record_unique; [|exact H1|exact H2]. intros; eapply element_value_unique; eauto.
    + exfalso. exact (ranges_error L HStar _ _ _ _ EP HA HRg HRg').
    + exfalso. exact (ranges_error L HStar _ _ _ _ EP HA HRg' HRg).
  - inversion HT; inversion HT'; subst. constructor.
  - inversion HT; inversion HT'; subst. constructor.
  - inversion HT as [? ? rets e H1 H2 H3 H4| | | | | | | | | | | |]; inversion HT' as [? ? rets' e' H1' H2' H3' H4'| | | | | | | | | | | |]; subst; try reflexivity; try tauto; try discriminate;
    try (exfalso; match goal with H : _ \/ _ |- _ => destruct H; [tauto|congruence] end).
    assert (rets' = rets) by congruence. subst rets'. rewrite (record_unique _ _ _ _ _ (fun w v v' => condition_value_unique w m v v') H4 H4'). reflexivity.
  - inversion HT.
Qed.

(** ** Rules *)
Hypothesis HRegex : RegexSpec L.
Hypothesis HCidr : CidrSpec L.
Hypothesis HRel : forall rest, jp_prepare L ("$RELATIVE" ++ rest) = None.

Lemma tree_evaluated n n' m ord t : fair ord -> loaded_tree L n -> prepare_node L p n = Ok n' -> covered L p n m ->
  exists b x e, eval L ord n' (mkEst m t) = (Some (b, x), e) /\ returned L p n m b x.
Proof.
  intros HF HL HP HC. destruct (eval L ord n' (mkEst m t)) as [[[b x]|] e] eqn:E.
  - exists b, x, e. split; auto. eapply tree_returned; eauto; [apply loaded_made; auto|exact (proj1 HL)|]. apply eval_outcome in E; auto. exact (proj2 E).
  - exfalso. apply (tree_no_panic L HNum HStar p n n' m HRel (loaded_made _ _ HL) HP HC). exists ord, t, e. auto.
Qed.

Theorem prepared_extra ord r c m t d x e : fair ord -> rule_covered L p r m -> prepare_rule L p r = Ok c ->
  check_prepared L ord c (mkEst m t) = (Some (d, x), e) -> verdict L p r m d -> rule_returned L p r m x.
Proof.
  intros HF HC HP HE HV. destruct HC as [HU HS HR HO HEX HT].
  assert (HV' : ru_converted r = false) by (destruct HU as (_ & _ & _ & _ & E); exact E).
  destruct (rule_result L ord c m t d x e (prepared_ready L HCidr p r c HV' HP) HE) as (R0 & _ & R2).
  destruct HV as [[HA HW]|[HN ->]]; [|right; auto].
  assert (ND : d <> 0) by (destruct HW as [[-> _]|[[-> _]|[-> _]]]; discriminate).
  destruct (R2 ND) as [_ HX]. left. split; auto. split; [eauto|]. pose proof (prepared_rule_tree L p _ _ HP) as TR. unfold conditions_hold in HX.
  destruct (ru_tree r) as [n|] eqn:ET; [|rewrite TR in HX; exact HX]. destruct TR as (n' & E1 & E2). rewrite E1 in HX. destruct (HT n eq_refl) as [HL HCv].
  destruct (tree_evaluated n n' m ord t HF HL E2 HCv) as (b & y & e' & E3 & HRt). rewrite E3 in HX. injection HX as -> ->. exact HRt.
Qed.

Theorem loaded_extra ord r m t : fair ord -> ascii_message m -> good_rule L p r m ->
  exists d x s e, check_one_rule L ord p (load_rule L r) (mkEst m t) = (Some ((d, x), s), e) /\ verdict L p r m d /\ rule_returned L p r m x.
Proof.
  intros HF HA [HC [c HP]].
  assert (FT : faithful_tree L (ru_tree r)).
  { destruct (ru_tree r) as [n|] eqn:ET; [|exact I]. apply loaded_faithful. apply (rc_tree _ _ _ _ HC n ET). }
  destruct (rule_copied L ord r HF (rc_new _ _ _ _ HC) FT t) as [t' E].
  destruct (prepared_verdict L HRegex HCidr HNum HStar HRel p ord r c m t' HF HA HC HP) as (d & x & e & HE & HV).
  exists d, x. unfold check_one_rule, mbind, ensure_prepared, set_predefined. cbn [load_rule rs_rule rs_ready e_tick e_msg]. rewrite E, HP. cbn [rs_prepared].
  rewrite HE. eexists _, _. split; [reflexivity|]. split; [exact HV|]. eapply prepared_extra; eauto.
Qed.
Lemma run_extra ord rules m t : fair ord -> ascii_message m -> (forall r, In r rules -> good_rule L p r m) ->
  exists xs e, run_rules L ord p (map (load_rule L) rules) (mkEst m t) = (Some xs, e) /\ Forall2 (fun r x => rule_returned L p r m (snd x)) rules xs.
Proof.
  intros HF HA. revert t. induction rules as [|r rules IH]; intros t HG; cbn [map run_rules].
  - exists [], (mkEst m t). split; [reflexivity|constructor].
  - destruct (loaded_extra ord r m t HF HA (HG r (or_introl eq_refl))) as (d & x & s & e & E & _ & HV).
    pose proof (check_one_rule_msg L ord p _ _ _ _ E) as EM. cbn in EM. destruct e as [m' t']. cbn in EM. subst m'.
    destruct (IH t' (fun r H => HG r (or_intror H))) as (xs & e & E2 & HX). exists ((d, x) :: xs), e. split; [|constructor; auto].
    unfold mbind. rewrite E. rewrite E2. reflexivity.
Qed.
Theorem check_extra ord rules m t : fair ord -> ascii_message m -> (forall r, In r rules -> good_rule L p r m) ->
  exists o e, check L ord p (map (load_rule L) rules) (mkEst m t) = (Some o, e) /\ Forall2 (fun r x => rule_returned L p r m x) rules (out_extra o).
Proof.
  intros HF HA HG. destruct (run_extra ord rules m t HF HA HG) as (xs & e & E & HX).
  exists (summarise L (map (load_rule L) rules) xs), e. split; [unfold check, mbind; rewrite E; reflexivity|].
  cbn [summarise out_extra]. clear - HX. induction HX; constructor; auto.
Qed.

(** ** TestConditions: only the conditions; false without conditions *)
Theorem tested_extra ord r m t : fair ord -> good_rule L p r m ->
  exists b x s e, test_conditions L ord p (load_rule L r) (mkEst m t) = (Some ((b, x), s), e) /\
    match ru_tree r with None => b = false /\ x = [] | Some n => returned L p n m b x end.
Proof.
  intros HF [HC [c HP]].
  assert (FT : faithful_tree L (ru_tree r)).
  { destruct (ru_tree r) as [n|] eqn:ET; [|exact I]. apply loaded_faithful. apply (rc_tree _ _ _ _ HC n ET). }
  destruct (rule_copied L ord r HF (rc_new _ _ _ _ HC) FT t) as [t' E]. pose proof (prepared_rule_tree L p _ _ HP) as TR.
  unfold test_conditions, mbind, ensure_prepared, set_predefined. cbn [load_rule rs_rule rs_ready e_tick e_msg]. rewrite E, HP. cbn [rs_prepared].
  destruct (ru_tree r) as [n|] eqn:ET.
  - destruct TR as (n' & E1 & E2). rewrite E1. destruct (rc_tree _ _ _ _ HC n ET) as [HL HCv].
    destruct (tree_evaluated n n' m ord t' HF HL E2 HCv) as (b & x & e & E3 & HR). rewrite E3. cbn. eexists b, x, _, _. split; [reflexivity|exact HR].
  - rewrite TR. cbn. eexists false, [], _, _. split; [reflexivity|auto].
Qed.

(** a condition's return value of the current element, on parsed documents *)
Lemma relative_null m rest v : m_raw m <> None -> condition_value L ("jsonpath:$RELATIVE" ++ rest) m v -> v = Some GNil.
Proof.
  intros HM (rel & path & _ & HS & HV). apply first_swapped_iff in HS. subst path.
  assert (E : replace_first ("jsonpath:$RELATIVE" ++ rest) "jsonpath:$" "$" = "$RELATIVE" ++ rest) by exact (replace_first_app "jsonpath:$" "$" ("RELATIVE" ++ rest)). rewrite E in HV.
  rewrite HRel in HV. destruct HV; congruence || discriminate || auto.
Qed.
End WithLib.
