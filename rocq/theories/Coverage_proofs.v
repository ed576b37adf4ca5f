(** Proofs about the coverage report. *)
From Coq Require Import List String Ascii Bool Arith ZArith Sorted Lia.
From Verif Require Import Base GoStr GoFloat Types Json StrUtils Validate Prepare Parse Marshal Lifecycle Eval Check
  Spec_Decision Check_proofs Lifecycle_proofs Spec_Coverage.
Import ListNotations.
Open Scope string_scope.

Section WithLib.
Variable L : Lib.
Notation rstate := (rstate L).
Definition ids_of (rules : list rstate) : list string := map (fun s => ru_id (rs_rule s)) rules.

Lemma rule_id_at_ids rules i : (i < List.length rules)%nat -> nth_error (ids_of rules) i = Some (rule_id_at L rules i).
Proof.
  intro H. unfold ids_of, rule_id_at. rewrite nth_error_map. destruct (nth_error rules i) eqn:E; auto.
  apply nth_error_None in E. lia.
Qed.

(** ** Applied rules and their results *)
Lemma non_default_applied rs : forall pre, Forall2 (fun i d => nth_error (pre ++ rs) i = Some d) (applied_from (List.length pre) rs) (non_default rs).
Proof.
  induction rs as [|r rs IH]; intro pre; simpl; [constructor|].
  specialize (IH (pre ++ [r])%list). rewrite <- app_assoc, app_length in IH. cbn [List.length app] in IH. rewrite Nat.add_1_r in IH.
  destruct r; cbn [Nat.eqb negb DEFAULT]; auto. constructor; auto. rewrite nth_error_app2, Nat.sub_diag by auto. auto.
Qed.

Lemma applied_inv ord g rules m t o e : check L ord g rules (mkEst m t) = (Some o, e) ->
  out_applied o = applied_from 0 (out_results o) /\ List.length (out_results o) = List.length rules.
Proof.
  intro H. destruct (check_inv L _ _ _ _ _ _ _ H) as (xs & HF & _ & _ & ->). assert (HL := Forall2_length' _ _ _ HF). simpl.
  rewrite scan_applied by (rewrite !map_length; auto). rewrite map_length. auto.
Qed.
Lemma applied_bound rs i : In i (applied_from 0 rs) -> (i < List.length rs)%nat.
Proof.
  intro H. apply applied_from_in in H. destruct H as [_ (r & E & _)]. rewrite Nat.sub_0_r in E.
  apply nth_error_Some. congruence.
Qed.

Definition run_entry (rules : list rstate) (o : outcome) : msg_coverage :=
  mkCov (negb (Nat.eqb (out_decision o) DEFAULT)) (out_decision o) (map (rule_id_at L rules) (out_applied o)) (non_default (out_results o)).
Lemma entry_describes ord g rules m t o e : check L ord g rules (mkEst m t) = (Some o, e) -> describes_run (ids_of rules) o (run_entry rules o).
Proof.
  intro H. destruct (applied_inv _ _ _ _ _ _ _ H) as [HA HL]. unfold describes_run, run_entry. cbn [cov_covered cov_decision cov_ids cov_decisions].
  repeat split.
  - unfold DEFAULT. destruct (out_decision o); simpl; congruence.
  - unfold DEFAULT. destruct (out_decision o); simpl; congruence.
  - assert (HB : forall i, In i (out_applied o) -> (i < List.length rules)%nat) by (intro i; rewrite HA; intro Hi; apply applied_bound in Hi; lia).
    clear HA. induction (out_applied o); constructor; [apply rule_id_at_ids|apply IHl]; intros; apply HB; simpl; auto.
  - rewrite HA. apply (non_default_applied (out_results o) []).
Qed.

(** ** The entries of the rules *)
Lemma append_at_assoc k x rc id : assoc id (append_at k x rc) =
  if String.eqb id k then Some ((match assoc k rc with Some l => l | None => [] end) ++ [x])%list else assoc id rc.
Proof. unfold append_at. apply assoc_upsert. Qed.
Lemma append_all x l : forall rc id old, assoc id rc = Some old ->
  assoc id (fold_left (fun rc k => append_at k x rc) l rc) = Some (old ++ repeat x (List.length (filter (String.eqb id) l)))%list.
Proof.
  induction l as [|k l IH]; intros rc id old E; cbn [fold_left filter].
  - simpl. rewrite app_nil_r. auto.
  - destruct (String.eqb_spec id k) as [<-|N].
    + rewrite (IH _ _ (old ++ [x])%list).
      * cbn [List.length repeat]. rewrite <- app_assoc. auto.
      * rewrite append_at_assoc, String.eqb_refl, E. auto.
    + apply IH. rewrite append_at_assoc. destruct (String.eqb_spec id k); [congruence|auto].
Qed.
Lemma append_all_none x l : forall rc id, assoc id rc = None -> ~ In id l -> assoc id (fold_left (fun rc k => append_at k x rc) l rc) = None.
Proof.
  induction l as [|k l IH]; intros rc id E HI; cbn [fold_left]; auto. apply IH; [|simpl in HI; tauto].
  rewrite append_at_assoc. destruct (String.eqb_spec id k); auto. subst. simpl in HI. tauto.
Qed.
Lemma initial_entries rules : forall rc id, assoc id (fold_left (fun rc (s : rstate) => upsert (ru_id (rs_rule s)) ([] : list string) rc) rules rc) =
  if existsb (String.eqb id) (ids_of rules) then Some [] else assoc id rc.
Proof.
  induction rules as [|s rules IH]; intros rc id; cbn [fold_left]; auto. rewrite IH. unfold ids_of. cbn [map existsb].
  destruct (existsb _ _); [rewrite orb_true_r; auto|]. rewrite orb_false_r, assoc_upsert. destruct (String.eqb id _); auto.
Qed.

Lemma filter_sorted f l : StronglySorted lt l -> StronglySorted lt (filter f l).
Proof.
  induction 1; simpl; [constructor|]. destruct (f a); auto. constructor; auto. rewrite Forall_forall in *. intros x Hx.
  apply filter_In in Hx. apply H0. tauto.
Qed.
Lemma entry_contributes ord g rules m t o e id : check L ord g rules (mkEst m t) = (Some o, e) ->
  contributes (ids_of rules) id (m, o) (repeat (m_id m) (List.length (filter (String.eqb id) (map (rule_id_at L rules) (out_applied o))))).
Proof.
  intro H. destruct (applied_inv _ _ _ _ _ _ _ H) as [HA HL].
  assert (HB : forall i, In i (out_applied o) -> (i < List.length rules)%nat) by (intro i; rewrite HA; intro Hi; apply applied_bound in Hi; lia).
  exists (filter (fun i => String.eqb id (rule_id_at L rules i)) (out_applied o)). cbn [fst snd]. split; [|split].
  - apply filter_sorted. rewrite HA. apply applied_from_sorted.
  - intro i. rewrite filter_In. split.
    + intros [Hi E]. split; auto. rewrite rule_id_at_ids by auto. apply String.eqb_eq in E. congruence.
    + intros [Hi E]. split; auto. rewrite rule_id_at_ids in E by auto. injection E as E. apply String.eqb_eq. congruence.
  - f_equal. clear. induction (out_applied o); simpl; auto. destruct (String.eqb _ _); simpl; auto.
Qed.

(** ** The whole report *)
Definition ran (ord : order) (g : predef) (rules : list rstate) (m : message) (o : outcome) : Prop :=
  exists t e, check L ord g rules (mkEst m t) = (Some o, e).

Lemma last_cons id r runs o : last_with id (r :: runs) o <->
  last_with id runs o \/ (snd r = o /\ m_id (fst r) = id /\ Forall (fun r => m_id (fst r) <> id) runs).
Proof.
  split.
  - intros (before & m & after & E & H1 & H2). destruct before as [|b before].
    + simpl in E. injection E as -> ->. right. auto.
    + simpl in E. injection E as -> ->. left. exists before, m, after. auto.
  - intros [(before & m & after & -> & H1 & H2)|(H1 & H2 & H3)].
    + exists (r :: before), m, after. auto.
    + destruct r as [m o']. simpl in *. subst. exists [], m, runs. auto.
Qed.

Lemma coverage_loop_ok ord g rules ms : forall t mc rc mc' rc', coverage_loop L ord g rules ms t mc rc = Some (mc', rc') ->
  exists os, Forall2 (ran ord g rules) ms os /\
  (forall id, (assoc id mc' = assoc id mc /\ Forall (fun m => m_id m <> id) ms) \/
     exists o c, assoc id mc' = Some c /\ last_with id (combine ms os) o /\ describes_run (ids_of rules) o c) /\
  (forall id old, assoc id rc = Some old -> exists parts, assoc id rc' = Some (old ++ List.concat parts)%list /\
     Forall2 (contributes (ids_of rules) id) (combine ms os) parts) /\
  (forall id, assoc id rc = None -> ~ In id (ids_of rules) -> assoc id rc' = None).
Proof.
  induction ms as [|m ms IH]; intros t mc rc mc' rc' H; cbn [coverage_loop] in H.
  - injection H as <- <-. exists []. split; [constructor|]. split; [auto|]. split; auto.
    intros id old E. exists []. simpl. rewrite app_nil_r. split; auto.
  - destruct (check L ord g rules (mkEst m t)) as [[o|] e] eqn:EC; [|discriminate].
    destruct (IH _ _ _ _ _ H) as (os & HF & HM & HR & HN). exists (o :: os). split; [constructor; [exists t, e|]; auto|]. cbn [combine]. split; [|split].
    + intro id. destruct (HM id) as [[E HD]|(o' & c & E & HL & HD)].
      * rewrite assoc_upsert in E. destruct (String.eqb_spec id (m_id m)) as [EI|N].
        -- right. exists o, (run_entry rules o). split; auto. split; [|eapply entry_describes; exact EC].
           apply last_cons. right. repeat split; auto. apply Forall_forall. intros [m' o'] Hr. apply in_combine_l in Hr.
           rewrite Forall_forall in HD. apply HD. auto.
        -- left. split; auto.
      * right. exists o', c. repeat split; auto. apply last_cons. auto. apply HD. apply HD. apply HD. apply HD. apply HD.
    + intros id old E. destruct (HR id _ (append_all (m_id m) _ _ _ _ E)) as (parts & E' & HP).
      exists (repeat (m_id m) (List.length (filter (String.eqb id) (map (rule_id_at L rules) (out_applied o)))) :: parts). split.
      * cbn [List.concat]. rewrite app_assoc. auto.
      * constructor; auto. eapply entry_contributes; eauto.
    + intros id E HI. apply HN; auto. apply append_all_none; auto. intro Hin. apply HI.
      apply in_map_iff in Hin. destruct Hin as (i & <- & Hi). apply (nth_error_In _ i). apply rule_id_at_ids.
      destruct (applied_inv _ _ _ _ _ _ _ EC) as [HA HL]. rewrite HA in Hi. apply applied_bound in Hi. lia.
Qed.

Theorem coverage_ok ord g rules ms t mc rc : coverage L ord g rules ms t = Some (mc, rc) ->
  exists os, Forall2 (ran ord g rules) ms os /\
  (forall id c, assoc id mc = Some c -> exists o, last_with id (combine ms os) o /\ describes_run (ids_of rules) o c) /\
  (forall id, assoc id mc = None <-> Forall (fun m => m_id m <> id) ms) /\
  (forall id, In id (ids_of rules) -> exists parts, assoc id rc = Some (List.concat parts) /\
     Forall2 (contributes (ids_of rules) id) (combine ms os) parts) /\
  (forall id, ~ In id (ids_of rules) -> assoc id rc = None).
Proof.
  unfold coverage. intro H. destruct (coverage_loop_ok _ _ _ _ _ _ _ _ _ H) as (os & HF & HM & HR & HN). exists os. split; auto. split; [|split; [|split]].
  - intros id c E. destruct (HM id) as [[E' _]|(o & c' & E' & HL & HD)]; [simpl in E'; congruence|]. assert (c' = c) by congruence. subst. eauto.
  - intro id. destruct (HM id) as [[E' HA]|(o & c' & E' & HL & HD)]; [tauto|]. split; [congruence|]. intro HA. exfalso.
    destruct HL as (before & m & after & E & EI & _). rewrite Forall_forall in HA. apply (HA m); auto.
    assert (HI : In (m, o) (combine ms os)) by (rewrite E; apply in_elt). apply in_combine_l in HI. auto.
  - intros id HI. assert (HE : existsb (String.eqb id) (ids_of rules) = true) by (apply existsb_exists; exists id; rewrite String.eqb_refl; auto).
    destruct (HR id []) as (parts & E & HP); [rewrite initial_entries, HE; auto|]. eauto.
  - intros id HI. apply HN; auto. rewrite initial_entries. destruct (existsb (String.eqb id) (ids_of rules)) eqn:E; auto.
    apply existsb_exists in E. destruct E as (x & Hx & EX). apply String.eqb_eq in EX. subst. tauto.
Qed.

Theorem coverage_listed ord g rules ms t mc rc : coverage L ord g rules ms t = Some (mc, rc) ->
  exists os, Forall2 (ran ord g rules) ms os /\ forall id l, assoc id rc = Some l -> forall mid, In mid l <->
    exists m o i s, In (m, o) (combine ms os) /\ m_id m = mid /\ In i (out_applied o) /\ nth_error rules i = Some s /\ ru_id (rs_rule s) = id.
Proof.
  intro H. destruct (coverage_ok _ _ _ _ _ _ _ H) as (os & HF & _ & _ & HR & HN). exists os. split; auto.
  intros id l E mid. assert (HI : In id (ids_of rules)).
  { destruct (in_dec string_dec id (ids_of rules)); auto. rewrite HN in E by auto. discriminate. }
  destruct (HR _ HI) as (parts & E' & HP). rewrite E in E'. injection E' as ->. rewrite in_concat. split.
  - intros (part & Hp & Hm). destruct (Forall2_in_r _ _ _ _ HP Hp) as ([m o] & HC & is & _ & HS & ->).
    apply repeat_spec in Hm as Hm'. cbn [fst snd] in *. destruct is as [|i is]; [destruct Hm|].
    destruct (proj1 (HS i) (or_introl eq_refl)) as [Hi Hn]. unfold ids_of in Hn. rewrite nth_error_map in Hn.
    destruct (nth_error rules i) as [s|] eqn:ES; [|discriminate]. injection Hn as Hn. exists m, o, i, s. auto.
  - intros (m & o & i & s & HC & <- & Hi & ES & <-). destruct (Forall2_in_l _ _ _ _ HP HC) as (part & Hp & is & _ & HS & ->).
    cbn [fst snd] in *. eexists. split; [exact Hp|]. assert (HIn : In i is).
    { apply HS. split; auto. unfold ids_of. rewrite nth_error_map, ES. auto. }
    destruct is; [destruct HIn|]. simpl. auto.
Qed.

(** no report exactly when some Check after completed ones panics *)
Theorem coverage_none ord g rules ms : forall t mc rc, coverage_loop L ord g rules ms t mc rc = None -> exists m t', In m ms /\ fst (check L ord g rules (mkEst m t')) = None.
Proof.
  induction ms as [|m ms IH]; intros t mc rc H; cbn [coverage_loop] in H; [discriminate|].
  destruct (check L ord g rules (mkEst m t)) as [[o|] e] eqn:EC.
  - destruct (IH _ _ _ H) as (m' & t' & HI & E). exists m', t'. simpl. auto.
  - exists m, t. rewrite EC. simpl. auto.
Qed.
End WithLib.
