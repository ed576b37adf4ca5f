(** Proofs about the decision layer. *)
From Coq Require Import List String Ascii Bool Arith ZArith Permutation Sorted Lia.
From Verif Require Import Base GoStr GoStr_facts GoFloat Types Json StrUtils Validate Prepare Parse Marshal
  Lifecycle Eval Check Spec_Tree Spec_Extra Tree_proofs Tree_truth Spec_Decision.
Import ListNotations.
Open Scope string_scope.

(** ** The scan over the results *)
Fixpoint applied_from (i : nat) (rs : list nat) : list nat :=
  match rs with
  | [] => []
  | r :: rs' => if (0 <? r)%nat then i :: applied_from (S i) rs' else applied_from (S i) rs'
  end.

Lemma scan_applied rs : forall ds i a, List.length ds = List.length rs ->
  s_applied (scan_results i (combine rs ds) a) = (s_applied a ++ applied_from i rs)%list.
Proof.
  induction rs as [|r rs IH]; intros [|d ds] i a HL; try discriminate; simpl.
  - rewrite app_nil_r; auto.
  - rewrite IH by (injection HL; auto). unfold DEFAULT.
    destruct (Nat.ltb 0 r); simpl.
    + destruct (Nat.ltb (s_max a) r); simpl; rewrite <- app_assoc; auto.
    + destruct (Nat.ltb (s_max a) r); auto.
Qed.

Lemma scan_max rs : forall ds i a, List.length ds = List.length rs ->
  s_max (scan_results i (combine rs ds) a) = fold_right Nat.max (s_max a) rs.
Proof.
  assert (F : forall rs a b, fold_right Nat.max (Nat.max a b) rs = Nat.max b (fold_right Nat.max a rs)).
  { clear. induction rs; simpl; intros; [lia|]. rewrite IHrs. lia. }
  induction rs as [|r rs IH]; intros [|d ds] i a HL; try discriminate; simpl; auto.
  rewrite IH by (injection HL; auto).
  rewrite <- F. f_equal.
  destruct (Nat.ltb DEFAULT r); simpl; destruct (Nat.ltb_spec (s_max a) r); simpl; lia.
Qed.

Lemma applied_from_ge rs : forall i j, In j (applied_from i rs) -> (i <= j)%nat.
Proof.
  induction rs as [|r rs IH]; simpl; intros i j H; [tauto|].
  destruct (Nat.ltb 0 r); [destruct H as [->|H]; [lia|]|]; apply IH in H; lia.
Qed.

Lemma applied_from_sorted rs : forall i, StronglySorted lt (applied_from i rs).
Proof.
  induction rs as [|r rs IH]; simpl; intro i; [constructor|].
  destruct (Nat.ltb 0 r); auto. constructor; auto.
  apply Forall_forall. intros j Hj. apply applied_from_ge in Hj. lia.
Qed.

Lemma applied_from_in rs : forall i j, In j (applied_from i rs) <->
  (i <= j)%nat /\ exists r, nth_error rs (j - i) = Some r /\ r <> 0.
Proof.
  induction rs as [|r rs IH]; simpl; intros i j.
  - split; [tauto|]. intros [_ (r & H & _)]. destruct (j - i)%nat; discriminate.
  - assert (HS : In j (applied_from (S i) rs) <-> (S i <= j)%nat /\ exists q, nth_error (r :: rs) (j - i) = Some q /\ q <> 0).
    { rewrite IH. split; intros [Hle (q & Hq & Hn)]; (split; [lia|]); exists q; (split; [|auto]).
      - replace (j - i)%nat with (S (j - S i)) by lia. auto.
      - replace (j - i)%nat with (S (j - S i)) in Hq by lia. auto. }
    destruct (Nat.ltb_spec 0 r) as [Hr|Hr]; simpl; rewrite HS; split.
    + intros [->|[Hle HE]]; (split; [lia|]); auto. rewrite Nat.sub_diag. exists r. simpl. split; auto. lia.
    + intros [Hle HE]. destruct (Nat.eq_dec i j); auto. right; split; auto; lia.
    + intros [Hle HE]; split; auto; lia.
    + intros [Hle (q & Hq & Hn)]. split; [|eauto]. destruct (Nat.eq_dec i j) as [->|]; [|lia].
      rewrite Nat.sub_diag in Hq. simpl in Hq. injection Hq; intros. lia.
Qed.

(** index and description *)
Definition located (all : list nat) (ds : list string) (a : scan) : Prop :=
  if (s_max a =? 0)%nat then s_index a = (-1)%Z /\ s_desc a = ""
  else exists j, s_index a = Z.of_nat j /\ first_with all (s_max a) j /\ nth_error ds j = Some (s_desc a).

Lemma scan_located rs : forall ds i a all allds,
  List.length ds = List.length rs ->
  (exists p pd, all = (p ++ rs)%list /\ allds = (pd ++ ds)%list /\ List.length p = i /\ List.length pd = i /\
     Forall (fun r => (r <= s_max a)%nat) p) ->
  located all allds a -> located all allds (scan_results i (combine rs ds) a).
Proof.
  induction rs as [|r rs IH]; intros [|d ds] i a all allds HL (p & pd & Hall & Hds & Hp & Hpd & HM) HI;
    try discriminate; simpl; auto.
  set (a1 := if (DEFAULT <? r)%nat then mkScan (s_max a) (s_desc a) (s_index a) (s_applied a ++ [i])%list else a).
  assert (E1 : s_max a1 = s_max a /\ s_desc a1 = s_desc a /\ s_index a1 = s_index a).
  { unfold a1. destruct (DEFAULT <? r)%nat; auto. }
  destruct E1 as (E1 & E2 & E3).
  apply IH; [injection HL; auto| |].
  - exists (p ++ [r])%list, (pd ++ [d])%list. rewrite <- !app_assoc, !app_length. simpl. repeat split; auto; try lia.
    apply Forall_app. split.
    + eapply Forall_impl; [|exact HM]. simpl. intros x Hx.
      destruct (Nat.ltb_spec (s_max a1) r); simpl; lia.
    + constructor; auto. destruct (Nat.ltb_spec (s_max a1) r); simpl; lia.
  - destruct (Nat.ltb_spec (s_max a1) r) as [Hlt|Hge].
    + unfold located. simpl. destruct (Nat.eqb_spec r 0); [lia|].
      exists i. split; auto. split.
      * split.
        -- subst all. rewrite nth_error_app2 by lia. rewrite Hp, Nat.sub_diag. auto.
        -- intros j Hj. subst all. rewrite nth_error_app1 by lia. intro HE.
           apply nth_error_In in HE. rewrite Forall_forall in HM. apply HM in HE. lia.
      * subst allds. rewrite nth_error_app2 by lia. rewrite Hpd, Nat.sub_diag. auto.
    + unfold located in *. rewrite E1, E2, E3. auto.
Qed.

Section Decision.
Variable L : Lib.

(** ** Running the rules *)
Lemma check_prepared_msg ord r s x s' : check_prepared L ord r s = (Some x, s') -> e_msg s' = e_msg s.
Proof.
  unfold check_prepared. intro H. minv.
  repeat match goal with
  | H : (if ?b then _ else _) _ = (Some _, _) |- _ => destruct b; minv; auto
  | H : (let (_, _) := ?p in _) _ = (Some _, _) |- _ => destruct p
  end.
  - destruct (ru_tree r); minv; auto. eapply eval_restores; eauto.
  - destruct (ru_tree r); minv; auto. eapply eval_restores; eauto.
  - destruct (ru_tree r); minv; auto. eapply eval_restores; eauto.
Qed.

Lemma ensure_prepared_msg ord g s e s' e' : ensure_prepared L ord g s e = (Some s', e') -> e_msg e' = e_msg e.
Proof.
  unfold ensure_prepared. destruct (rs_ready s).
  - intro H; injection H; intros; subst; auto.
  - destruct (set_predefined L ord g s (e_tick e)) as [[[] s1] t]; intro H; try discriminate;
    injection H; intros; subst; auto.
Qed.

Lemma check_one_rule_msg ord g s e x e' : check_one_rule L ord g s e = (Some x, e') -> e_msg e' = e_msg e.
Proof.
  unfold check_one_rule. intro H. minv. apply ensure_prepared_msg in H0.
  destruct (rs_prepared a); minv. apply check_prepared_msg in H1. congruence.
Qed.

(** results of CheckOneRule on the same message, one per rule *)
Definition run_alone ord g m (s : rstate L) (x : nat * extra) : Prop :=
  exists t s' e', check_one_rule L ord g s (mkEst m t) = (Some (x, s'), e').

Lemma run_rules_ok ord g rules : forall e xs e', run_rules L ord g rules e = (Some xs, e') ->
  e_msg e' = e_msg e /\ Forall2 (run_alone ord g (e_msg e)) rules xs.
Proof.
  induction rules as [|s rules IH]; simpl; intros e xs e' H; minv; auto.
  destruct a as [x s1]. minv. pose proof (check_one_rule_msg _ _ _ _ _ _ H0) as E.
  apply IH in H1. destruct H1 as [E2 HF]. split; [congruence|]. constructor.
  - exists (e_tick e), s1, s0. rewrite <- est_eta. auto.
  - rewrite <- E. auto.
Qed.

Lemma run_rules_total ord g rules : forall e,
  fst (run_rules L ord g rules e) = None <->
  exists before s after xs e1 e2, rules = (before ++ s :: after)%list /\
    run_rules L ord g before e = (Some xs, e1) /\ check_one_rule L ord g s e1 = (None, e2).
Proof.
  induction rules as [|s rules IH]; simpl; intro e.
  - split; [discriminate|]. intros ([|] & s & after & xs & e1 & e2 & H & _); discriminate.
  - unfold mbind at 1. destruct (check_one_rule L ord g s e) as [[[x s1]|] e1] eqn:E1.
    + split.
      * intro H. assert (HN : fst (run_rules L ord g rules e1) = None).
        { unfold mbind in H. destruct (run_rules L ord g rules e1) as [[]]; [discriminate|auto]. }
        apply IH in HN. destruct HN as (bf & s2 & af & xs & e2 & e3 & -> & HR & HC).
        exists (s :: bf), s2, af, (x :: xs), e2, e3. simpl. split; auto. split; auto.
        unfold mbind at 1. rewrite E1. unfold mbind at 1. rewrite HR. auto.
      * intros (bf & s2 & af & xs & e2 & e3 & HE & HR & HC).
        destruct bf as [|s3 bf]; simpl in HE; injection HE; intros; subst.
        -- simpl in HR. minv. congruence.
        -- simpl in HR. unfold mbind at 1 in HR. rewrite E1 in HR.
           apply mbind_some in HR. destruct HR as (ys & e4 & HR & HM). minv.
           unfold mbind. assert (HN : fst (run_rules L ord g (bf ++ s2 :: af) e1) = None).
           { apply IH. exists bf, s2, af, ys, e4, e3. auto. }
           destruct (run_rules L ord g (bf ++ s2 :: af) e1) as [[]]; [discriminate|auto].
    + split; auto. intros _. exists [], s, rules, [], e, e1. simpl. auto.
Qed.

Lemma decision_of_word s d : d <> 0 -> (decision_of s = d <-> decision_word s d).
Proof.
  intro Hd. unfold decision_of, decision_word, ALLOW, ALERT, BLOCK, DEFAULT.
  destruct (is_any s ["allow"; "ALLOW"; "Allow"]) eqn:E1.
  { apply is_any_iff in E1. simpl in E1. split; [intuition auto|].
    intros [[-> _]|[[-> H]|[-> H]]]; auto; intuition congruence. }
  apply is_any_false in E1. simpl in E1.
  destruct (is_any s ["alert"; "ALERT"; "Alert"]) eqn:E2.
  { apply is_any_iff in E2. simpl in E2. split; [intuition auto|].
    intros [[-> H]|[[-> H]|[-> H]]]; auto; intuition congruence. }
  apply is_any_false in E2. simpl in E2.
  destruct (is_any s ["block"; "BLOCK"; "Block"]) eqn:E3.
  { apply is_any_iff in E3. simpl in E3. split; [intuition auto|].
    intros [[-> H]|[[-> H]|[-> H]]]; auto; intuition congruence. }
  apply is_any_false in E3. simpl in E3.
  split; [congruence|]. intuition congruence.
Qed.

Lemma decision_of_le s : (decision_of s <= 3)%nat.
Proof.
  unfold decision_of, ALLOW, ALERT, BLOCK, DEFAULT.
  destruct (is_any s ["allow"; "ALLOW"; "Allow"]), (is_any s ["alert"; "ALERT"; "Alert"]),
    (is_any s ["block"; "BLOCK"; "Block"]); lia.
Qed.

Lemma check_prepared_le ord r s x s' : check_prepared L ord r s = (Some x, s') -> (fst x <= 3)%nat.
Proof.
  unfold check_prepared. intro H. minv.
  repeat match goal with
  | H : (if ?b then _ else _) _ = (Some _, _) |- _ => destruct b; minv; simpl; unfold DEFAULT; auto with arith
  | H : (let (_, _) := ?p in _) _ = (Some _, _) |- _ => destruct p
  end.
  apply decision_of_le.
Qed.

Lemma check_one_rule_le ord g s e x e' : check_one_rule L ord g s e = (Some x, e') -> (fst (fst x) <= 3)%nat.
Proof.
  unfold check_one_rule. intro H. minv. destruct (rs_prepared a); minv. simpl.
  eapply check_prepared_le; eauto.
Qed.

Lemma fold_max_in rs : In (fold_right Nat.max 0 rs) rs \/ fold_right Nat.max 0 rs = 0.
Proof.
  induction rs as [|r rs IH]; simpl; auto.
  destruct (Nat.max_spec r (fold_right Nat.max 0 rs)) as [[H ->]|[H ->]]; auto. tauto.
Qed.
Lemma fold_max_ge rs r : In r rs -> (r <= fold_right Nat.max 0 rs)%nat.
Proof. induction rs; simpl; [tauto|]. intros [->|H]; [lia|]. apply IHrs in H. lia. Qed.

Lemma fold_max_strictest rs : Forall (fun r => (r <= 3)%nat) rs ->
  decision_is_strictest rs (fold_right Nat.max 0 rs).
Proof.
  intro HB. set (d := fold_right Nat.max 0 rs).
  assert (Hge : forall r, In r rs -> (r <= d)%nat) by (intros; apply fold_max_ge; auto).
  assert (Hd : (d <= 3)%nat).
  { destruct (fold_max_in rs) as [H|H]; fold d in H; [|lia]. rewrite Forall_forall in HB. auto. }
  unfold decision_is_strictest.
  destruct (fold_max_in rs) as [H|H]; fold d in H.
  - destruct d as [|[|[|[|]]]]; try lia.
    + right; right; right. split; auto. apply Forall_forall. intros r Hr. apply Hge in Hr. lia.
    + right; right; left. repeat split; auto; intro K; apply Hge in K; lia.
    + right; left. repeat split; auto; intro K; apply Hge in K; lia.
    + left; auto.
  - right; right; right. split; auto. apply Forall_forall. intros r Hr. apply Hge in Hr. lia.
Qed.

Lemma strictest_unique rs d d' : decision_is_strictest rs d -> decision_is_strictest rs d' -> d = d'.
Proof.
  assert (Z0 : Forall (fun r => r = 0) rs -> forall k, In k rs -> k = 0).
  { rewrite Forall_forall; auto. }
  unfold decision_is_strictest. intros H H'.
  destruct H as [[-> ?]|[(-> & ? & ?)|[(-> & ? & ? & ?)|(-> & HZ)]]];
  destruct H' as [[-> ?]|[(-> & ? & ?)|[(-> & ? & ? & ?)|(-> & HZ')]]]; auto; try tauto;
  exfalso;
  repeat match goal with
  | HH : Forall _ rs, HI : In _ rs |- _ => apply (Z0 HH) in HI; discriminate
  end.
Qed.

Lemma strictest_max rs d : Forall (fun r => (r <= 3)%nat) rs ->
  (decision_is_strictest rs d <-> d = fold_right Nat.max 0 rs).
Proof.
  intro HB. split.
  - intro H. eapply strictest_unique; eauto. apply fold_max_strictest; auto.
  - intros ->. apply fold_max_strictest; auto.
Qed.

Lemma check_inv ord g rules m t o e' : check L ord g rules (mkEst m t) = (Some o, e') ->
  exists xs, Forall2 (run_alone ord g m) rules xs /\ e_msg e' = m /\
    Forall (fun r => (r <= 3)%nat) (map fst xs) /\ o = summarise L rules xs.
Proof.
  unfold check. intro H. minv. pose proof (run_rules_ok _ _ _ _ _ _ H0) as [E HF].
  exists a. repeat split; auto. rewrite Forall_map_iff. clear - HF.
  induction HF; constructor; auto. destruct H as (t1 & s' & e & H). apply check_one_rule_le in H. auto.
Qed.

Lemma summarise_max rules xs : List.length xs = List.length rules ->
  out_decision (summarise L rules xs) = fold_right Nat.max 0 (map fst xs).
Proof. intro HL. unfold summarise. simpl. rewrite scan_max; auto. rewrite !map_length; auto. Qed.

Lemma Forall2_length' {A B} (P : A -> B -> Prop) l l' : Forall2 P l l' -> List.length l' = List.length l.
Proof. induction 1; simpl; auto. Qed.

Lemma Forall2_map_r {A B C} (f : B -> C) (P : A -> C -> Prop) l l' :
  Forall2 (fun a b => P a (f b)) l l' -> Forall2 P l (map f l').
Proof. induction 1; simpl; constructor; auto. Qed.

Theorem check_decision ord g rules m t o e' : check L ord g rules (mkEst m t) = (Some o, e') ->
  List.length (out_results o) = List.length rules /\
  Forall2 (fun s r => exists x t' s' e1, check_one_rule L ord g s (mkEst m t') = (Some ((r, x), s'), e1))
    rules (out_results o) /\
  decision_is_strictest (out_results o) (out_decision o) /\
  decision_name (out_decision o) (out_string o).
Proof.
  intro H. destruct (check_inv _ _ _ _ _ _ _ H) as (xs & HF & _ & HB & ->).
  assert (HL := Forall2_length' _ _ _ HF).
  assert (HS : decision_is_strictest (out_results (summarise L rules xs)) (out_decision (summarise L rules xs))).
  { rewrite summarise_max by auto. apply fold_max_strictest. auto. }
  repeat split; auto.
  - simpl. rewrite map_length; auto.
  - simpl. apply Forall2_map_r. eapply Forall2_imp; [|exact HF].
    intros s [r x] (t' & s' & e1 & H1). exists x, t', s', e1. auto.
  - unfold decision_name. simpl in *.
    set (d := s_max _) in *.
    destruct HS as [[E _]|[(E & _)|[(E & _)|(E & _)]]]; rewrite E; simpl; tauto.
Qed.

Theorem check_extra ord g rules m t o e' : check L ord g rules (mkEst m t) = (Some o, e') ->
  Forall2 (fun s rx => exists t' s' e1, check_one_rule L ord g s (mkEst m t') = (Some (rx, s'), e1))
    rules (combine (out_results o) (out_extra o)).
Proof.
  intro H. destruct (check_inv _ _ _ _ _ _ _ H) as (xs & HF & _ & HB & ->). simpl.
  replace (combine (map fst xs) (map snd xs)) with xs; auto.
  clear. induction xs as [|[a b] xs IH]; simpl; congruence.
Qed.

Definition description_of (s : rstate L) (d : string) : Prop :=
  assoc "description" (ru_metadata (rs_rule s)) = Some d \/
  (assoc "description" (ru_metadata (rs_rule s)) = None /\ d = "").

Theorem check_relevant ord g rules m t o e' : check L ord g rules (mkEst m t) = (Some o, e') ->
  (out_decision o = 0 -> out_index o = (-1)%Z /\ out_desc o = "") /\
  (out_decision o <> 0 -> exists i s, out_index o = Z.of_nat i /\ nth_error rules i = Some s /\
     first_with (out_results o) (out_decision o) i /\ description_of s (out_desc o)).
Proof.
  intro H. destruct (check_inv _ _ _ _ _ _ _ H) as (xs & HF & _ & HB & ->).
  assert (HL := Forall2_length' _ _ _ HF).
  assert (HI : located (map fst xs) (map (description L) rules)
     (scan_results 0 (combine (map fst xs) (map (description L) rules)) (mkScan DEFAULT "" (-1)%Z []))).
  { apply scan_located.
    - rewrite !map_length; auto.
    - exists [], []. repeat split; auto.
    - unfold located. simpl. auto. }
  unfold located in HI. simpl. split; intro HD.
  - rewrite HD in HI. simpl in HI. auto.
  - destruct (Nat.eqb_spec (s_max (scan_results 0 (combine (map fst xs) (map (description L) rules))
      (mkScan DEFAULT "" (-1)%Z []))) 0) as [E|E]; [contradiction|].
    destruct HI as (j & HJ & HFi & HDs).
    apply nth_error_map_inv in HDs || (rewrite nth_error_map in HDs).
    destruct (nth_error rules j) as [s|] eqn:ES; [|discriminate].
    exists j, s. repeat split; auto; try apply HFi. simpl in HDs. injection HDs; intro HE. rewrite <- HE.
    unfold description_of, description. destruct (assoc _ _); auto.
Qed.

Theorem check_applied ord g rules m t o e' : check L ord g rules (mkEst m t) = (Some o, e') ->
  enumerates_applied (out_results o) (out_applied o).
Proof.
  intro H. destruct (check_inv _ _ _ _ _ _ _ H) as (xs & HF & _ & HB & ->).
  assert (HL := Forall2_length' _ _ _ HF). simpl.
  rewrite scan_applied by (rewrite !map_length; auto). simpl. split.
  - apply applied_from_sorted.
  - intro i. rewrite applied_from_in. rewrite Nat.sub_0_r. split; [tauto|]. intro; split; auto; lia.
Qed.

Theorem check_message ord g rules m t o e' : check L ord g rules (mkEst m t) = (Some o, e') -> e_msg e' = m.
Proof. intro H. destruct (check_inv _ _ _ _ _ _ _ H) as (xs & _ & HM & _). auto. Qed.

Theorem check_panics_iff ord g rules e :
  fst (check L ord g rules e) = None <->
  exists before s after xs e1 e2, rules = (before ++ s :: after)%list /\
    run_rules L ord g before e = (Some xs, e1) /\ check_one_rule L ord g s e1 = (None, e2).
Proof.
  rewrite <- run_rules_total. unfold check, mbind. destruct (run_rules L ord g rules e) as [[]]; simpl; split; auto; discriminate.
Qed.

(** ** Composition of rule lists *)

(** the results a rule may have on a message, over all iteration orders *)
Definition possible_result (g : predef) (m : message) (s : rstate L) (r : nat) : Prop :=
  exists ord t x s' e, fair ord /\ check_one_rule L ord g s (mkEst m t) = (Some ((r, x), s'), e).
Definition determined (g : predef) (m : message) (s : rstate L) : Prop :=
  forall r r', possible_result g m s r -> possible_result g m s r' -> r = r'.

Lemma check_results_possible ord g rules m t o e' : fair ord ->
  check L ord g rules (mkEst m t) = (Some o, e') -> Forall2 (possible_result g m) rules (out_results o).
Proof.
  intros HF H. apply check_decision in H. destruct H as (_ & H & _).
  eapply Forall2_imp; [|exact H]. intros s r (x & t' & s' & e1 & HC). exists ord, t', x, s', e1. auto.
Qed.

Lemma Forall2_in_r {A B} (P : A -> B -> Prop) l l' b : Forall2 P l l' -> In b l' -> exists a, In a l /\ P a b.
Proof. induction 1; simpl; [tauto|]. intros [->|HI]; eauto. destruct (IHForall2 HI) as (a & ? & ?); eauto. Qed.
Lemma Forall2_in_l {A B} (P : A -> B -> Prop) l l' a : Forall2 P l l' -> In a l -> exists b, In b l' /\ P a b.
Proof. induction 1; simpl; [tauto|]. intros [->|HI]; eauto. destruct (IHForall2 HI) as (b & ? & ?); eauto. Qed.

Lemma incl_results g m rules rules' rs rs' :
  (forall s, In s rules -> determined g m s) ->
  Forall2 (possible_result g m) rules rs -> Forall2 (possible_result g m) rules' rs' ->
  incl rules rules' -> incl rs rs'.
Proof.
  intros HD H H' HI r Hr. destruct (Forall2_in_r _ _ _ _ H Hr) as (s & Hs & HP).
  destruct (Forall2_in_l _ _ _ _ H' (HI _ Hs)) as (r' & Hr' & HP').
  rewrite (HD s Hs r r'); auto.
Qed.

Lemma fold_max_incl rs rs' : incl rs rs' -> (fold_right Nat.max 0 rs <= fold_right Nat.max 0 rs')%nat.
Proof.
  intro H. destruct (fold_max_in rs) as [HI|HI]; [|lia]. apply fold_max_ge. auto.
Qed.

Lemma decision_fold ord g rules m t o e' : check L ord g rules (mkEst m t) = (Some o, e') ->
  out_decision o = fold_right Nat.max 0 (out_results o).
Proof.
  intro H. destruct (check_inv _ _ _ _ _ _ _ H) as (xs & HF & _ & HB & ->).
  rewrite summarise_max; auto. apply Forall2_length' in HF. auto.
Qed.

Lemma out_string_decision ord g rules m t o e' : check L ord g rules (mkEst m t) = (Some o, e') ->
  out_string o = nth (out_decision o) decision_names "".
Proof. intro H. destruct (check_inv _ _ _ _ _ _ _ H) as (xs & _ & _ & _ & ->). auto. Qed.

(** adding rules anywhere never weakens the decision *)
Theorem check_monotone ord ord' g rules rules' m t t' o o' e e' :
  fair ord -> fair ord' -> (forall s, In s rules -> determined g m s) -> incl rules rules' ->
  check L ord g rules (mkEst m t) = (Some o, e) -> check L ord' g rules' (mkEst m t') = (Some o', e') ->
  (out_decision o <= out_decision o')%nat.
Proof.
  intros HF HF' HD HI H H'. rewrite (decision_fold _ _ _ _ _ _ _ H), (decision_fold _ _ _ _ _ _ _ H').
  apply fold_max_incl. apply (incl_results g m rules rules'); auto.
  - exact (check_results_possible _ _ _ _ _ _ _ HF H).
  - exact (check_results_possible _ _ _ _ _ _ _ HF' H').
Qed.

(** only the set of rules matters *)
Theorem check_same_rules ord ord' g rules rules' m t t' o o' e e' :
  fair ord -> fair ord' -> (forall s, In s rules -> determined g m s) ->
  (forall s, In s rules <-> In s rules') ->
  check L ord g rules (mkEst m t) = (Some o, e) -> check L ord' g rules' (mkEst m t') = (Some o', e') ->
  out_decision o = out_decision o' /\ out_string o = out_string o'.
Proof.
  intros HF HF' HD HI H H'.
  assert (E : out_decision o = out_decision o').
  { apply Nat.le_antisymm.
    - eapply check_monotone; [exact HF|exact HF'|exact HD| |exact H|exact H']. intros s Hs; apply HI; auto.
    - eapply check_monotone; [exact HF'|exact HF| | |exact H'|exact H].
      + intros s Hs. apply HD, HI; auto.
      + intros s Hs; apply HI; auto. }
  split; auto. rewrite (out_string_decision _ _ _ _ _ _ _ H), (out_string_decision _ _ _ _ _ _ _ H'), E. auto.
Qed.

Lemma fold_max_app rs rs' : fold_right Nat.max 0 (rs ++ rs') =
  Nat.max (fold_right Nat.max 0 rs) (fold_right Nat.max 0 rs').
Proof. induction rs; simpl; auto. rewrite IHrs. lia. Qed.

Lemma determined_results g m rules rs rs' :
  (forall s, In s rules -> determined g m s) ->
  Forall2 (possible_result g m) rules rs -> Forall2 (possible_result g m) rules rs' -> rs = rs'.
Proof.
  intros HD H. revert rs'. induction H; intros rs' H'; inversion H'; subst; auto.
  f_equal; [apply (HD x); simpl; auto|apply IHForall2; auto; intros; apply HD; simpl; auto].
Qed.

(** the decision on a concatenation is the stricter of the two *)
Theorem check_append ord1 ord2 ord3 g rules1 rules2 m t1 t2 t3 o1 o2 o3 e1 e2 e3 :
  fair ord1 -> fair ord2 -> fair ord3 ->
  (forall s, In s (rules1 ++ rules2)%list -> determined g m s) ->
  check L ord1 g rules1 (mkEst m t1) = (Some o1, e1) ->
  check L ord2 g rules2 (mkEst m t2) = (Some o2, e2) ->
  check L ord3 g (rules1 ++ rules2)%list (mkEst m t3) = (Some o3, e3) ->
  out_decision o3 = Nat.max (out_decision o1) (out_decision o2) /\
  out_results o3 = (out_results o1 ++ out_results o2)%list.
Proof.
  intros HF1 HF2 HF3 HD H1 H2 H3.
  assert (E : out_results o3 = (out_results o1 ++ out_results o2)%list).
  { apply (determined_results g m (rules1 ++ rules2)%list); auto.
    - exact (check_results_possible _ _ _ _ _ _ _ HF3 H3).
    - apply Forall2_app.
      + exact (check_results_possible _ _ _ _ _ _ _ HF1 H1).
      + exact (check_results_possible _ _ _ _ _ _ _ HF2 H2). }
  split; auto. rewrite (decision_fold _ _ _ _ _ _ _ H1), (decision_fold _ _ _ _ _ _ _ H2), (decision_fold _ _ _ _ _ _ _ H3), E.
  apply fold_max_app.
Qed.

(** checking twice gives the same answer *)
Theorem check_repeat ord ord' g rules m t t' o o' e e' :
  fair ord -> fair ord' -> (forall s, In s rules -> determined g m s) ->
  check L ord g rules (mkEst m t) = (Some o, e) -> check L ord' g rules (mkEst m t') = (Some o', e') ->
  out_decision o = out_decision o' /\ out_string o = out_string o' /\ out_index o = out_index o' /\
  out_results o = out_results o' /\ out_applied o = out_applied o' /\ out_desc o = out_desc o'.
Proof.
  intros HF HF' HD H H'.
  assert (E : out_results o = out_results o').
  { apply (determined_results g m rules); auto.
    - exact (check_results_possible _ _ _ _ _ _ _ HF H).
    - exact (check_results_possible _ _ _ _ _ _ _ HF' H'). }
  destruct (check_inv _ _ _ _ _ _ _ H) as (xs & _ & _ & _ & ->).
  destruct (check_inv _ _ _ _ _ _ _ H') as (xs' & _ & _ & _ & ->).
  simpl in E |- *. rewrite E. repeat split; reflexivity.
Qed.


(** ** One rule *)

(** sender, receiver, operation and resource, in the order they are tested *)
Definition static_part (r : rule L) (m : message) : option bool :=
  match test_sender L r m with
  | Some true =>
    match test_receiver L r m with
    | Some true =>
      match match_regex L (ru_operation_regex r) (m_method m) with
      | Some true => test_resource L r m
      | x => x
      end
    | x => x
    end
  | x => x
  end.

Lemma check_prepared_eq ord r m t :
  check_prepared L ord r (mkEst m t) =
  match static_part r m with
  | None => (None, mkEst m t)
  | Some false => (Some (0, []), mkEst m t)
  | Some true =>
    match (match ru_tree r with None => (Some (true, []), mkEst m t) | Some n => eval L ord n (mkEst m t) end) with
    | (None, e) => (None, e)
    | (Some (false, _), e) => (Some (0, []), e)
    | (Some (true, x), e) =>
      (Some (if (decision_of (ru_decision r) =? 0)%nat then (0, []) else (decision_of (ru_decision r), x)), e)
    end
  end.
Proof.
  unfold check_prepared, static_part, mbind, mmsg, mopt, mret. simpl.
  destruct (test_sender L r m) as [[]|]; simpl; auto.
  destruct (test_receiver L r m) as [[]|]; simpl; auto.
  destruct (match_regex L (ru_operation_regex r) (m_method m)) as [[]|]; simpl; auto.
  destruct (test_resource L r m) as [[]|]; simpl; auto.
  destruct (ru_tree r) as [n|].
  - destruct (eval L ord n (mkEst m t)) as [[[[] x]|] e]; simpl; auto.
    unfold DEFAULT. destruct (decision_of (ru_decision r)); auto.
  - simpl. unfold DEFAULT. destruct (decision_of (ru_decision r)); auto.
Qed.

(** a prepared rule whose tree is unambiguous has one result *)
Theorem prepared_determined g m s r : rs_ready s = true -> rs_prepared s = Some r ->
  (forall n, ru_tree r = Some n -> unambiguous L (contexts L) n m) -> determined g m s.
Proof.
  intros HR HP HU d d' (ord & t & x & s1 & e & HF & H) (ord' & t' & x' & s1' & e' & HF' & H').
  unfold check_one_rule, ensure_prepared in *. unfold mbind at 1 in H. unfold mbind at 1 in H'.
  rewrite HR in *. rewrite HP in *. minv. rewrite check_prepared_eq in *.
  destruct (static_part r m) as [[]|]; minv; auto; try discriminate.
  destruct (ru_tree r) as [n|].
  - destruct (eval L ord n (mkEst m t)) as [[[b y]|] e1] eqn:E1; [|discriminate].
    destruct (eval L ord' n (mkEst m t')) as [[[b' y']|] e2] eqn:E2; [|destruct b; discriminate].
    assert (b = b') by (eapply eval_order_independent with (ord := ord) (ord' := ord'); eauto). subst b'.
    destruct b; minv; auto. destruct (decision_of (ru_decision r) =? 0)%nat; minv; auto; try congruence.
  - destruct (decision_of (ru_decision r) =? 0)%nat; minv; auto; try congruence.
Qed.

End Decision.
