(** Dictionaries and the life of a rule object. *)
From Coq Require Import List String Ascii Bool Arith ZArith Lia Permutation.
From Verif Require Import Base GoStr GoStr_facts GoFloat Types Json StrUtils Validate Prepare Parse Marshal Lifecycle Eval Check
  Spec_Tree Match_proofs Spec_Leaf Leaf_proofs Spec_Validate Validate_proofs Prepare_proofs Spec_Lifecycle.
Import ListNotations.
Open Scope string_scope.
Local Arguments String.prefix : simpl never.

(** ** Dictionaries *)
Definition item strings s : option string := if has_prefix s "#" then assoc (replace_first s "#" "") strings else Some s.
Lemma item_iff strings s v : item strings s = Some v <-> item_resolved strings s v.
Proof.
  unfold item. destruct (has_prefix s "#") eqn:E.
  - apply has_prefix_iff in E. destruct E as [x E]. change (s = String "#" x) in E. subst s. rewrite (replace_first_head "#" x "").
    change ("" ++ x) with x. split.
    + intro H. eapply ir_string; eauto. reflexivity.
    + intro H. inversion H as [N|y w Ey EA]; subst; [destruct N; exists x; reflexivity|]. injection Ey; intros <-. auto.
  - apply starts_false in E. split; [intro H; injection H; intros <-; apply ir_plain; auto|].
    intro H. inversion H; subst; auto. destruct E. eexists; reflexivity.
Qed.
Lemma item_none strings s : item strings s = None <-> unresolvable strings s.
Proof.
  unfold item, unresolvable. destruct (has_prefix s "#") eqn:E.
  - apply has_prefix_iff in E. destruct E as [x E]. change (s = String "#" x) in E. subst s. rewrite (replace_first_head "#" x "").
    change ("" ++ x) with x. split; [intro H; exists x; auto|]. intros (y & Ey & EA). injection Ey; intros <-. auto.
  - apply starts_false in E. split; [discriminate|]. intros (y & -> & _). destruct E. eexists; reflexivity.
Qed.

Lemma resolve_list_some strings l l' : resolve_list strings l = Some l' <-> Forall2 (item_resolved strings) l l'.
Proof.
  revert l'. induction l as [|s l IH]; intro l'; cbn [resolve_list].
  - split; [intro H; injection H; intros <-; auto|]. intro H. inversion H; auto.
  - fold (item strings s). split.
    + destruct (item strings s) as [x|] eqn:E; [|discriminate]. destruct (resolve_list strings l) as [m|]; [|discriminate].
      simpl. intro H. injection H; intros <-. constructor; [apply item_iff; auto|apply IH; auto].
    + intro H. inversion H as [|? x ? m H1 H2]; subst. apply item_iff in H1. rewrite H1. apply IH in H2. rewrite H2. auto.
Qed.
Lemma resolve_list_none strings l : resolve_list strings l = None <-> exists s, In s l /\ unresolvable strings s.
Proof.
  induction l as [|s l IH]; cbn [resolve_list].
  - split; [discriminate|]. intros (? & [] & _).
  - fold (item strings s). pose proof (item_none strings s) as HI. destruct (item strings s) as [x|].
    + destruct (resolve_list strings l) as [m|]; simpl.
      * split; [discriminate|]. intros (y & [<-|H] & U); [apply HI in U; discriminate|]. assert (Some m = None) by (apply IH; eauto). discriminate.
      * split; auto. intros _. destruct (proj1 IH eq_refl) as (y & H1 & H2). exists y. split; [right; auto|auto].
    + split; auto. intros _. exists s. split; [left; auto|]. apply HI. auto.
Qed.

Lemma assoc_upsert {A} k k' (a : A) l : assoc k (upsert k' a l) = if String.eqb k k' then Some a else assoc k l.
Proof.
  induction l as [|(x, b) l IH]; cbn [upsert assoc].
  - auto.
  - destruct (String.eqb k' x) eqn:E; cbn [assoc].
    + apply String.eqb_eq in E. subst x. destruct (String.eqb k k'); auto.
    + rewrite IH. destruct (String.eqb k x) eqn:E2; auto. apply String.eqb_eq in E2. subst x.
      destruct (String.eqb k k') eqn:E3; auto. apply String.eqb_eq in E3. subst. rewrite String.eqb_refl in E. discriminate.
Qed.

Lemma resolve_lists_some strings ls r : resolve_lists strings ls = Some r ->
  forall name, match assoc name ls, assoc name r with
               | Some l, Some l' => Forall2 (item_resolved strings) l l'
               | None, None => True
               | _, _ => False
               end.
Proof.
  revert r. induction ls as [|(k, l) ls IH]; intros r H name; cbn [resolve_lists] in H.
  - injection H; intros <-. simpl. auto.
  - destruct (resolve_list strings l) as [x|] eqn:E; [|discriminate]. destruct (resolve_lists strings ls) as [r'|] eqn:E2; [|discriminate].
    injection H; intros <-. cbn [assoc]. destruct (String.eqb name k).
    + apply resolve_list_some. auto.
    + apply IH. auto.
Qed.
Lemma resolve_lists_none strings ls : resolve_lists strings ls = None <->
  exists name l s, In (name, l) ls /\ In s l /\ unresolvable strings s.
Proof.
  induction ls as [|(k, l) ls IH]; cbn [resolve_lists].
  - split; [discriminate|]. intros (? & ? & ? & [] & _).
  - pose proof (resolve_list_none strings l) as HL. destruct (resolve_list strings l) as [x|].
    + destruct (resolve_lists strings ls) as [r|]; simpl.
      * split; [discriminate|]. intros (name & m & s & [E|HI] & H1 & H2).
        -- injection E; intros; subst. assert (Some x = None) by (apply HL; eauto). discriminate.
        -- assert (Some r = None) by (apply IH; eauto 6). discriminate.
      * split; auto. intros _. destruct (proj1 IH eq_refl) as (name & m & s & H1 & H2). exists name, m, s. auto.
    + split; auto. intros _. destruct (proj1 HL eq_refl) as (s & H1 & H2). exists k, l, s. simpl. auto.
Qed.

Theorem dictionary_resolved p : 
  (validate_predef p = Err <-> bad_list p) /\
  (~ bad_list p -> exists v, validate_predef p = Ok v /\ resolved_form p v).
Proof.
  unfold validate_predef. destruct (resolve_lists (p_strings p) (p_lists p)) as [r|] eqn:E.
  - split.
    + split; [discriminate|]. intro H. apply resolve_lists_none in H. congruence.
    + intros _. eexists. split; [reflexivity|]. split; [auto|]. split; [auto|]. simpl. apply resolve_lists_some. auto.
  - pose proof (proj1 (resolve_lists_none _ _) E) as HB. split; [split; auto|]. intro N. destruct N. exact HB.
Qed.

Lemma assoc_in {A} k (a : A) l : assoc k l = Some a -> In (k, a) l.
Proof.
  induction l as [|(x, b) l IH]; simpl; [discriminate|]. destruct (String.eqb k x) eqn:E.
  - intro H. injection H; intros ->. apply String.eqb_eq in E. subst. auto.
  - auto.
Qed.
Lemma in_assoc {A} k (a : A) l : NoDup (keys l) -> In (k, a) l -> assoc k l = Some a.
Proof.
  induction l as [|(x, b) l IH]; simpl; [tauto|]. intro HN. inversion HN as [|? ? H1 H2]; subst. intros [E|HI].
  - injection E; intros; subst. rewrite String.eqb_refl. auto.
  - destruct (String.eqb k x) eqn:E; auto. apply String.eqb_eq in E. subst. destruct H1. apply in_map_iff. exists (x, a). auto.
Qed.

Lemma resolve_visiting_some strings ls ks : forall acc r, resolve_visiting strings ls ks acc = Some r ->
  forall name, (In name ks -> exists l', assoc name r = Some l' /\ Forall2 (item_resolved strings) (match assoc name ls with Some l => l | None => [] end) l') /\
               (~ In name ks -> assoc name r = assoc name acc).
Proof.
  induction ks as [|k ks IH]; intros acc r H name; cbn [resolve_visiting] in H.
  - injection H; intros <-. simpl. tauto.
  - destruct (resolve_list strings _) as [x|] eqn:E; [|discriminate]. destruct (IH _ _ H name) as [H1 H2]. split.
    + intro HI. destruct (in_dec string_dec name ks) as [HK|HK]; [auto|]. destruct HI as [->|HI]; [|tauto].
      rewrite H2, assoc_upsert, String.eqb_refl by auto. exists x. split; auto. apply resolve_list_some. auto.
    + intro HI. simpl in HI. rewrite H2, assoc_upsert by tauto. destruct (String.eqb name k) eqn:EK; auto. apply String.eqb_eq in EK. subst. tauto.
Qed.
Lemma resolve_visiting_none strings ls ks : forall acc, resolve_visiting strings ls ks acc = None <->
  exists name, In name ks /\ exists s, In s (match assoc name ls with Some l => l | None => [] end) /\ unresolvable strings s.
Proof.
  induction ks as [|k ks IH]; intro acc; cbn [resolve_visiting].
  - split; [discriminate|]. intros (? & [] & _).
  - pose proof (resolve_list_none strings (match assoc k ls with Some l => l | None => [] end)) as HL.
    destruct (resolve_list strings _) as [x|].
    + rewrite IH. split; intros (name & H1 & H2); [exists name; simpl; auto|].
      destruct H1 as [<-|H1]; [|eauto]. assert (Some x = None) by (apply HL; auto). discriminate.
    + split; auto. intros _. exists k. split; [left; auto|]. apply HL. auto.
Qed.

Lemma forall2_item_fun strings l a b : Forall2 (item_resolved strings) l a -> Forall2 (item_resolved strings) l b -> a = b.
Proof. intros H1 H2. apply resolve_list_some in H1, H2. congruence. Qed.

(** the order in which the lists are visited does not matter *)
Theorem dictionary_order p ks : NoDup (keys (p_lists p)) -> Permutation ks (keys (p_lists p)) ->
  match validate_predef p, validate_predef_visiting ks p with
  | Ok v, Ok w => p_strings v = p_strings w /\ p_lists v = p_lists w /\ forall name, assoc name (p_resolved v) = assoc name (p_resolved w)
  | Err, Err => True
  | _, _ => False
  end.
Proof.
  intros HN HP. unfold validate_predef, validate_predef_visiting.
  assert (EI : forall name, In name ks <-> assoc name (p_lists p) <> None).
  { intro name. rewrite HP. unfold keys. rewrite in_map_iff. split.
    - intros ((k, l) & <- & HI). rewrite (in_assoc k l) by auto. discriminate.
    - destruct (assoc name (p_lists p)) as [l|] eqn:E; [|congruence]. intros _. exists (name, l). split; auto. apply assoc_in. auto. }
  destruct (resolve_lists (p_strings p) (p_lists p)) as [r|] eqn:E1.
  - destruct (resolve_visiting (p_strings p) (p_lists p) ks []) as [r'|] eqn:E2.
    + simpl. split; auto. split; auto. intro name.
      pose proof (resolve_lists_some _ _ _ E1 name) as H1. destruct (resolve_visiting_some _ _ _ _ _ E2 name) as [H2 H3].
      destruct (assoc name (p_lists p)) as [l|] eqn:EA.
      * destruct (H2 (proj2 (EI name) ltac:(congruence))) as (l' & -> & F). destruct (assoc name r) as [l2|]; [|tauto].
        f_equal. eapply forall2_item_fun; eauto.
      * destruct (assoc name r); [tauto|]. rewrite H3; [auto|]. rewrite EI. auto.
    + apply resolve_visiting_none in E2. destruct E2 as (name & HI & s & HS & HU). apply EI in HI.
      destruct (assoc name (p_lists p)) as [l|] eqn:EA; [|congruence]. apply assoc_in in EA.
      assert (resolve_lists (p_strings p) (p_lists p) = None) by (apply resolve_lists_none; eauto 6). congruence.
  - destruct (resolve_visiting (p_strings p) (p_lists p) ks []) as [r'|] eqn:E2; [|auto].
    apply resolve_lists_none in E1. destruct E1 as (name & l & s & HI & HS & HU).
    assert (resolve_visiting (p_strings p) (p_lists p) ks [] = None); [|congruence].
    apply resolve_visiting_none. exists name. pose proof (in_assoc _ _ _ HN HI) as EA. split; [apply EI; congruence|].
    rewrite EA. eauto.
Qed.

(** ** The global dictionary *)
Definition globals (g : predef) (ps : list predef) : predef := fold_right (fun p g => fst (set_global g p)) g ps.

Theorem global_atomic g p : 
  (bad_list p -> set_global g p = (g, Err)) /\
  (~ bad_list p -> exists v, set_global g p = (v, Ok tt) /\ resolved_form p v).
Proof.
  unfold set_global. destruct (dictionary_resolved p) as [H1 H2]. split.
  - intro H. apply H1 in H. rewrite H. auto.
  - intro H. destruct (H2 H) as (v & -> & HR). eauto.
Qed.

Lemma bad_dec p : bad_list p \/ ~ bad_list p.
Proof.
  destruct (dictionary_resolved p) as [[H1 H1'] _].
  destruct (validate_predef p) eqn:E; [right|left; auto|right]; intro H; apply H1' in H; discriminate.
Qed.

Theorem global_history g ps : global_after g ps (globals g ps).
Proof.
  induction ps as [|p ps IH]; cbn [globals fold_right]; [apply ga_start|].
  destruct (global_atomic (globals g ps) p) as [H1 H2]. fold (globals g ps).
  destruct (bad_dec p) as [HB|HB].
  - rewrite (H1 HB). apply ga_bad; auto.
  - destruct (H2 HB) as (v & -> & HR). apply ga_good; auto.
Qed.

(** ** One rule *)
Section WithLib.
Variable L : Lib.
Variable ord : order.

Theorem source_unchanged p s t : rs_rule (snd (fst (set_predefined L ord p s t))) = rs_rule s.
Proof.
  unfold set_predefined. destruct (copy_rule L ord (rs_rule s) t) as [[c| |] t']; auto.
  destruct (prepare_rule L p c); auto.
Qed.

(** the outcome and the prepared form do not depend on what was prepared before *)
Theorem last_dictionary_wins p s s' t u s1 t1 : rs_rule s' = rs_rule s ->
  set_predefined L ord p s t = (Ok u, s1, t1) -> set_predefined L ord p s' t = (Ok u, s1, t1).
Proof.
  unfold set_predefined. intros -> H. destruct (copy_rule L ord (rs_rule s) t) as [[c| |] t']; try discriminate.
  destruct (prepare_rule L p c); try discriminate. auto.
Qed.
Theorem outcome_independent p s s' t : rs_rule s' = rs_rule s ->
  fst (fst (set_predefined L ord p s t)) = fst (fst (set_predefined L ord p s' t)).
Proof.
  unfold set_predefined. intros ->. destruct (copy_rule L ord (rs_rule s) t) as [[c| |] t']; auto.
  destruct (prepare_rule L p c); auto.
Qed.
(** setting several dictionaries, the last one given first *)
Fixpoint set_all (ps : list predef) (s : rstate L) (t : nat) : rstate L * nat :=
  match ps with
  | [] => (s, t)
  | p :: ps' => let '(s', t') := set_all ps' s t in let '(_, s'', t'') := set_predefined L ord p s' t' in (s'', t'')
  end.
Theorem source_unchanged_all ps s t : rs_rule (fst (set_all ps s t)) = rs_rule s.
Proof.
  induction ps as [|p ps IH]; cbn [set_all]; [auto|]. destruct (set_all ps s t) as [s' t'].
  pose proof (source_unchanged p s' t') as H. destruct (set_predefined L ord p s' t') as [[r s''] t'']. simpl in *. congruence.
Qed.

Section History.
Variable r0 : rule L.
Variable c0 : rule L.
Hypothesis copies : forall t, exists t', copy_rule L ord r0 t = (Ok c0, t').

Definition form (d : option predef) (o : option (rule L)) : Prop :=
  match d with None => o = None | Some p => exists r, gives L c0 p r /\ o = Some r end.

Lemma works_dec p : works L c0 p \/ ~ works L c0 p.
Proof. unfold works, gives. destruct (prepare_rule L p c0); [left; eauto|right; intros [? ?]; discriminate..]. Qed.

Lemma set_cases p s t : rs_rule s = r0 ->
  (exists r t', gives L c0 p r /\ set_predefined L ord p s t = (Ok tt, mkRstate r0 p true (Some r), t')) \/
  (~ works L c0 p /\ exists t', set_predefined L ord p s t = (Err, mkRstate r0 p false (rs_prepared s), t')) \/
  (~ works L c0 p /\ exists s' t', set_predefined L ord p s t = (Panic, s', t')).
Proof.
  intro E. unfold set_predefined. rewrite E. destruct (copies t) as [t' ->]. unfold works, gives.
  destruct (prepare_rule L p c0) as [r| |] eqn:EP.
  - left. exists r, t'. auto.
  - right; left. split; [intros [? ?]; discriminate|eauto].
  - right; right. split; [intros [? ?]; discriminate|eauto].
Qed.

(** the state of the rule when a check uses its prepared form *)
Lemma ensure_cases g s m t : rs_rule s = r0 ->
  (rs_ready s = true /\ ensure_prepared L ord g s (mkEst m t) = (Some s, mkEst m t)) \/
  (rs_ready s = false /\ exists t',
     ((exists r, gives L c0 g r /\ ensure_prepared L ord g s (mkEst m t) = (Some (mkRstate r0 g true (Some r)), mkEst m t')) \/
      (~ works L c0 g /\ ensure_prepared L ord g s (mkEst m t) = (Some (mkRstate r0 g false (rs_prepared s)), mkEst m t')) \/
      (~ works L c0 g /\ ensure_prepared L ord g s (mkEst m t) = (None, mkEst m t')))).
Proof.
  intro E. unfold ensure_prepared. destruct (rs_ready s); [left; auto|right]. split; auto. cbn [e_tick e_msg].
  destruct (set_cases g s t E) as [(r & t' & H1 & H2)|[(H1 & t' & H2)|(H1 & s' & t' & H2)]]; rewrite H2; exists t'; eauto.
Qed.

Definition agrees (g0 : predef) (h : list op) (w : world L) : Prop :=
  w_global w = globals g0 (calls h) /\ rs_rule (w_rule w) = r0 /\
  exists d, in_use L c0 (globals g0) h d (rs_ready (w_rule w)) /\ form d (rs_prepared (w_rule w)).

Lemma check_state g s m t x s' e : check_one_rule L ord g s (mkEst m t) = (Some (x, s'), e) ->
  exists e1, ensure_prepared L ord g s (mkEst m t) = (Some s', e1).
Proof.
  unfold check_one_rule, mbind. destruct (ensure_prepared L ord g s (mkEst m t)) as [[s1|] e1] eqn:E; [|discriminate].
  destruct (rs_prepared s1) as [r|]; [|discriminate].
  destruct (check_prepared L ord r e1) as [[y|] e2]; [|discriminate]. unfold mret. intro H. injection H; intros; subst. eauto.
Qed.
Lemma test_state g s m t x s' e : test_conditions L ord g s (mkEst m t) = (Some (x, s'), e) ->
  exists e1, ensure_prepared L ord g s (mkEst m t) = (Some s', e1).
Proof.
  unfold test_conditions, mbind. destruct (ensure_prepared L ord g s (mkEst m t)) as [[s1|] e1] eqn:E; [|discriminate].
  destruct (rs_prepared s1) as [r|]; [|discriminate]. destruct (ru_tree r) as [n|].
  - destruct (eval L ord n e1) as [[y|] e2]; [|discriminate]. unfold mret. intro H. injection H; intros; subst. eauto.
  - unfold mret. intro H. injection H; intros; subst. eauto.
Qed.

Lemma ensure_agrees g0 h w m s' e1 t' o : agrees g0 h w -> o = CheckRule m \/ o = TestRule m ->
  ensure_prepared L ord (w_global w) (w_rule w) (mkEst m (w_tick w)) = (Some s', e1) ->
  agrees g0 (o :: h) (mkWorld (w_global w) s' t').
Proof.
  intros (EG & ER & d & HU & HF) HO H.
  assert (EC : calls (o :: h) = calls h) by (destruct HO; subst; auto).
  destruct (ensure_cases (w_global w) (w_rule w) m (w_tick w) ER) as [[E1 E2]|(E1 & t1 & [(r & HG & E2)|[(HW & E2)|(HW & E2)]])];
    rewrite E2 in H; try discriminate; injection H; intros; subst s' e1; unfold agrees; cbn [w_global w_rule]; rewrite EC;
    (split; [auto|]); (split; [auto|]); cbn [rs_ready rs_prepared].
  - exists d. rewrite E1 in *. split; auto. eapply iu_settled; eauto.
  - exists (Some (w_global w)). rewrite E1, EG in *. split; [|simpl; eauto].
    eapply iu_first; eauto. exists r. auto.
  - exists d. rewrite E1, EG in *. split; auto. eapply iu_stale; eauto.
Qed.

Lemma step_agrees g0 h o w w' : agrees g0 h w -> step L ord o w = Some w' -> agrees g0 (o :: h) w'.
Proof.
  intros HA HS. destruct o as [p|p|m|m|m]; cbn [step] in HS.
  - injection HS; intros <-. destruct HA as (EG & ER & d & HU & HF). unfold agrees. cbn [w_global w_rule calls globals fold_right].
    split; [rewrite EG; auto|]. split; auto. exists d. split; auto. apply iu_global. auto.
  - destruct HA as (EG & ER & d & HU & HF).
    destruct (set_cases p (w_rule w) (w_tick w) ER) as [(r & t' & H1 & H2)|[(H1 & t' & H2)|(H1 & s' & t' & H2)]]; rewrite H2 in HS; try discriminate;
      injection HS; intros <-; unfold agrees; cbn [w_global w_rule calls rs_rule rs_ready rs_prepared]; (split; [auto|]); (split; [auto|]).
    + exists (Some p). split; [|simpl; eauto]. eapply iu_set; eauto. exists r. auto.
    + exists d. split; auto. eapply iu_failed; eauto.
  - destruct (check_one_rule L ord (w_global w) (w_rule w) (mkEst m (w_tick w))) as [[[x s']|] e] eqn:E; [|discriminate].
    injection HS; intros <-. apply check_state in E. destruct E as [e1 E]. eapply ensure_agrees; eauto.
  - destruct (test_conditions L ord (w_global w) (w_rule w) (mkEst m (w_tick w))) as [[[x s']|] e] eqn:E; [|discriminate].
    injection HS; intros <-. apply test_state in E. destruct E as [e1 E]. eapply ensure_agrees; eauto.
  - destruct (check L ord (w_global w) [w_rule w] (mkEst m (w_tick w))) as [[x|] e]; [|discriminate].
    injection HS; intros <-. destruct HA as (EG & ER & d & HU & HF). unfold agrees. cbn [w_global w_rule calls].
    split; auto. split; auto. exists d. split; auto. apply iu_list. auto.
Qed.

Theorem history_agrees g0 t0 h w : run L ord h (mkWorld g0 (load_rule L r0) t0) = Some w -> agrees g0 h w.
Proof.
  revert w. induction h as [|o h IH]; cbn [run]; intros w H.
  - injection H; intros <-. split; [auto|]. split; [auto|]. exists None. split; [apply iu_start|reflexivity].
  - destruct (run L ord h _) as [w1|] eqn:E; [|discriminate]. eapply step_agrees; eauto.
Qed.

(** a check after the history uses the prepared form of the dictionary in use *)
Hypothesis complete : forall n, ru_tree c0 = Some n -> ~ missing_inner L n.

Lemma no_panic p : prepare_rule L p c0 <> Panic.
Proof. intro H. apply rule_no_panic in H. destruct H as (n & E & H). eapply complete; eauto. Qed.

Lemma in_use_fun g0 h d b d' b' : in_use L c0 g0 h d b -> in_use L c0 g0 h d' b' -> d = d' /\ b = b'.
Proof.
  intro H. revert d' b'. induction H; intros d' b' H'; inversion H'; subst; auto;
    repeat match goal with HO : _ = _ \/ _ = _ |- _ => destruct HO; try discriminate end; try tauto;
    try (match goal with I : forall _ _, in_use _ _ _ ?h _ _ -> _, J : in_use _ _ _ ?h _ _ |- _ => destruct (I _ _ J); subst end);
    try discriminate; auto.
Qed.

Lemma ensure_uses g0 h w m : agrees g0 h w ->
  exists d b s t, in_use L c0 (globals g0) (CheckRule m :: h) d b /\ form d (rs_prepared s) /\
    ensure_prepared L ord (w_global w) (w_rule w) (mkEst m (w_tick w)) = (Some s, mkEst m t).
Proof.
  intro HA. pose proof HA as (EG & ER & d & HU & HF).
  destruct (ensure_cases (w_global w) (w_rule w) m (w_tick w) ER) as [[E1 E2]|(E1 & t1 & [(r & HG & E2)|[(HW & E2)|(HW & E2)]])].
  1-3: eapply ensure_agrees with (m := m) (t' := 0%nat) in HA; [|left; reflexivity|exact E2];
       destruct HA as (_ & _ & d' & HU' & HF'); cbn [w_rule] in *; eauto 8.
  exfalso. unfold ensure_prepared in E2. rewrite E1 in E2. cbn [e_tick] in E2. unfold set_predefined in E2. rewrite ER in E2.
  destruct (copies (w_tick w)) as [t' HC]. rewrite HC in E2. pose proof (no_panic (w_global w)).
  destruct (prepare_rule L (w_global w) c0); try discriminate. congruence.
Qed.

Theorem check_uses g0 t0 h w m d b : run L ord h (mkWorld g0 (load_rule L r0) t0) = Some w ->
  in_use L c0 (globals g0) (CheckRule m :: h) d b ->
  match d with
  | None => fst (check_one_rule L ord (w_global w) (w_rule w) (mkEst m (w_tick w))) = None
  | Some p => exists r t, gives L c0 p r /\
      option_map fst (fst (check_one_rule L ord (w_global w) (w_rule w) (mkEst m (w_tick w)))) = fst (check_prepared L ord r (mkEst m t))
  end.
Proof.
  intros HR HU. apply history_agrees in HR. apply ensure_uses with (m := m) in HR.
  destruct HR as (d' & b' & s & t & HU' & HF & HE). destruct (in_use_fun _ _ _ _ _ _ HU HU') as [<- <-].
  unfold check_one_rule, mbind. rewrite HE. destruct d as [p|]; simpl in HF.
  - destruct HF as (r & HG & ->). exists r, t. split; auto.
    destruct (check_prepared L ord r (mkEst m t)) as [[x|] e]; auto.
  - rewrite HF. auto.
Qed.

(** the same for TestConditions *)
Lemma in_use_test g0 h m m' d b : in_use L c0 g0 (TestRule m :: h) d b -> in_use L c0 g0 (CheckRule m' :: h) d b.
Proof.
  intro H. inversion H; subst.
  - eapply iu_settled; eauto.
  - eapply iu_first; eauto.
  - eapply iu_stale; eauto.
Qed.
Theorem test_uses g0 t0 h w m d b : run L ord h (mkWorld g0 (load_rule L r0) t0) = Some w ->
  in_use L c0 (globals g0) (TestRule m :: h) d b ->
  match d with
  | None => fst (test_conditions L ord (w_global w) (w_rule w) (mkEst m (w_tick w))) = None
  | Some p => exists r t, gives L c0 p r /\
      option_map fst (fst (test_conditions L ord (w_global w) (w_rule w) (mkEst m (w_tick w)))) =
      match ru_tree r with None => Some (false, []) | Some n => fst (eval L ord n (mkEst m t)) end
  end.
Proof.
  intros HR HU. apply history_agrees in HR. apply ensure_uses with (m := m) in HR.
  apply in_use_test with (m' := m) in HU.
  destruct HR as (d' & b' & s & t & HU' & HF & HE). destruct (in_use_fun _ _ _ _ _ _ HU HU') as [<- <-].
  unfold test_conditions, mbind. rewrite HE. destruct d as [p|]; simpl in HF.
  - destruct HF as (r & HG & ->). exists r, t. split; auto. destruct (ru_tree r) as [n|]; [|auto].
    destruct (eval L ord n (mkEst m t)) as [[x|] e]; auto.
  - rewrite HF. auto.
Qed.

(** Check over a list prepares an unprepared rule on every call, with the global dictionary *)
Theorem list_uses_global g0 t0 h w m p : run L ord h (mkWorld g0 (load_rule L r0) t0) = Some w ->
  in_use L c0 (globals g0) h p false -> works L c0 (globals g0 (calls h)) ->
  exists r t, gives L c0 (globals g0 (calls h)) r /\
    option_map out_results (fst (check L ord (w_global w) [w_rule w] (mkEst m (w_tick w)))) =
    option_map (fun x => [fst x]) (fst (check_prepared L ord r (mkEst m t))).
Proof.
  intros HR HU HW. apply history_agrees in HR. pose proof HR as (EG & ER & d & HU' & HF).
  destruct (in_use_fun _ _ _ _ _ _ HU HU') as [<- E1].
  destruct (ensure_cases (w_global w) (w_rule w) m (w_tick w) ER) as [[E2 _]|(_ & t1 & [(r & HG & E2)|[(HN & _)|(HN & _)]])];
    [congruence| |rewrite EG in HN; tauto..].
  rewrite EG in HG. exists r, t1. split; auto. unfold check, run_rules, check_one_rule, mbind. rewrite E2. cbn [rs_prepared].
  destruct (check_prepared L ord r (mkEst m t1)) as [[[x y]|] e]; reflexivity.
Qed.

(** ** Consequences *)
Definition sets_rule (o : op) : Prop := match o with SetRule _ => True | _ => False end.

Lemma settled_stays g0 h h' d : Forall (fun o => ~ sets_rule o) h' -> in_use L c0 g0 h d true -> in_use L c0 g0 (h' ++ h)%list d true.
Proof.
  intros HF HU. induction HF as [|o h' HO HF IH]; [auto|]. simpl. destruct o as [p|p|m|m|m]; simpl in HO; try tauto.
  - apply iu_global. auto.
  - eapply iu_settled; eauto.
  - eapply iu_settled; eauto.
  - apply iu_list. auto.
Qed.
(** after a successful SetPredefined the dictionary stays in use until the next one *)
Theorem set_sticks g0 h h' p d b : works L c0 p -> Forall (fun o => ~ sets_rule o) h' -> in_use L c0 g0 h d b ->
  in_use L c0 g0 (h' ++ SetRule p :: h)%list (Some p) true.
Proof. intros. apply settled_stays; auto. eapply iu_set; eauto. Qed.
(** without one, the global dictionary at the first check that could prepare the rule stays in use *)
Theorem first_check_sticks g0 h h' m d : works L c0 (g0 (calls h)) -> Forall (fun o => ~ sets_rule o) h' -> in_use L c0 g0 h d false ->
  in_use L c0 g0 (h' ++ CheckRule m :: h)%list (Some (g0 (calls h))) true.
Proof. intros. apply settled_stays; auto. eapply iu_first; eauto. Qed.
End History.
End WithLib.
