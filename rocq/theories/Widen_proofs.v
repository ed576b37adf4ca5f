(** Wider conditions hold whenever the narrower ones do, wider rules can only make the decision stricter. *)
From Coq Require Import List String Ascii Bool Arith ZArith Permutation Lia SpecFloat.
From Verif Require Import Base GoStr GoStr_facts GoFloat Types Json StrUtils Validate Prepare Parse Marshal Lifecycle Eval Check Spec_Tree Tree_proofs Tree_truth Spec_Extra Tree_laws
  Match_proofs Spec_Decision Check_proofs Spec_Regex Spec_Glob Glob_proofs Spec_Match Spec_Leaf Number_proofs Leaf_proofs Leaf_laws Spec_Validate Prepare_proofs
  Spec_Load Load_proofs Mongo_proofs Spec_Copy Spec_Grammar Spec_Raw Spec_Meaning Meaning_proofs Meaning_rules Spec_Laws Laws_proofs Spec_Widen.
Import ListNotations.
Open Scope string_scope.

(** ** The order of numbers *)
Definition rank (x : f64) : option (Z * Z * Z) :=
  match x with
  | S754_nan => None
  | S754_infinity true => Some (-2, 0, 0)%Z
  | S754_finite true m e => Some (-1, - e, - Z.pos m)%Z
  | S754_zero _ => Some (0, 0, 0)%Z
  | S754_finite false m e => Some (1, e, Z.pos m)%Z
  | S754_infinity false => Some (2, 0, 0)%Z
  end.
Definition before (a b : Z * Z * Z) : Prop :=
  let '(a1, a2, a3) := a in let '(b1, b2, b3) := b in (a1 < b1 \/ (a1 = b1 /\ (a2 < b2 \/ (a2 = b2 /\ a3 < b3))))%Z.
Lemma compare_rank x y : SFcompare x y =
  match rank x, rank y with
  | Some a, Some b => let '(a1, a2, a3) := a in let '(b1, b2, b3) := b in
      Some (match (a1 ?= b1)%Z with Eq => match (a2 ?= b2)%Z with Eq => (a3 ?= b3)%Z | c => c end | c => c end)
  | _, _ => None
  end.
Proof.
  destruct x as [[]|[]| |[] m e], y as [[]|[]| |[] m' e']; try reflexivity; cbn [SFcompare rank].
  - change ((-1 ?= -1)%Z) with Eq. cbv iota. rewrite (Z.compare_opp e e'), (Z.compare_opp (Z.pos m) (Z.pos m')), (Z.compare_antisym e e'). destruct (e ?= e')%Z; cbn [CompOpp]; auto. change (Z.pos m' ?= Z.pos m)%Z with (m' ?= m)%positive. rewrite (Pos.compare_antisym m m'). reflexivity.
Qed.
Lemma less_rank x y : fltb x y = true <-> exists a b, rank x = Some a /\ rank y = Some b /\ before a b.
Proof.
  unfold fltb, SFltb. rewrite compare_rank. destruct (rank x) as [[[a1 a2] a3]|], (rank y) as [[[b1 b2] b3]|]; try (split; [discriminate|intros (a & b & E1 & E2 & _); discriminate]).
  split.
  - intro H. eexists _, _. split; [reflexivity|]. split; [reflexivity|]. unfold before; cbv beta iota.
    destruct (a1 ?= b1)%Z eqn:E1; [|left; exact E1|discriminate]. apply Z.compare_eq in E1.
    destruct (a2 ?= b2)%Z eqn:E2; [|right; split; [exact E1|left; exact E2]|discriminate]. apply Z.compare_eq in E2.
    destruct (a3 ?= b3)%Z eqn:E3; [discriminate|right; split; [exact E1|right; split; [exact E2|exact E3]]|discriminate].
  - intros (a & b & E1 & E2 & H). injection E1 as <-. injection E2 as <-. unfold before in H; cbv beta iota in H.
    destruct (a1 ?= b1)%Z eqn:E1; [apply Z.compare_eq in E1|reflexivity|apply Z.compare_gt_iff in E1; lia].
    destruct (a2 ?= b2)%Z eqn:E2; [apply Z.compare_eq in E2|reflexivity|apply Z.compare_gt_iff in E2; lia].
    destruct (a3 ?= b3)%Z eqn:E3; [apply Z.compare_eq in E3; lia|reflexivity|apply Z.compare_gt_iff in E3; lia].
Qed.
Lemma at_most_rank x y : fleb x y = true <-> exists a b, rank x = Some a /\ rank y = Some b /\ (before a b \/ a = b).
Proof.
  unfold fleb, SFleb. rewrite compare_rank. destruct (rank x) as [[[a1 a2] a3]|], (rank y) as [[[b1 b2] b3]|]; try (split; [discriminate|intros (a & b & E1 & E2 & _); discriminate]).
  split.
  - intro H. eexists _, _. split; [reflexivity|]. split; [reflexivity|]. unfold before; cbv beta iota.
    destruct (a1 ?= b1)%Z eqn:E1; [|left; left; exact E1|discriminate]. apply Z.compare_eq in E1.
    destruct (a2 ?= b2)%Z eqn:E2; [|left; right; split; [exact E1|left; exact E2]|discriminate]. apply Z.compare_eq in E2.
    destruct (a3 ?= b3)%Z eqn:E3; [apply Z.compare_eq in E3; right; congruence|left; right; split; [exact E1|right; split; [exact E2|exact E3]]|discriminate].
  - intros (a & b & E1 & E2 & H). injection E1 as <-. injection E2 as <-. unfold before in H; cbv beta iota in H.
    assert (H' : (a1 < b1 \/ (a1 = b1 /\ (a2 < b2 \/ (a2 = b2 /\ a3 <= b3))))%Z) by (destruct H as [H|H]; [lia|injection H as -> -> ->; lia]).
    destruct (a1 ?= b1)%Z eqn:E1; [apply Z.compare_eq in E1|reflexivity|apply Z.compare_gt_iff in E1; lia].
    destruct (a2 ?= b2)%Z eqn:E2; [apply Z.compare_eq in E2|reflexivity|apply Z.compare_gt_iff in E2; lia].
    destruct (a3 ?= b3)%Z eqn:E3; [reflexivity|reflexivity|apply Z.compare_gt_iff in E3; lia].
Qed.
Lemma before_trans a b c : before a b -> before b c -> before a c.
Proof. destruct a as [[a1 a2] a3], b as [[b1 b2] b3], c as [[c1 c2] c3]. unfold before. lia. Qed.
Lemma le_le x y z : fleb x y = true -> fleb y z = true -> fleb x z = true.
Proof. rewrite !at_most_rank. intros (a & b & E1 & E2 & H) (b' & c & E3 & E4 & K). assert (b' = b) as -> by congruence. exists a, c. repeat split; auto. destruct H as [H| ->], K as [K|<-]; auto. left. eapply before_trans; eauto. Qed.
Lemma lt_le x y z : fltb x y = true -> fleb y z = true -> fltb x z = true.
Proof. rewrite at_most_rank, !less_rank. intros (a & b & E1 & E2 & H) (b' & c & E3 & E4 & K). assert (b' = b) as -> by congruence. exists a, c. repeat split; auto. destruct K as [K|<-]; auto. eapply before_trans; eauto. Qed.
Lemma le_lt x y z : fleb x y = true -> fltb y z = true -> fltb x z = true.
Proof. rewrite at_most_rank, !less_rank. intros (a & b & E1 & E2 & H) (b' & c & E3 & E4 & K). assert (b' = b) as -> by congruence. exists a, c. repeat split; auto. destruct H as [H| ->]; auto. eapply before_trans; eauto. Qed.
Lemma lt_is_le x y : fltb x y = true -> fleb x y = true.
Proof. rewrite at_most_rank, less_rank. intros (a & b & E1 & E2 & H). exists a, b. auto. Qed.
Lemma eq_is_le x y : feqb x y = true -> fleb x y = true /\ fleb y x = true.
Proof. intro H. rewrite !float_le. rewrite H. assert (feqb y x = true) as -> by (rewrite feqb_sym; exact H). rewrite !orb_true_r. auto. Qed.
Lemma lt_self x : fltb x x = false.
Proof.
  destruct (fltb x x) eqn:E; auto. apply less_rank in E. destruct E as ([[a1 a2] a3] & b & E1 & E2 & H). rewrite E1 in E2. injection E2 as <-. unfold before in H. cbv beta iota in H. lia.
Qed.

Section WithLib.
Variable L : Lib.
Hypothesis HRegex : RegexSpec L.
Hypothesis HNum : NumberSpec L.
Hypothesis HStar : jp_prepare L "$.*" <> None.
Hypothesis HRel : forall rest, jp_prepare L ("$RELATIVE" ++ rest) = None.
Lemma in_holds t l : ascii_text t -> l <> [] -> Forall plain_item l -> (holds L KIn (list_value l) t <-> In t l) /\ (holds L KNin (list_value l) t <-> ~ In t l).
Proof.
  intros HA NL HF. destruct (membership_regex L HRegex l NL HF) as (re & E & HRE). specialize (HRE t HA). cbn [holds]. rewrite E. split.
  - split; [intros (re1 & E1 & M1); apply HRE; congruence|intro I; exists re; split; auto; apply HRE; auto].
  - rewrite <- HRE. split; [intros (re1 & E1 & M1); congruence|]. intro NI. exists re. split; auto. destruct (re_match L re t); auto. exfalso. auto.
Qed.
Lemma list_not_empty {A} (l l' : list A) : l <> [] -> incl l l' -> l' <> [].
Proof. intros H HI ->. destruct l as [|x l]; [auto|]. destruct (HI x). left. reflexivity. Qed.
Lemma test_wider t k v k' v' : wider_test L t k v k' v' -> holds L k v t -> holds L k' v' t.
Proof.
  intros H HH. destruct H as [l l' HA HN HF HF' HI|l l' HA HN HF HF' HI|k k' v v' x x' HK HX HX' HO|k v v' x x' HK HX HX' HO|k k' v v' x x' HK HX HX' HO|k v v' x x' HK HX HX' HO|k v v' HK HE].
  - apply in_holds in HH; auto. apply in_holds; auto. eapply list_not_empty; eauto.
  - apply in_holds in HH; auto; [|eapply list_not_empty; eauto]. apply in_holds; auto.
  - assert (HQ : forall z, quantity L v z -> z = x) by (intros z HZ; eapply quantity_fun; eauto).
    simpl in HK. destruct HK as [E|[E|[E|[E|[]]]]]; injection E as <- <-; cbn [holds] in *.
    1-3: destruct HH as (z & y & Z1 & Z2 & HC); rewrite (HQ z Z1) in HC; exists x', y; repeat split; auto; eauto using lt_le, le_le, lt_is_le.
    destruct HH as [(z & y & Z1 & Z2 & HC)|[HN _]]; [|exfalso; eapply HN; eauto]. rewrite (HQ z Z1) in HC. exists x', y. repeat split; auto. apply eq_is_le in HC. eapply le_le; [apply HC|exact HO].
  - assert (HQ : forall z, quantity L v z -> z = x) by (intros z HZ; eapply quantity_fun; eauto).
    simpl in HK. destruct HK as [<-|[<-|[]]]; cbn [holds] in *.
    + destruct HH as (z & y & Z1 & Z2 & HC). rewrite (HQ z Z1) in HC. exists x', y. repeat split; auto. eapply le_lt; eauto.
    + destruct HH as [(z & y & Z1 & Z2 & HC)|[HN _]]; [|exfalso; eapply HN; eauto]. rewrite (HQ z Z1) in HC. exists x', y. repeat split; auto. apply eq_is_le in HC. eapply le_lt; [apply HC|exact HO].
  - assert (HQ : forall z, quantity L v z -> z = x) by (intros z HZ; eapply quantity_fun; eauto).
    simpl in HK. destruct HK as [E|[E|[E|[E|[]]]]]; injection E as <- <-; cbn [holds] in *.
    1-3: destruct HH as (z & y & Z1 & Z2 & HC); rewrite (HQ z Z1) in HC; exists x', y; repeat split; auto; eauto using le_lt, le_le, lt_is_le.
    destruct HH as [(z & y & Z1 & Z2 & HC)|[HN _]]; [|exfalso; eapply HN; eauto]. rewrite (HQ z Z1) in HC. exists x', y. repeat split; auto. apply eq_is_le in HC. eapply le_le; [exact HO|apply HC].
  - assert (HQ : forall z, quantity L v z -> z = x) by (intros z HZ; eapply quantity_fun; eauto).
    simpl in HK. destruct HK as [<-|[<-|[]]]; cbn [holds] in *.
    + destruct HH as (z & y & Z1 & Z2 & HC). rewrite (HQ z Z1) in HC. exists x', y. repeat split; auto. eapply lt_le; eauto.
    + destruct HH as [(z & y & Z1 & Z2 & HC)|[HN _]]; [|exfalso; eapply HN; eauto]. rewrite (HQ z Z1) in HC. exists x', y. repeat split; auto. apply eq_is_le in HC. eapply lt_le; [exact HO|apply HC].
  - cbn [holds]. intros ->. simpl in HK. assert (HQ : exists y, quantity L "" y) by (destruct HK as [<-|[<-|[<-|[<-|[<-|[]]]]]]; cbn [holds] in HH; destruct HH as (z & y & _ & Z2 & _); eauto).
    destruct HQ as [y HY]. exact (HE y HY).
Qed.
Lemma test_kinds t k v k' v' : wider_test L t k v k' v' -> In k [KIn; KNin] -> k' = k.
Proof. intros H HK. destruct H as [l l' HA HN HF HF' HI|l l' HA HN HF HF' HI|k k' v v' x x' HI| | k k' v v' x x' HI| |]; auto; simpl in *; intuition congruence. Qed.
Lemma condition_wider p p' m c c' : wider_condition L p p' m c c' -> fine L p (NCond c) m -> fine L p' (NCond c') m -> means L p (NCond c) m -> means L p' (NCond c') m.
Proof.
  intros [EA (k & v & k' & v' & K1 & K2 & R1 & R2 & HT)] F1 F2.
  destruct HT as [(s & V1 & V2 & HS & NK & HW)|[(field & V1 & V2 & HI & HK & HW)|[(key & EK & OK & N1 & N2 & HK & HW)|(key & EK & OK & HK & HW)]]].
  - assert (HS' : shows L (c_attr c') m s) by (rewrite EA; auto).
    rewrite (leaf_says L HNum HStar HRel p c m _ F1 (cn_path L p _ _ _ m k v s K1 R1 V1 HS)).
    rewrite (leaf_says L HNum HStar HRel p' c' m _ F2 (cn_path L p' _ _ _ m k' v' s K2 R2 V2 HS')).
    destruct s as [| |t]; cbn [satisfied]; [intro E; contradiction|auto|]. apply test_wider, HW. reflexivity.
  - assert (HI' : In (c_attr c', field) text_fields) by (rewrite EA; auto). pose proof (test_kinds _ _ _ _ _ HW HK) as ->.
    rewrite (leaf_says L HNum HStar HRel p c m _ F1 (cn_text L p _ _ _ m field k v HI K1 R1 V1)).
    rewrite (leaf_says L HNum HStar HRel p' c' m _ F2 (cn_text L p' _ _ _ m field k v' HI' K2 R2 V2)).
    intro H. pose proof (test_wider _ _ _ _ _ HW) as T. destruct HK as [<-|[<-|[]]]; cbn [text_holds] in *; auto.
  - assert (EK' : c_attr c' = sender_label key) by congruence.
    rewrite (leaf_says L HNum HStar HRel p c m _ F1 (cn_sender_label L p _ _ _ m key k v EK OK K1 R1 N1)).
    rewrite (leaf_says L HNum HStar HRel p' c' m _ F2 (cn_sender_label L p' _ _ _ m key k' v' EK' OK K2 R2 N2)).
    intros (t & HA & H). exists t. split; auto. specialize (HW t HA). pose proof (test_kinds _ _ _ _ _ HW HK) as ->. pose proof (test_wider _ _ _ _ _ HW) as T.
    destruct HK as [<-|[<-|[]]]; cbn [label_holds text_holds] in *; auto.
  - assert (EK' : c_attr c' = receiver_label key) by congruence.
    rewrite (leaf_says L HNum HStar HRel p c m _ F1 (cn_receiver_label L p _ _ _ m key k v EK OK K1 R1)).
    rewrite (leaf_says L HNum HStar HRel p' c' m _ F2 (cn_receiver_label L p' _ _ _ m key k' v' EK' OK K2 R2)).
    intros (t & HA & H). exists t. split; auto. specialize (HW t HA). pose proof (test_kinds _ _ _ _ _ HW HK) as ->. pose proof (test_wider _ _ _ _ _ HW) as T.
    destruct HK as [<-|[<-|[]]]; cbn [label_holds text_holds] in *; auto.
Qed.

Section wider_induction.
Variable P : predef -> predef -> message -> node L -> node L -> Prop.
Hypothesis P_same : forall p m n n', exchangeable L p m n n' -> P p p m n n'.
Hypothesis P_trans : forall p1 p2 p3 m n1 n2 n3, P p1 p2 m n1 n2 -> P p2 p3 m n2 n3 -> usable L p2 n2 -> covered L p2 n2 m -> P p1 p3 m n1 n3.
Hypothesis P_condition : forall p p' m c c', wider_condition L p p' m c c' -> P p p' m (NCond c) (NCond c').
Hypothesis P_drop : forall p m ns n ns', P p p m (NAnd (ns ++ n :: ns')) (NAnd (ns ++ ns')).
Hypothesis P_add : forall p m ns n ns', P p p m (NOr (ns ++ ns')) (NOr (ns ++ n :: ns')).
Hypothesis P_and : forall p p' m ns ns', Forall2 (P p p' m) ns ns' -> P p p' m (NAnd ns) (NAnd ns').
Hypothesis P_or : forall p p' m ns ns', Forall2 (P p p' m) ns ns' -> P p p' m (NOr ns) (NOr ns').
Hypothesis P_not : forall p p' m n n', P p' p m n' n -> P p p' m (NNot n) (NNot n').
Hypothesis P_quant : forall p p' m q a n n', (forall ms m', ranges_over L a m (Some ms) -> In m' ms -> P p p' m' n n') -> P p p' m (NQuant q a n) (NQuant q a n').
Hypothesis P_all_any : forall p m a n ms, ranges_over L a m (Some ms) -> ms <> [] -> P p p m (NQuant QAll a n) (NQuant QAny a n).
Fixpoint wider_induction p p' m n n' (H : wider L p p' m n n') {struct H} : P p p' m n n' :=
  match H in wider _ p p' m n n' return P p p' m n n' with
  | wi_same _ p m n n' H => P_same p m n n' H
  | wi_trans _ p1 p2 p3 m n1 n2 n3 H1 H2 U C => P_trans p1 p2 p3 m n1 n2 n3 (wider_induction _ _ _ _ _ H1) (wider_induction _ _ _ _ _ H2) U C
  | wi_condition _ p p' m c c' H => P_condition p p' m c c' H
  | wi_drop _ p m ns n ns' => P_drop p m ns n ns'
  | wi_add _ p m ns n ns' => P_add p m ns n ns'
  | wi_and _ p p' m ns ns' H => P_and p p' m ns ns' ((fix go l l' (F : Forall2 (wider L p p' m) l l') : Forall2 (P p p' m) l l' :=
      match F with Forall2_nil _ => Forall2_nil _ | Forall2_cons x y H F => Forall2_cons x y (wider_induction _ _ _ _ _ H) (go _ _ F) end) ns ns' H)
  | wi_or _ p p' m ns ns' H => P_or p p' m ns ns' ((fix go l l' (F : Forall2 (wider L p p' m) l l') : Forall2 (P p p' m) l l' :=
      match F with Forall2_nil _ => Forall2_nil _ | Forall2_cons x y H F => Forall2_cons x y (wider_induction _ _ _ _ _ H) (go _ _ F) end) ns ns' H)
  | wi_not _ p p' m n n' H => P_not p p' m n n' (wider_induction _ _ _ _ _ H)
  | wi_quant _ p p' m q a n n' H => P_quant p p' m q a n n' (fun ms m' HR HI => wider_induction _ _ _ _ _ (H ms m' HR HI))
  | wi_all_any _ p m a n ms HR HN => P_all_any p m a n ms HR HN
  end.
End wider_induction.

Lemma all_wider (F G H K : node L -> Prop) ns ns' : Forall2 (fun n n' => F n -> G n' -> H n -> K n') ns ns' -> Forall F ns -> Forall G ns' ->
  (Forall H ns -> Forall K ns') /\ (Exists H ns -> Exists K ns').
Proof.
  induction 1 as [|n n' ns ns' HN _ IH]; intros HF HG; [split; [constructor|intro E; inversion E]|].
  inversion HF; inversion HG; subst. destruct IH as [I1 I2]; auto. split; intro E; inversion E; subst; [constructor; auto|left; auto|right; auto].
Qed.
Theorem wider_means p p' m n n' : wider L p p' m n n' -> fine L p n m -> fine L p' n' m -> means L p n m -> means L p' n' m.
Proof.
  apply (wider_induction (fun p p' m n n' => fine L p n m -> fine L p' n' m -> means L p n m -> means L p' n' m)); clear p p' m n n';
    [intros p m n n' H|intros p1 p2 p3 m n1 n2 n3 IH1 IH2 U C|intros p p' m c c' H|intros p m ns n ns'|intros p m ns n ns'|intros p p' m ns ns' IH|intros p p' m ns ns' IH|intros p p' m n n' IH|intros p p' m q a n n' IH|intros p m a n ms HR HN]; intros F1 F2.
  - apply (exchangeable_worth L HNum HStar HRel p m n n' H). exact F1.
  - intro H. assert (F : fine L p2 n2 m) by (split; auto). auto.
  - apply condition_wider; auto.
  - rewrite !means_and, !Forall_app, forall_cons. tauto.
  - rewrite !means_or, !exists_app, exists_cons. tauto.
  - rewrite fine_and in F1, F2. rewrite !means_and. apply (all_wider _ _ _ _ _ _ IH F1 F2).
  - rewrite fine_or in F1, F2. rewrite !means_or. apply (all_wider _ _ _ _ _ _ IH F1 F2).
  - rewrite fine_not in F1, F2. cbn [means]. auto.
  - assert (HE : forall ms m', ranges_over L a m (Some ms) -> In m' ms -> means L p n m' -> means L p' n' m').
    { intros ms m' HR HI. apply (IH ms m' HR HI); eapply fine_element; eauto. }
    destruct q; cbn [means].
    + intros (ms & m' & HR & HI & HX). exists ms, m'. eauto.
    + intros [HX HY]. split; auto. eauto.
  - cbn [means]. intros [_ H]. destruct ms as [|m' ms]; [contradiction|]. exists (m' :: ms), m'. split; [auto|]. split; [left; reflexivity|]. apply (H (m' :: ms)); auto. left. reflexivity.
Qed.

Theorem wider_trees p p' m n n' t t' ord ord' i j : wider L p p' m n n' -> made L n -> prepare_node L p n = Ok t -> covered L p n m ->
  made L n' -> prepare_node L p' n' = Ok t' -> covered L p' n' m -> fair ord -> fair ord' ->
  exists b x e b' x' e', eval L ord t (mkEst m i) = (Some (b, x), e) /\ eval L ord' t' (mkEst m j) = (Some (b', x'), e') /\ (b = true -> b' = true).
Proof.
  intros HW HM HP HC HM' HP' HC' HF HF'.
  assert (HI : means L p n m -> means L p' n' m) by (apply wider_means; auto; split; auto; split; eauto).
  destruct (eval L ord t (mkEst m i)) as [[[b x]|] e] eqn:E; [|exfalso; apply (tree_no_panic L HNum HStar p n t m HRel HM HP HC); exists ord, i, e; auto].
  destruct (eval L ord' t' (mkEst m j)) as [[[b' x']|] e'] eqn:E'; [|exfalso; apply (tree_no_panic L HNum HStar p' n' t' m HRel HM' HP' HC'); exists ord', j, e'; auto].
  assert (HB : b = true <-> means L p n m) by (apply (tree_meaning L HNum HStar p n t m b HM HP HC); exists ord, i, x, e; auto).
  assert (HB' : b' = true <-> means L p' n' m) by (apply (tree_meaning L HNum HStar p' n' t' m b' HM' HP' HC'); exists ord', j, x', e'; auto).
  exists b, x, e, b', x', e'. split; auto. split; auto. intro H. apply HB', HI, HB, H.
Qed.

(** ** Rules *)
Lemma list_wider s s' text : wider_list s s' -> list_accepts s text -> list_accepts s' text.
Proof.
  intros [->|(l & l' & HL & HL' & HI)]; auto. intros (items & item & t & HC & HX & HT & HG). apply comma_items_iff in HC, HL. subst. exists l', item, t. auto.
Qed.
Lemma name_wider s s' text : wider_list s s' -> name_accepts s text -> name_accepts s' text.
Proof.
  intros [->|(l & l' & HL & HL' & HI)]; auto. intros (items & item & HC & HX & HG). apply comma_items_iff in HC, HL. subst. exists l', item. auto.
Qed.
Lemma side_wider p p' type s s' services address addr : wider_name p p' s s' -> side_accepts L p type s services address addr -> side_accepts L p' type s' services address addr.
Proof.
  intros (v & v' & HV & HV' & HW) (w & HR & HA). assert (w = v) as -> by (eapply replaced_name_unique; eauto). exists v'. split; auto.
  destruct HA as [(text & HI & HN)|(HT & items & HC & HX)].
  - left. exists text. split; auto. eapply name_wider; eauto.
  - right. split; auto. destruct HW as [->|(l & l' & HL & HL' & HI)]; [eauto|]. exists l'. split; auto. apply comma_items_iff in HC, HL. subst. apply Exists_exists in HX. destruct HX as (x & X1 & X2). apply Exists_exists. eauto.
Qed.
Lemma applies_wider p p' r r' m : wider_rule L p p' m r r' -> (forall n, ru_tree r = Some n -> fine L p n m) -> (forall n, ru_tree r' = Some n -> fine L p' n m) -> applies L p r m -> applies L p' r' m.
Proof.
  intros [[E1 W1] [E2 W2] W3 W4 W5 _] F1 F2 (A1 & A2 & A3 & A4 & A5). split; [|split; [|split; [|split]]].
  - unfold sender_accepts in *. rewrite E1. eapply side_wider; eauto.
  - unfold receiver_accepts in *. rewrite E2. eapply side_wider; eauto.
  - destruct W3 as [->|[->|(N1 & N2 & W3)]]; [auto|left; reflexivity|]. right. right. right. split; [exact N2|]. eapply list_wider; eauto.
    destruct A3 as [E|[[E _]|[[E _]|[_ A3]]]]; [| | |exact A3]; exfalso; apply N1; unfold operation_words; rewrite ?E; simpl in *; intuition.
  - destruct W4 as [E|(E & ET & W4)]; [right; left; exact E|]. unfold resource_accepts in *. rewrite E. destruct A4 as [[P A4]|[P|(P1 & P2 & P3 & P4 & A4)]].
    + left. split; auto. eapply list_wider; eauto.
    + right. left. auto.
    + right. right. split; auto. split; auto. split; auto. split; [destruct ET as [->| ->]; [auto|left; reflexivity]|]. eapply list_wider; eauto.
  - destruct W5 as [->|(n & n' & T & T' & W)]; [exact I|]. rewrite T in *. rewrite T' in *. eapply wider_means; eauto.
Qed.
Lemma words_agree s d d' : decision_word s d -> decision_word s d' -> d = d'.
Proof. intros [[-> H]|[[-> H]|[-> H]]] [[-> K]|[[-> K]|[-> K]]]; auto; intuition congruence. Qed.
Lemma verdict_wider p p' r r' m d d' : wider_rule L p p' m r r' -> (forall n, ru_tree r = Some n -> fine L p n m) -> (forall n, ru_tree r' = Some n -> fine L p' n m) ->
  verdict L p r m d -> verdict L p' r' m d' -> d <= d'.
Proof.
  intros W F1 F2 HV HV'. destruct HV as [[HA HD]|[_ ->]]; [|lia]. pose proof (applies_wider p p' r r' m W F1 F2 HA) as HA'.
  assert (HW : exists e, decision_word (ru_decision r') e /\ d <= e).
  { destruct (wr_decision _ _ _ _ _ _ W) as [->|(e & e' & E1 & E2 & HL)]; [eauto|]. assert (e = d) as -> by (eapply words_agree; eauto). eauto. }
  destruct HW as (e & HE & HL). destruct HV' as [[_ HD']|[[HN|HN] _]]; [|contradiction|exfalso; eapply HN; eauto]. assert (e = d') as -> by (eapply words_agree; eauto). exact HL.
Qed.

Lemma good_fine p r m : good_rule L p r m -> forall n, ru_tree r = Some n -> fine L p n m.
Proof.
  intros [HC [c HP]] n HT. split; [eapply prepared_usable; eauto; apply (rc_tree _ _ _ _ HC n HT)|apply (rc_tree _ _ _ _ HC n HT)].
Qed.
Lemma stricter_results p p' m rules rules' : stricter_rules L p p' m rules rules' -> (forall r, In r rules -> good_rule L p r m) -> (forall r, In r rules' -> good_rule L p' r m) ->
  forall ds ds', Forall2 (fun r d => verdict L p r m d) rules ds -> Forall2 (fun r d => verdict L p' r m d) rules' ds' -> forall d, In d ds -> exists d', In d' ds' /\ d <= d'.
Proof.
  induction 1 as [|r r' rules rules' HW HS IH|r' rules rules' HS IH]; intros G G' ds ds' HV HV' d HI.
  - inversion HV; subst. destruct HI.
  - inversion HV as [|? e ? es V1 V2]; subst. inversion HV' as [|? e' ? es' V1' V2']; subst. destruct HI as [<-|HI].
    + exists e'. split; [left; reflexivity|]. eapply verdict_wider; eauto; apply good_fine; [apply G|apply G']; left; reflexivity.
    + destruct (IH (fun r H => G r (or_intror H)) (fun r H => G' r (or_intror H)) es es' V2 V2' d HI) as (d' & I' & HL). exists d'. split; [right|]; auto.
  - inversion HV' as [|? e' ? es' V1' V2']; subst. destruct (IH G (fun r H => G' r (or_intror H)) ds es' HV V2' d HI) as (d' & I' & HL). exists d'. split; [right|]; auto.
Qed.
Lemma strictest_at_most rs d e : decision_is_strictest rs d -> In e rs -> e <= 3 -> e <= d.
Proof.
  intros H HI HB. destruct H as [[-> _]|[(-> & _ & N)|[(-> & _ & N1 & N2)|[-> HF]]]]; auto.
  - destruct (Nat.eq_dec e 3) as [->|]; [contradiction|lia].
  - destruct (Nat.eq_dec e 3) as [->|]; [contradiction|]. destruct (Nat.eq_dec e 2) as [->|]; [contradiction|lia].
  - rewrite Forall_forall in HF. rewrite (HF e HI). lia.
Qed.
Lemma strictest_in rs d : decision_is_strictest rs d -> d = 0 \/ In d rs.
Proof. intros [[-> H]|[(-> & H & _)|[(-> & H & _)|[-> _]]]]; auto. Qed.
Lemma verdict_bound p r m d : verdict L p r m d -> d <= 3.
Proof. intros [[_ [[-> _]|[[-> _]|[-> _]]]]|[_ ->]]; lia. Qed.
Theorem stricter_check p p' ord ord' rules rules' m t t' : CidrSpec L -> fair ord -> fair ord' -> ascii_message m ->
  (forall r, In r rules -> good_rule L p r m) -> (forall r, In r rules' -> good_rule L p' r m) -> stricter_rules L p p' m rules rules' ->
  exists o o' e e', check L ord p (map (load_rule L) rules) (mkEst m t) = (Some o, e) /\ check L ord' p' (map (load_rule L) rules') (mkEst m t') = (Some o', e') /\
    out_decision o <= out_decision o'.
Proof.
  intros H2 HF HF' HA HG HG' HS.
  destruct (check_verdict L HRegex H2 HNum HStar HRel p ord rules m t HF HA HG) as (o & e & E & HV & HD).
  destruct (check_verdict L HRegex H2 HNum HStar HRel p' ord' rules' m t' HF' HA HG') as (o' & e' & E' & HV' & HD').
  exists o, o', e, e'. split; auto. split; auto. destruct (strictest_in _ _ HD) as [->|HI]; [lia|].
  destruct (stricter_results p p' m rules rules' HS HG HG' _ _ HV HV' _ HI) as (d' & HI' & HL). enough (d' <= out_decision o') by lia. eapply strictest_at_most; eauto.
  clear - HV' HI'. induction HV' as [|r d rules' ds V _ IH]; [destruct HI'|]. destruct HI' as [<-|HI']; auto. eapply verdict_bound; eauto.
Qed.
End WithLib.
