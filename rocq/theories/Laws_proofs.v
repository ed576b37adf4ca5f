(** Trees that are exchangeable mean the same. *)
From Coq Require Import List String Ascii Bool Arith ZArith Permutation Lia.
From Verif Require Import Base GoStr GoStr_facts GoFloat Types Json StrUtils Validate Prepare Parse Marshal Lifecycle Eval Check Spec_Tree Tree_proofs Tree_truth Spec_Extra Tree_laws
  Match_proofs Spec_Decision Check_proofs Spec_Regex Spec_Glob Spec_Match Spec_Leaf Spec_Validate Prepare_proofs
  Spec_Load Load_proofs Mongo_proofs Spec_Copy Spec_Grammar Spec_Raw Spec_Meaning Meaning_proofs Meaning_rules Spec_Laws.
Import ListNotations.
Open Scope string_scope.

Section WithLib.
Variable L : Lib.
Hypothesis HNum : NumberSpec L.
Hypothesis HStar : jp_prepare L "$.*" <> None.
Hypothesis HRel : forall rest, jp_prepare L ("$RELATIVE" ++ rest) = None.
Variable p : predef.
Notation usable := (usable L p).
Notation covered := (covered L p).
Notation means := (means L p).
Notation exchangeable := (exchangeable L p).

Definition fine (n : node L) (m : message) : Prop := usable n /\ covered n m.

Lemma fine_evaluated n m : fine n m -> exists n' b, prepare_node L p n = Ok n' /\ may_return L n' m b /\ (b = true <-> means n m).
Proof.
  intros [[HM [n' HP]] HC]. pose proof (tree_no_panic L HNum HStar p n n' m HRel HM HP HC) as NP.
  assert (HF : fair (fun _ ks => ks)) by (intros k ks; apply Permutation_refl).
  destruct (eval L (fun _ ks => ks) n' (mkEst m 0)) as [[[b x]|] e] eqn:E; [|exfalso; apply NP; exists (fun _ ks => ks), 0, e; auto].
  assert (HB : may_return L n' m b) by (exists (fun _ ks => ks), 0, x, e; auto). exists n', b. repeat split; auto; apply (tree_meaning L HNum HStar p n n' m b HM HP HC HB).
Qed.
Lemma fine_dec n m : fine n m -> means n m \/ ~ means n m.
Proof. intro H. destruct (fine_evaluated n m H) as (n' & b & _ & _ & HB). destruct b; [left; apply HB; reflexivity|right]. intro HX. apply HB in HX. discriminate. Qed.

Lemma prepared_all ns : (exists ns', rseq (map (prepare_node L p) ns) = Ok ns') <-> Forall (fun n => exists n', prepare_node L p n = Ok n') ns.
Proof.
  split.
  - intros [ns' H]. apply rseq_map_ok in H. induction H; constructor; eauto.
  - intro H. assert (HF : exists ns', Forall2 (fun a b => prepare_node L p a = Ok b) ns ns').
    { induction H as [|n ns [n' HN] _ [ns' IH]]; [exists []; constructor|exists (n' :: ns'); constructor; auto]. }
    destruct HF as [ns' HF]. exists ns'. apply rseq_map_ok. exact HF.
Qed.
Lemma forall_and {A} (F G : A -> Prop) l : Forall (fun x => F x /\ G x) l <-> Forall F l /\ Forall G l.
Proof. rewrite !Forall_forall. split; [intro H; split; intros x HI; apply (H x HI)|intros [H1 H2] x HI; auto]. Qed.
Lemma usable_and ns : usable (NAnd ns) <-> Forall usable ns.
Proof.
  unfold Spec_Laws.usable. rewrite forall_and, <- prepared_all. cbn [prepare_node]. split; intros [H1 H2].
  - split; [inversion H1; auto|]. destruct H2 as [n' H2]. apply rmap_ok in H2. destruct H2 as (ns' & H2 & _). eauto.
  - split; [constructor; auto|]. destruct H2 as [ns' H2]. rewrite H2. cbn. eauto.
Qed.
Lemma usable_or ns : usable (NOr ns) <-> Forall usable ns.
Proof.
  unfold Spec_Laws.usable. rewrite forall_and, <- prepared_all. cbn [prepare_node]. split; intros [H1 H2].
  - split; [inversion H1; auto|]. destruct H2 as [n' H2]. apply rmap_ok in H2. destruct H2 as (ns' & H2 & _). eauto.
  - split; [constructor; auto|]. destruct H2 as [ns' H2]. rewrite H2. cbn. eauto.
Qed.
Lemma usable_not n : usable (NNot n) <-> usable n.
Proof.
  unfold Spec_Laws.usable. cbn [prepare_node]. split; intros [H1 [n' H2]].
  - apply rmap_ok in H2. destruct H2 as (n2 & H2 & _). split; [|eauto]. inversion H1 as [| |? [->|HX]| |]; subst; [discriminate|auto].
  - split; [constructor; auto|]. rewrite H2. cbn. eauto.
Qed.
(** the parent of a quantifier *)
Definition usable_parent (a : aanode L) : Prop := (exists a', prepare_aa L a = Ok a') /\ exists s r, valid_parent s = true /\ replace_all s "jsonpath:" "" <> "" /\
  (r = no_ret \/ exists m, m <> [] /\ r = set_return_values L m /\ Forall (fun e => starts "jsonpath:$RELATIVE" (snd e)) m) /\ a = mkAA (replace_all s "jsonpath:" "") [] s r [].
Lemma usable_quant q a n : usable (NQuant q a n) <-> usable_parent a /\ usable n.
Proof.
  unfold Spec_Laws.usable, usable_parent. cbn [prepare_node]. split.
  - intros [H1 [n' H2]]. apply rbind_ok in H2. destruct H2 as (n2 & H2 & H3). apply rbind_ok in H3. destruct H3 as (a' & H3 & _).
    inversion H1 as [| | |q' s r n'' [->|HX] HV HE HR|]; subst; [discriminate|]. repeat split; eauto. exists s, r. auto.
  - intros [[[a' HA] (s & r & HV & HE & HR & ->)] [HM [n' HN]]]. split; [constructor; auto|]. rewrite HN. cbn [rbind]. rewrite HA. cbn. eauto.
Qed.

Lemma means_and ns m : means (NAnd ns) m <-> Forall (fun n => means n m) ns.
Proof. cbn [Spec_Meaning.means]. rewrite fold_and_in, Forall_forall. reflexivity. Qed.
Lemma means_or ns m : means (NOr ns) m <-> Exists (fun n => means n m) ns.
Proof. cbn [Spec_Meaning.means]. rewrite fold_or_in, Exists_exists. reflexivity. Qed.
Lemma fine_and ns m : fine (NAnd ns) m <-> Forall (fun n => fine n m) ns.
Proof. unfold fine. rewrite forall_and, usable_and. cbn [Spec_Meaning.covered]. rewrite fold_and_in, (Forall_forall (fun n => covered n m)). reflexivity. Qed.
Lemma fine_or ns m : fine (NOr ns) m <-> Forall (fun n => fine n m) ns.
Proof. unfold fine. rewrite forall_and, usable_or. cbn [Spec_Meaning.covered]. rewrite fold_and_in, (Forall_forall (fun n => covered n m)). reflexivity. Qed.
Lemma fine_not n m : fine (NNot n) m <-> fine n m.
Proof. unfold fine. rewrite usable_not. reflexivity. Qed.
Lemma fine_quant q a n m : fine (NQuant q a n) m <->
  usable_parent a /\ usable n /\ (exists r, ranges_over L a m r) /\ forall ms m', ranges_over L a m (Some ms) -> In m' ms -> covered n m'.
Proof. unfold fine. rewrite usable_quant. cbn [Spec_Meaning.covered]. tauto. Qed.
Lemma fine_element q a n m ms m' : fine (NQuant q a n) m -> ranges_over L a m (Some ms) -> In m' ms -> fine n m'.
Proof. rewrite fine_quant. intros (_ & HU & _ & HC) HR HI. split; eauto. Qed.
Lemma parsed_range a m r : m_raw m <> None -> ranges_over L a m r -> exists ms, r = Some ms.
Proof. intros HM [[_ (vs & _ & ->)]|[HX _]]; [eauto|contradiction]. Qed.

Lemma not_all_dec ns m : Forall (fun n => fine n m) ns -> ~ Forall (fun n => means n m) ns -> Exists (fun n => ~ means n m) ns.
Proof.
  induction 1 as [|n ns HN _ IH]; intro H; [exfalso; auto|]. destruct (fine_dec n m HN) as [D|D]; [|left; auto]. right. apply IH. intro HX. apply H. constructor; auto.
Qed.
Lemma exists_map {A B} (F : B -> Prop) (f : A -> B) l : Exists F (map f l) <-> Exists (fun x => F (f x)) l.
Proof. rewrite !Exists_exists. split; [intros (y & HI & HF); apply in_map_iff in HI; destruct HI as (x & <- & HI); eauto|intros (x & HI & HF); exists (f x); split; auto; apply in_map; auto]. Qed.
Lemma forall_map {A B} (F : B -> Prop) (f : A -> B) l : Forall F (map f l) <-> Forall (fun x => F (f x)) l.
Proof. rewrite !Forall_forall. split; [intros H x HI; apply H, in_map, HI|intros H y HI; apply in_map_iff in HI; destruct HI as (x & <- & HI); auto]. Qed.
Lemma forall_iff {A} (F G : A -> Prop) l : (forall x, F x <-> G x) -> Forall F l <-> Forall G l.
Proof. intro H. rewrite !Forall_forall. split; intros K x HI; apply H, K, HI. Qed.
Lemma exists_iff {A} (F G : A -> Prop) l : (forall x, F x <-> G x) -> Exists F l <-> Exists G l.
Proof. intro H. rewrite !Exists_exists. split; intros (x & HI & K); exists x; split; auto; apply H, K. Qed.
Lemma exists_app {A} (F : A -> Prop) l l' : Exists F (l ++ l') <-> Exists F l \/ Exists F l'.
Proof. apply Exists_app. Qed.
Lemma exists_cons {A} (F : A -> Prop) x l : Exists F (x :: l) <-> F x \/ Exists F l.
Proof. apply Exists_cons. Qed.
Lemma forall_cons {A} (F : A -> Prop) x l : Forall F (x :: l) <-> F x /\ Forall F l.
Proof. apply Forall_cons_iff. Qed.

Definition equal_worth (n n' : node L) (m : message) : Prop := (fine n m <-> fine n' m) /\ (fine n m -> (means n m <-> means n' m)).
Lemma forall_pair {A} (a : Prop) (F : A -> Prop) ns : ns <> [] -> (a /\ Forall F ns) <-> Forall (fun x => a /\ F x) ns.
Proof. intro HN. rewrite !Forall_forall. split; [intros [H1 H2] x HI; auto|]. intro H. split; [|intros x HI; apply H; auto]. destruct ns as [|x ns]; [contradiction|]. apply (H x). left. reflexivity. Qed.

Lemma law_and_or m n ns : ns <> [] -> equal_worth (NAnd [n; NOr ns]) (NOr (map (fun x => NAnd [n; x]) ns)) m.
Proof.
  intro HN. assert (HF : fine (NAnd [n; NOr ns]) m <-> fine (NOr (map (fun x => NAnd [n; x]) ns)) m).
  { rewrite fine_and, fine_or, forall_map, !forall_cons, fine_or. rewrite (forall_iff (fun x => fine (NAnd [n; x]) m) (fun x => fine n m /\ fine x m)).
    - rewrite <- forall_pair; auto. split; intuition.
    - intro x. rewrite fine_and, !forall_cons. intuition. }
  split; auto. intros _. rewrite means_and, means_or, exists_map, !forall_cons, means_or, !Exists_exists. split.
  - intros (H1 & (x & HI & HX) & _). exists x. split; auto. rewrite means_and. auto.
  - intros (x & HI & HX). rewrite means_and in HX. inversion HX as [|? ? H1 H2]; subst. inversion H2; subst. repeat split; auto. exists x. auto.
Qed.
Lemma law_or_and m n ns : ns <> [] -> equal_worth (NOr [n; NAnd ns]) (NAnd (map (fun x => NOr [n; x]) ns)) m.
Proof.
  intro HN. assert (HF : fine (NOr [n; NAnd ns]) m <-> fine (NAnd (map (fun x => NOr [n; x]) ns)) m).
  { rewrite fine_and, fine_or, forall_map, !forall_cons, fine_and. rewrite (forall_iff (fun x => fine (NOr [n; x]) m) (fun x => fine n m /\ fine x m)).
    - rewrite <- forall_pair; auto. split; intuition.
    - intro x. rewrite fine_or, !forall_cons. intuition. }
  split; auto. intro H. rewrite fine_or, !forall_cons in H. destruct H as (H1 & _ & _).
  rewrite means_and, means_or, forall_map, !exists_cons, means_and. rewrite (forall_iff (fun x => means (NOr [n; x]) m) (fun x => means n m \/ means x m)).
  2:{ intro x. rewrite means_or, !exists_cons. split; [intros [H|[H|H]]; [auto|auto|inversion H]|intros [H|H]; auto]. }
  split.
  - intros [H|[H|H]]; [| |inversion H]; rewrite !Forall_forall in *; auto.
  - intro H. destruct (fine_dec n m H1) as [D|D]; [auto|]. right. left. rewrite Forall_forall in *. intros x HI. destruct (H x HI); [contradiction|auto].
Qed.
Lemma law_any_or m a ns : ns <> [] -> equal_worth (NQuant QAny a (NOr ns)) (NOr (map (NQuant QAny a) ns)) m.
Proof.
  intro HN. split.
  - rewrite fine_quant, fine_or, forall_map, usable_or. rewrite (forall_iff (fun x => fine (NQuant QAny a x) m) _ ns (fun x => fine_quant QAny a x m)).
    cbn [Spec_Meaning.covered]. split.
    + intros (H1 & H2 & H3 & H4). rewrite Forall_forall in *. intros x HI. split; [exact H1|split; [auto|split; [exact H3|]]]. intros ms m' HR HM. specialize (H4 ms m' HR HM). rewrite fold_and_in in H4. auto.
    + intro H. rewrite Forall_forall in H. assert (HX : exists x, In x ns) by (destruct ns as [|x ns]; [contradiction|exists x; left; reflexivity]). destruct HX as [x HX].
      destruct (H x HX) as (H1 & _ & H3 & _). split; auto. split; [rewrite Forall_forall; intros y HY; apply (H y HY)|]. split; auto.
      intros ms m' HR HM. rewrite fold_and_in. intros y HY. destruct (H y HY) as (_ & _ & _ & H4). eauto.
  - intros _. rewrite means_or, exists_map. cbn [Spec_Meaning.means]. rewrite Exists_exists. split.
    + intros (ms & m' & HR & HI & HX). rewrite fold_or_in in HX. destruct HX as (x & HX & HE). exists x. split; auto. exists ms, m'. auto.
    + intros (x & HX & ms & m' & HR & HI & HE). exists ms, m'. repeat split; auto. rewrite fold_or_in. eauto.
Qed.
Lemma law_all_and m a ns : ns <> [] -> equal_worth (NQuant QAll a (NAnd ns)) (NAnd (map (NQuant QAll a) ns)) m.
Proof.
  intro HN. split.
  - rewrite fine_quant, fine_and, forall_map, usable_and. rewrite (forall_iff (fun x => fine (NQuant QAll a x) m) _ ns (fun x => fine_quant QAll a x m)).
    cbn [Spec_Meaning.covered]. split.
    + intros (H1 & H2 & H3 & H4). rewrite Forall_forall in *. intros x HI. split; [exact H1|split; [auto|split; [exact H3|]]]. intros ms m' HR HM. specialize (H4 ms m' HR HM). rewrite fold_and_in in H4. auto.
    + intro H. rewrite Forall_forall in H. assert (HX : exists x, In x ns) by (destruct ns as [|x ns]; [contradiction|exists x; left; reflexivity]). destruct HX as [x HX].
      destruct (H x HX) as (H1 & _ & H3 & _). split; auto. split; [rewrite Forall_forall; intros y HY; apply (H y HY)|]. split; auto.
      intros ms m' HR HM. rewrite fold_and_in. intros y HY. destruct (H y HY) as (_ & _ & _ & H4). eauto.
  - intros _. rewrite means_and, forall_map. cbn [Spec_Meaning.means]. rewrite Forall_forall. split.
    + intros [HE HA] x HX. split; auto. intros ms m' HR HI. specialize (HA ms m' HR HI). rewrite fold_and_in in HA. auto.
    + intro H. assert (HX : exists x, In x ns) by (destruct ns as [|x ns]; [contradiction|exists x; left; reflexivity]). destruct HX as [x HX].
      split; [apply (H x HX)|]. intros ms m' HR HI. rewrite fold_and_in. intros y HY. destruct (H y HY) as [_ HA]. eauto.
Qed.
Lemma law_not_all m a n : m_raw m <> None -> equal_worth (NNot (NQuant QAll a n)) (NQuant QAny a (NNot n)) m.
Proof.
  intro HM. split; [rewrite fine_not, !fine_quant, usable_not; cbn [Spec_Meaning.covered]; reflexivity|]. intro HF.
  assert (HF2 : fine (NQuant QAny a (NNot n)) m) by (rewrite fine_not, fine_quant in HF; rewrite fine_quant, usable_not; exact HF). rewrite fine_not in HF. cbn [Spec_Meaning.means]. split.
  - intro H. destruct (fine_dec _ _ HF2) as [D|D]; [exact D|]. exfalso. apply H. destruct (proj1 (fine_quant _ _ _ _) HF) as (_ & _ & (r & HR) & _).
    destruct (parsed_range a m r HM HR) as [ms ->]. split; [eauto|]. intros ms' m' HR' HI. destruct (fine_dec n m' (fine_element _ _ _ _ _ _ HF HR' HI)) as [D'|D']; auto.
    exfalso. apply D. cbn [Spec_Meaning.means]. exists ms', m'. auto.
  - intros (ms & m' & HR & HI & HN) [_ HA]. eauto.
Qed.
Lemma leaf_says c m P : fine (NCond c) m -> condition_says L p (c_attr c) (c_method c) (c_value c) m P -> means (NCond c) m <-> P.
Proof.
  intros HF HS. destruct (fine_evaluated _ _ HF) as (n' & b & HP & HB & HE). rewrite <- HE. cbn [prepare_node] in HP. apply rmap_ok in HP. destruct HP as (c' & HP & ->).
  destruct HF as [[HM _] _]. apply (condition_meaning L HNum HStar p _ _ _ _ _ _ _ _ (made_prepares L p c c' HM HP) HS HB).
Qed.

Theorem exchangeable_worth m n n' : exchangeable m n n' -> equal_worth n n' m.
Proof.
  unfold equal_worth.
  induction 1 as [m n|m n n' _ IH|m n1 n2 n3 _ IH1 _ IH2|m ns n n' ns' _ IH|m ns n n' ns' _ IH|m n n' _ IH|m q a n n' HU HA IH|m n|m ns|m ns|m ns ns' HP|m ns ns' HP|m ns ns1 ns2|m ns ns1 ns2|m n|m n
    |m n ns|m n ns|m n ns HN|m n ns HN|m a ns HN|m a ns HN|m a n HM|m c c' [EA K1 K2 [U1 U2] [C1 C2] (v & R1 & V1) (v' & R2 & V2) (s & HS & NM)]].
  - split; reflexivity.
  - destruct IH as [I1 I2]. split; [symmetry; auto|]. intro H. symmetry. apply I2, I1, H.
  - destruct IH1 as [A1 A2], IH2 as [B1 B2]. split; [rewrite A1; auto|]. intro H. rewrite (A2 H). apply B2, A1, H.
  - destruct IH as [I1 I2]. rewrite !fine_and, !means_and, !Forall_app, !forall_cons. split; [rewrite I1; reflexivity|]. intros (_ & H & _). rewrite (I2 H). reflexivity.
  - destruct IH as [I1 I2]. rewrite !fine_or, !means_or, !Forall_app, !forall_cons, !exists_app, !exists_cons. split; [rewrite I1; reflexivity|]. intros (_ & H & _). rewrite (I2 H). reflexivity.
  - destruct IH as [I1 I2]. rewrite !fine_not. split; auto. intro H. cbn [Spec_Meaning.means]. rewrite (I2 H). reflexivity.
  - assert (HC : usable n -> forall ms m', ranges_over L a m (Some ms) -> In m' ms -> covered n m' <-> covered n' m').
    { intros U ms m' HR HI. destruct (IH ms m' HR HI) as [I1 _]. split; intro C; [assert (X : fine n m') by (split; auto); apply I1 in X; apply X|].
      assert (X : fine n' m') by (split; [apply HU|]; auto). apply I1 in X. apply X. }
    split.
    + rewrite !fine_quant. split; intros (H1 & H2 & H3 & H4); (split; [auto|]); (split; [apply HU; auto|]); (split; [auto|]); intros ms m' HR HI.
      * apply (HC H2 ms m' HR HI). eauto.
      * apply HU in H2. apply (HC H2 ms m' HR HI). eauto.
    + intro HF. assert (HE : forall ms m', ranges_over L a m (Some ms) -> In m' ms -> means n m' <-> means n' m').
      { intros ms m' HR HI. apply (IH ms m' HR HI). eapply fine_element; eauto. }
      cbn [Spec_Meaning.means]. destruct q.
      * split; intros (ms & m' & HR & HI & HX); exists ms, m'; repeat split; auto; apply (HE ms m' HR HI); auto.
      * split; intros [HX HY]; (split; [auto|]); intros ms m' HR HI; apply (HE ms m' HR HI); eauto.
  - rewrite !fine_not. split; [reflexivity|]. intro H. cbn [Spec_Meaning.means]. destruct (fine_dec n m H); tauto.
  - rewrite fine_not, fine_and, fine_or, forall_map. rewrite (forall_iff (fun x => fine (NNot x) m) _ ns (fun x => fine_not x m)). split; [reflexivity|]. intro H.
    rewrite means_or, exists_map. change (means (NNot (NAnd ns)) m) with (~ means (NAnd ns) m). rewrite means_and. split.
    + intro HX. exact (not_all_dec ns m H HX).
    + intros HX HY. apply Exists_exists in HX. destruct HX as (x & HI & HX). rewrite Forall_forall in HY. exact (HX (HY x HI)).
  - rewrite fine_not, fine_and, fine_or, forall_map. rewrite (forall_iff (fun x => fine (NNot x) m) _ ns (fun x => fine_not x m)). split; [reflexivity|]. intros _.
    rewrite means_and, forall_map. change (means (NNot (NOr ns)) m) with (~ means (NOr ns) m). rewrite means_or. rewrite Exists_exists, Forall_forall. cbn [Spec_Meaning.means]. split; [intros HX x HI HY; apply HX; eauto|intros HX (x & HI & HY); exact (HX x HI HY)].
  - rewrite !fine_and, !means_and. split; [split; apply Permutation_Forall; auto using Permutation_sym|]. intros _. split; apply Permutation_Forall; auto using Permutation_sym.
  - rewrite !fine_or, !means_or. split; [split; apply Permutation_Forall; auto using Permutation_sym|]. intros _. split; apply Permutation_Exists; auto using Permutation_sym.
  - rewrite !fine_and, !means_and, !Forall_app, !forall_cons, fine_and, means_and. split; [tauto|]. intros _. tauto.
  - rewrite !fine_or, !means_or, !Forall_app, !forall_cons, !exists_app, !exists_cons, fine_or, means_or. split; [tauto|]. intros _. tauto.
  - rewrite fine_and, means_and, !forall_cons. split; [split; [tauto|auto]|]. intros _. split; [tauto|auto].
  - rewrite fine_or, means_or, !forall_cons, exists_cons. split; [split; [tauto|auto]|]. intros _. split; [intros [H|H]; [auto|inversion H]|auto].
  - rewrite !fine_and, !means_and, !forall_cons. split; [tauto|]. intros _. tauto.
  - rewrite !fine_or, !means_or, !forall_cons, !exists_cons. split; [tauto|]. intros _. tauto.
  - exact (law_and_or m n ns HN).
  - exact (law_or_and m n ns HN).
  - exact (law_any_or m a ns HN).
  - exact (law_all_and m a ns HN).
  - exact (law_not_all m a n HM).
  - rewrite fine_not. assert (F1 : fine (NCond c) m) by (split; auto). assert (F2 : fine (NCond c') m) by (split; auto). split; [split; auto|]. intros _.
    change (means (NNot (NCond c)) m) with (~ means (NCond c) m).
    rewrite (leaf_says c m _ F1 (cn_path L p _ _ _ m KEx v s K1 R1 V1 HS)).
    assert (HS' : shows L (c_attr c') m s) by (rewrite EA; auto). rewrite (leaf_says c' m _ F2 (cn_path L p _ _ _ m KNex v' s K2 R2 V2 HS')).
    destruct s as [| |t]; cbn [satisfied holds]; [|congruence|].
    + split; [reflexivity|intros _ X; discriminate X].
    + destruct (string_dec t "") as [->|N]; [split; [reflexivity|intros _ X; apply X; reflexivity]|]. split; [intro X; contradiction|intros E X; contradiction].
Qed.

Theorem exchanged_trees m n n' t ord ord' i j : exchangeable m n n' -> made L n -> prepare_node L p n = Ok t -> covered n m -> fair ord -> fair ord' ->
  made L n' /\ covered n' m /\ exists t', prepare_node L p n' = Ok t' /\
    exists b x e x' e', eval L ord t (mkEst m i) = (Some (b, x), e) /\ eval L ord' t' (mkEst m j) = (Some (b, x'), e').
Proof.
  intros HX HM HP HC HF HF'. destruct (exchangeable_worth m n n' HX) as [HW HE]. assert (F1 : fine n m) by (split; [split; eauto|auto]). specialize (HE F1).
  apply HW in F1. destruct F1 as [[HM' [t' HP']] HC']. split; auto. split; auto. exists t'. split; auto.
  destruct (eval L ord t (mkEst m i)) as [[[b x]|] e] eqn:E; [|exfalso; apply (tree_no_panic L HNum HStar p n t m HRel HM HP HC); exists ord, i, e; auto].
  destruct (eval L ord' t' (mkEst m j)) as [[[b' x']|] e'] eqn:E'; [|exfalso; apply (tree_no_panic L HNum HStar p n' t' m HRel HM' HP' HC'); exists ord', j, e'; auto].
  assert (HB : b = true <-> means n m) by (apply (tree_meaning L HNum HStar p n t m b HM HP HC); exists ord, i, x, e; auto).
  assert (HB' : b' = true <-> means n' m) by (apply (tree_meaning L HNum HStar p n' t' m b' HM' HP' HC'); exists ord', j, x', e'; auto).
  assert (b = b') as <- by (destruct b, b'; auto; [symmetry; apply HB', HE, HB; reflexivity|apply HB, HE, HB'; reflexivity]). exists b, x, e, x', e'. auto.
Qed.
Lemma or_each m ns ns' : Forall2 (exchangeable m) ns ns' -> forall pre, exchangeable m (NOr (pre ++ ns)) (NOr (pre ++ ns')).
Proof.
  induction 1 as [|n n' ns ns' HN _ IH]; intro pre; [apply xc_refl|]. apply xc_trans with (NOr (pre ++ n' :: ns)); [apply xc_or, HN|].
  change (n' :: ns) with ([n'] ++ ns)%list. change (n' :: ns') with ([n'] ++ ns')%list. rewrite !app_assoc. apply IH.
Qed.
(** docs/MAPL_Conditions_v2.md, 6a and 6b *)
Lemma documented m a cs cs' : m_raw m <> None -> usable (NAnd (map NCond cs)) -> usable (NOr (map NCond cs')) ->
  (forall ms m', ranges_over L a m (Some ms) -> In m' ms -> Forall2 (opposite L p m') cs cs') ->
  exchangeable m (NNot (NQuant QAll a (NAnd (map NCond cs)))) (NQuant QAny a (NOr (map NCond cs'))).
Proof.
  intros HM U1 U2 HO. apply xc_trans with (NQuant QAny a (NNot (NAnd (map NCond cs)))); [apply xc_not_all, HM|]. apply xc_quant; [rewrite usable_not; tauto|].
  intros ms m' HR HI. apply xc_trans with (NOr (map NNot (map NCond cs))); [apply xc_not_and|]. apply (or_each m' _ _) with (pre := []).
  specialize (HO ms m' HR HI). clear - HO. induction HO; cbn [map]; constructor; auto. apply xc_exists. auto.
Qed.

Lemma documented_trees m a cs cs' t t' ord ord' i j : m_raw m <> None ->
  made L (NNot (NQuant QAll a (NAnd (map NCond cs)))) -> made L (NQuant QAny a (NOr (map NCond cs'))) ->
  prepare_node L p (NNot (NQuant QAll a (NAnd (map NCond cs)))) = Ok t -> prepare_node L p (NQuant QAny a (NOr (map NCond cs'))) = Ok t' ->
  covered (NNot (NQuant QAll a (NAnd (map NCond cs)))) m ->
  (forall ms m', ranges_over L a m (Some ms) -> In m' ms -> Forall2 (opposite L p m') cs cs') -> fair ord -> fair ord' ->
  exists b x e x' e', eval L ord t (mkEst m i) = (Some (b, x), e) /\ eval L ord' t' (mkEst m j) = (Some (b, x'), e').
Proof.
  intros HM M1 M2 P1 P2 HC HO HF HF'.
  assert (U1 : usable (NNot (NQuant QAll a (NAnd (map NCond cs))))) by (split; eauto). rewrite usable_not, usable_quant in U1. destruct U1 as [_ U1].
  assert (U2 : usable (NQuant QAny a (NOr (map NCond cs')))) by (split; eauto). rewrite usable_quant in U2. destruct U2 as [_ U2].
  destruct (exchanged_trees m _ _ t ord ord' i j (documented m a cs cs' HM U1 U2 HO) M1 P1 HC HF HF') as (_ & _ & t2 & E & H). rewrite P2 in E. injection E as <-. exact H.
Qed.

Lemma exchangeable_verdict r r' m d : exchanged_rules L p m r r' -> (forall n, ru_tree r = Some n -> fine n m) -> verdict L p r m d -> verdict L p r' m d.
Proof.
  intros HA HF. destruct HA as [r|id sn st sl rn rt rl pr ty rs rx op n n' de me ha ox co HA]; auto.
  assert (HM : means n m <-> means n' m) by (apply (exchangeable_worth m n n' HA), HF; reflexivity).
  unfold verdict, applies, sender_accepts, receiver_accepts, resource_accepts. cbn [ru_tree ru_sender_type ru_sender_name ru_receiver_type ru_receiver_name ru_operation ru_protocol ru_resource_name ru_resource_type ru_decision]. rewrite HM. auto.
Qed.
Lemma prepared_usable r c n : prepare_rule L p r = Ok c -> loaded_tree L n -> ru_tree r = Some n -> usable n.
Proof.
  intros HP HL HT. split; [apply loaded_made, HL|]. pose proof (prepared_rule_tree L p r c HP) as H. rewrite HT in H. destruct H as (n' & _ & H). eauto.
Qed.
Lemma exchanged_good r r' m : exchanged_rules L p m r r' -> (forall n, ru_tree r' = Some n -> loaded_tree L n) -> good_rule L p r m ->
  good_rule L p r' m /\ forall n, ru_tree r = Some n -> fine n m.
Proof.
  intros HA HL [HC [c HP]].
  assert (HF : forall n, ru_tree r = Some n -> fine n m).
  { intros n HT. split; [eapply prepared_usable; eauto; apply (rc_tree _ _ _ _ HC n HT)|apply (rc_tree _ _ _ _ HC n HT)]. }
  split; auto. destruct HA as [r|id sn st sl rn rt rl pr ty rs rx op n n' de me ha ox co HA]; [split; eauto|].
  specialize (HF n eq_refl). specialize (HL n' eq_refl). destruct (exchangeable_worth m n n' HA) as [HW _]. apply HW in HF. destruct HF as [[_ [t' HT]] HC'].
  split.
  - destruct HC as [U C1 C2 C3 C4 C5]. constructor; [exact U|exact C1|exact C2|exact C3|exact C4|]. intros n2 E. injection E as <-. auto.
  - clear - HP HT. unfold prepare_rule in *. cbn [ru_tree] in *. rewrite HT. cbn [rbind].
    apply rbind_ok in HP. destruct HP as (r1 & H1 & HP). apply rbind_ok in H1. destruct H1 as (t & _ & H1). injection H1 as <-.
    apply rbind_ok in HP. destruct HP as (r2 & H2 & H3). unfold replace_in_rule in *. cbn in H2 |- *.
    apply rbind_ok in H2. destruct H2 as (s & S1 & H2). rewrite S1. cbn [rbind]. apply rbind_ok in H2. destruct H2 as (w & S2 & H2). rewrite S2. cbn [rbind]. injection H2 as <-.
    unfold convert_fields in *. cbn in H3 |- *. destruct co; [eauto|].
    apply rbind_ok in H3. destruct H3 as (a & A1 & H3). rewrite A1. cbn [rbind]. apply rbind_ok in H3. destruct H3 as (b & B1 & H3). rewrite B1. cbn [rbind].
    destruct (re_compile L _); [|discriminate]. destruct (re_compile L _); [|discriminate]. eauto.
Qed.
Theorem exchanged_check ord ord' rules rules' m t t' : RegexSpec L -> CidrSpec L -> fair ord -> fair ord' -> ascii_message m ->
  (forall r, In r rules -> good_rule L p r m) -> Forall2 (exchanged_rules L p m) rules rules' -> (forall r n, In r rules' -> ru_tree r = Some n -> loaded_tree L n) ->
  exists o o' e e', check L ord p (map (load_rule L) rules) (mkEst m t) = (Some o, e) /\ check L ord' p (map (load_rule L) rules') (mkEst m t') = (Some o', e') /\
    out_results o' = out_results o /\ out_decision o' = out_decision o.
Proof.
  intros H1 H2 HF HF' HA HG HX HL.
  assert (HG' : forall r, In r rules' -> good_rule L p r m).
  { clear - HG HX HL HNum HStar HRel. induction HX as [|r r' rules rules' HR HX IH]; intros x [].
    - subst x. apply (exchanged_good r r' m HR); [intros n HN; apply (HL r' n); auto; left; auto|apply HG; left; auto].
    - apply IH; auto; [intros y HY; apply HG; right; auto|intros y n HY; apply HL; right; auto]. }
  destruct (check_verdict L H1 H2 HNum HStar HRel p ord rules m t HF HA HG) as (o & e & E & HV & HD).
  destruct (check_verdict L H1 H2 HNum HStar HRel p ord' rules' m t' HF' HA HG') as (o' & e' & E' & HV' & HD').
  exists o, o', e, e'. assert (HR : out_results o' = out_results o).
  { clear E E' HD HD'. revert HV HV'. generalize (out_results o) (out_results o'). clear - HX HG HL HNum HStar HRel. induction HX as [|r r' rules rules' HR HX IH]; intros ds ds' HV HV'; inversion HV; inversion HV'; subst; auto.
    f_equal; [|apply IH; auto; [intros z HZ; apply HG; right; auto|intros z n HZ; apply HL; right; auto]].
    destruct (exchanged_good r r' m HR) as [_ HF]; [intros n HN; apply (HL r' n); auto; left; auto|apply HG; left; auto|].
    eapply verdict_unique; [eassumption|]. eapply exchangeable_verdict; eauto. }
  repeat split; auto. rewrite HR in HD'. eapply strictest_unique; eauto.
Qed.
End WithLib.
