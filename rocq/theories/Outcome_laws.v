(** The results of loaded and prepared trees, part by part. *)
From Coq Require Import List String Ascii Bool Arith ZArith Permutation.
From Verif Require Import Base GoStr GoFloat Types Json StrUtils Validate Prepare Parse Eval
  Spec_Tree Spec_Extra Tree_proofs Tree_truth Tree_laws Leaf_laws Match_proofs Prepare_proofs Mongo_proofs Spec_Load Load_proofs
  Outcome_proofs Spec_Outcome.
Import ListNotations.
Open Scope string_scope.

Section WithLib.
Variable L : Lib.
Notation node := (node L).
Notation outcome := (tree_outcome L (leaf_outcome L) (contexts L) (any_record L)).

Lemma tidy_children (ns : list node) : fold_right (fun n' p => tidy L n' /\ p) True ns <-> Forall (tidy L) ns.
Proof.
  induction ns as [|n ns IH]; simpl; [split; auto|]. rewrite IH. split; [intros []; auto|]. intro H. inversion H; auto.
Qed.

Lemma made_tidy p n0 : made L n0 -> forall n, prepare_node L p n0 = Ok n -> tidy L n.
Proof.
  induction n0 as [ns IH|ns IH|n0 IH|q a n0 IH| | |c|] using node_ind'; intros HMD n HP; cbn [prepare_node] in HP.
  - apply rmap_ok in HP. destruct HP as (ns' & HP & ->). apply rseq_map_ok in HP.
    inversion HMD as [? HF| | | |]; subst. clear HMD. simpl. apply tidy_children.
    induction HP as [|x y ns ns' HXY HR IHR]; constructor; inversion IH; inversion HF; subst; auto.
  - apply rmap_ok in HP. destruct HP as (ns' & HP & ->). apply rseq_map_ok in HP.
    inversion HMD as [|? HF| | |]; subst. clear HMD. simpl. apply tidy_children.
    induction HP as [|x y ns ns' HXY HR IHR]; constructor; inversion IH; inversion HF; subst; auto.
  - apply rmap_ok in HP. destruct HP as (n' & HP & ->). simpl. apply IH; auto.
    inversion HMD as [| |? [->|HX]| |]; subst; [discriminate|auto].
  - apply rbind_ok in HP. destruct HP as (n' & HP & H). apply rbind_ok in H. destruct H as (a' & HA & H). injection H as <-.
    inversion HMD as [| | |q' s r n'' HI HV HE HR|]; subst. clear HMD.
    assert (HMI : made L n0) by (destruct HI as [->|HI]; [discriminate|auto]).
    unfold prepare_aa in HA. apply rbind_ok in HA. destruct HA as (qs & HQ & HA). injection HA as <-. cbn [a_parent a_orig a_ret a_prep List.app tidy].
    split; auto. destruct HR as [->|(rets & HN & -> & _)]; [discriminate|]. simpl. destruct rets; [congruence|discriminate].
  - injection HP as <-. exact I.
  - injection HP as <-. exact I.
  - apply rmap_ok in HP. destruct HP as (c' & _ & ->). exact I.
  - discriminate.
Qed.
Lemma ready_tidy n : ready L n -> tidy L n.
Proof.
  intros (ord & v & t & n0 & t' & p & HF & HV & HL & HP). eapply made_tidy; eauto. eapply tree_made; eauto.
Qed.

Theorem ready_exact n m b x : ready L n -> (may_yield L n m b x <-> outcome n m b x).
Proof. intro H. apply outcome_exact. apply ready_tidy; auto. Qed.

Lemma returns n m b : tidy L n -> (may_return L n m b <-> exists x, outcome n m b x).
Proof.
  intro HT. split.
  - intros (ord & t & x & s & HF & H). exists x. apply outcome_exact; auto. exists ord, t, s. auto.
  - intros [x H]. apply outcome_exact in H; auto. destruct H as (ord & t & s & HF & H). exists ord, t, x, s. auto.
Qed.

Lemma last_exists xs : exists x, last_non_empty xs x.
Proof.
  induction xs as [|y xs IH]; [exists []; left; auto|]. destruct IH as [x [[-> HF]|(N & bf & af & -> & HA)]].
  - destruct y as [|e y]; [exists []; left; auto|]. exists (e :: y). right. split; [discriminate|]. exists [], xs. auto.
  - exists x. right. split; auto. exists (y :: bf), af. auto.
Qed.

Lemma outcomes_of ns m (bs : list bool) : Forall (tidy L) ns -> Forall2 (fun n b => may_return L n m b) ns bs ->
  exists rs : list (bool * extra), map fst rs = bs /\
    Forall2 (fun (f : bool -> extra -> Prop) r => f (fst r) (snd r)) (map (fun n' => outcome n' m) ns) rs.
Proof.
  intros HT HF. induction HF as [|n b ns bs H HF IH]; [exists []; simpl; auto|]. inversion HT; subst.
  destruct IH as (rs & <- & IH); auto. apply returns in H; auto. destruct H as [x H]. exists ((b, x) :: rs). simpl. auto.
Qed.
Lemma outcomes_back ns m (rs : list (bool * extra)) : Forall (tidy L) ns ->
  Forall2 (fun (f : bool -> extra -> Prop) r => f (fst r) (snd r)) (map (fun n' => outcome n' m) ns) rs ->
  Forall2 (fun n b => may_return L n m b) ns (map fst rs).
Proof.
  revert rs. induction ns as [|n ns IH]; intros rs HT HF; inversion HF as [|? [b x] ? rs' H1 H2]; subst; simpl; constructor.
  - inversion HT; subst. apply returns; auto. exists x. auto.
  - inversion HT; subst. auto.
Qed.
Lemma repeat_forall {A} (l : list A) (f : A -> bool -> Prop) : Forall (fun a => f a true) l <-> Forall2 f l (map (fun _ => true) l).
Proof.
  induction l as [|a l IH]; simpl; [split; auto|]. split; intro H; inversion H; subst; constructor; auto; apply IH; auto.
Qed.
Lemma true_forall {A B} (f : A -> bool -> Prop) (l : list A) (k : list B) : Forall2 f l (map (fun _ => true) k) -> Forall (fun a => f a true) l.
Proof.
  revert k. induction l as [|a l IH]; intros [|b k] H; simpl in H; inversion H; subst; constructor; eauto.
Qed.
Lemma all_true (rs : list (bool * extra)) : Forall (fun r => fst r = true) rs -> map fst rs = map (fun _ => true) rs.
Proof. induction 1; simpl; congruence. Qed.

Theorem and_may_true ns m : ready L (NAnd ns) ->
  (may_return L (NAnd ns) m true <-> Forall (fun n => may_return L n m true) ns).
Proof.
  intro HR. apply ready_tidy in HR. rewrite returns by auto. simpl in HR. apply tidy_children in HR. split.
  - intros (x & ev & rest & rs & HE & HF & [(_ & -> & HA)|(? & _)] & _); [|discriminate]. rewrite app_nil_r in HE. subst ev.
    apply outcomes_back in HF; auto. rewrite all_true in HF by auto. exact (true_forall (fun n b => may_return L n m b) _ _ ltac:(eassumption)).
  - intro H. apply (repeat_forall ns (fun n b => may_return L n m b)) in H. apply outcomes_of in H; auto. destruct H as (rs & E & HF).
    destruct (last_exists (map snd rs)) as [x HX]. exists x. exists (map (fun n' => outcome n' m) ns), [], rs. rewrite app_nil_r.
    split; auto. split; auto. split; auto. left. split; auto. split; auto.
    clear -E. revert rs E. induction ns as [|n ns IH]; intros [|r rs] E; simpl in E; try discriminate; constructor; injection E; auto.
Qed.

Theorem and_may_false ns m : ready L (NAnd ns) ->
  (may_return L (NAnd ns) m false <-> exists before n after, ns = (before ++ n :: after)%list /\
     Forall (fun n => may_return L n m true) before /\ may_return L n m false).
Proof.
  intro HR. apply ready_tidy in HR. rewrite returns by auto. simpl in HR. apply tidy_children in HR. split.
  - intros (x & ev & rest & rs & HE & HF & [(? & _)|(_ & rs0 & r & -> & Hr & HA)] & _); [discriminate|].
    apply map_app_inv_prop in HE. destruct HE as (l1 & l2 & -> & -> & ->). apply Forall_app in HR. destruct HR as [HR _].
    apply outcomes_back in HF; auto. rewrite map_app in HF. apply Forall2_app_inv_r in HF. destruct HF as (k1 & k2 & H1 & H2 & ->).
    inversion H2 as [|n b k3 ? HN H3]; subst. inversion H3; subst. exists k1, n, l2. rewrite <- app_assoc. split; auto.
    simpl in HN. rewrite Hr in HN. split; auto. rewrite all_true in H1 by auto. exact (true_forall (fun n b => may_return L n m b) _ _ ltac:(eassumption)).
  - intros (before & n & after & -> & HB & HN). apply Forall_app in HR. destruct HR as [HR1 HR2]. inversion HR2; subst.
    assert (H : Forall2 (fun n b => may_return L n m b) (before ++ [n]) (map (fun _ => true) before ++ [false])).
    { apply Forall2_app; auto. apply (repeat_forall before (fun n b => may_return L n m b)). auto. }
    apply outcomes_of in H; [|apply Forall_app; auto]. destruct H as (rs & E & HF).
    destruct (last_exists (map snd rs)) as [x HX]. exists x. exists (map (fun n' => outcome n' m) (before ++ [n])), (map (fun n' => outcome n' m) after), rs.
    rewrite <- map_app, <- app_assoc. split; auto. split; auto. split; auto. right. split; auto.
    apply map_app_inv_prop in E. destruct E as (l1 & l2 & -> & E1 & E2). destruct l2 as [|r [|]]; try discriminate. injection E2 as E2.
    exists l1, r. split; auto. split; auto.
    clear -E1. revert l1 E1. induction before as [|n ns IH]; intros [|r rs] E; simpl in E; try discriminate; constructor; injection E; auto.
Qed.

Theorem or_may ns m b : ready L (NOr ns) ->
  (may_return L (NOr ns) m b <-> exists bs, Forall2 (fun n b => may_return L n m b) ns bs /\ (b = true <-> In true bs)).
Proof.
  intro HR. apply ready_tidy in HR. rewrite returns by auto. simpl in HR. apply tidy_children in HR. split.
  - intros (x & rs & HF & HB & _). apply outcomes_back in HF; auto. exists (map fst rs). split; auto. rewrite HB.
    rewrite Exists_exists, in_map_iff. split; intros (r & H1 & H2); exists r; auto.
  - intros (bs & HF & HB). apply outcomes_of in HF; auto. destruct HF as (rs & <- & HF). eexists. exists rs. split; [auto|]. split; [|reflexivity].
    rewrite HB. rewrite Exists_exists, in_map_iff. split; intros (r & H1 & H2); exists r; auto.
Qed.

Theorem not_may n m b : ready L (NNot n) -> (may_return L (NNot n) m b <-> may_return L n m (negb b)).
Proof.
  intro HR. apply ready_tidy in HR. rewrite !returns by auto. simpl. split.
  - intros (x & -> & H). auto.
  - intro H. exists []. auto.
Qed.

Lemma back_list n ms b : tidy L n -> Forall (fun m => exists y, outcome n m b y) ms <-> Forall (fun m => may_return L n m b) ms.
Proof. intro H. split; intro HF; eapply Forall_impl; try exact HF; intros m; simpl; rewrite returns by auto; auto. Qed.

Theorem all_may_true a n m : ready L (NQuant QAll a n) ->
  (may_return L (NQuant QAll a n) m true <-> exists ms, contexts L a m (Some ms) /\ Forall (fun m' => may_return L n m' true) ms).
Proof.
  intro HR. apply ready_tidy in HR. rewrite returns by auto. destruct HR as [_ HR]. simpl. split.
  - intros (x & [(ms & HC & _ & [[_ HF]|[? _]])|(_ & ? & _)]); try discriminate. exists ms. split; auto. apply back_list; auto.
  - intros (ms & HC & HF). exists []. left. exists ms. split; auto. split; auto. left. split; auto. apply back_list; auto.
Qed.
Theorem all_may_false a n m : ready L (NQuant QAll a n) ->
  (may_return L (NQuant QAll a n) m false <-> contexts L a m None \/ exists before m' after, contexts L a m (Some (before ++ m' :: after)%list) /\
     Forall (fun m' => may_return L n m' true) before /\ may_return L n m' false).
Proof.
  intro HR. apply ready_tidy in HR. rewrite returns by auto. destruct HR as [_ HR]. simpl. split.
  - intros (x & [(ms & HC & _ & [[? _]|(_ & before & m' & after & -> & HF & HN)])|(HC & _)]); [discriminate| |auto].
    right. exists before, m', after. split; auto. split; [apply back_list; auto|apply returns; auto].
  - intros [HC|(before & m' & after & HC & HF & HN)]; exists []; [auto|]. left. exists (before ++ m' :: after)%list. split; auto. split; auto.
    right. split; auto. exists before, m', after. split; auto. split; [apply back_list; auto|apply returns; auto].
Qed.
Theorem any_may_true a n m : ready L (NQuant QAny a n) -> declared L a = [] ->
  (may_return L (NQuant QAny a n) m true <-> exists before m' after, contexts L a m (Some (before ++ m' :: after)%list) /\
     Forall (fun m' => may_return L n m' false) before /\ may_return L n m' true).
Proof.
  intros HR HD. apply ready_tidy in HR. rewrite returns by auto. destruct HR as [HT HR]. simpl. unfold any_outcome. rewrite HD. split.
  - intros (x & [(ms & HC & [[? _]|(_ & before & m' & after & -> & HF & HN & _)])|(_ & ? & _)]); try discriminate.
    exists before, m', after. split; auto. split; [apply back_list; auto|apply returns; auto].
  - intros (before & m' & after & HC & HF & HN). exists []. left. exists (before ++ m' :: after)%list. split; auto.
    right. split; auto. exists before, m', after. split; auto. split; [apply back_list; auto|]. split; [apply returns; auto|auto].
Qed.
Theorem any_may_false a n m : ready L (NQuant QAny a n) ->
  (may_return L (NQuant QAny a n) m false <-> contexts L a m None \/ exists ms, contexts L a m (Some ms) /\ Forall (fun m' => may_return L n m' false) ms).
Proof.
  intro HR. apply ready_tidy in HR. rewrite returns by auto. destruct HR as [HT HR]. simpl. unfold any_outcome. destruct (declared L a) as [|d ds]. 
  - split.
    + intros (x & [(ms & HC & [(_ & _ & HF)|(? & _)])|(HC & _)]); [|discriminate|auto]. right. exists ms. split; auto. apply back_list; auto.
    + intros [HC|(ms & HC & HF)]; exists []; [auto|]. left. exists ms. split; auto. left. split; auto. split; auto. apply back_list; auto.
  - split.
    + intros (x & [(ms & HC & bs & HF & HB & _)|(HC & _)]); [|auto]. right. exists ms. split; auto.
      assert (HN : ~ In true bs) by (intro HI; apply HB in HI; discriminate). clear -HF HN HR. induction HF as [|m b ms bs [y H] HF IH]; constructor.
      * destruct b; [exfalso; apply HN; left; auto|]. apply returns; eauto.
      * apply IH. intro HI. apply HN. right. auto.
    + intros [HC|(ms & HC & HF)]; exists []; [auto|]. left. exists ms. split; auto. exists (map (fun _ => false) ms). split; [|split].
      * clear -HF HR. induction HF; simpl; constructor; auto. apply returns; auto.
      * split; [discriminate|]. intro HI. apply in_map_iff in HI. destruct HI as (? & ? & _). discriminate.
      * replace (filter snd (combine ms (map (fun _ : message => false) ms))) with (@nil (message * bool)); [constructor|].
        clear. induction ms; simpl; auto.
Qed.
End WithLib.
