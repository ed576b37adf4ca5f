(** Boolean laws of trees and scoping of the relative context. *)
From Coq Require Import List String Ascii Bool Arith ZArith Permutation Lia.
From Verif Require Import Base GoStr GoStr_facts GoFloat Types Json StrUtils Validate Prepare Eval
  Spec_Tree Spec_Extra Spec_Scope Tree_proofs Tree_truth.
Import ListNotations.
Open Scope string_scope.

Section Laws.
Variable L : Lib.
Notation node := (node L).
Notation holds := (truth L (leaf_truth L) (contexts L)).
Notation clear := (unambiguous L (contexts L)).

(** the values evaluation may return, over all iteration orders *)
Definition may_return (n : node) (m : message) (b : bool) : Prop :=
  exists ord t x s, fair ord /\ eval L ord n (mkEst m t) = (Some (b, x), s).

Lemma may_return_holds n m b : may_return n m b -> holds n m b.
Proof. intros (ord & t & x & s & HF & H). apply eval_truth in H; auto. Qed.

Lemma may_return_unique n m b b' : clear n m -> may_return n m b -> holds n m b' -> b = b'.
Proof.
  intros HU H H'. apply may_return_holds in H.
  destruct b, b'; auto; exfalso; eapply truth_functional; eauto.
Qed.

Lemma clear_children (ns : list node) m : fold_right (fun n p => clear n m /\ p) True ns -> Forall (fun n => clear n m) ns.
Proof. apply fold_and. Qed.

(** ** AND, OR, NOT *)
Theorem and_true_iff ns m b : clear (NAnd ns) m -> may_return (NAnd ns) m b ->
  (b = true <-> Forall (fun n => holds n m true) ns).
Proof.
  intros HU H. split.
  - intros ->. apply may_return_holds in H. simpl in H. apply fold_and in H. auto.
  - intro HF. eapply may_return_unique; eauto. simpl. apply fold_and. auto.
Qed.

Theorem or_true_iff ns m b : clear (NOr ns) m -> may_return (NOr ns) m b ->
  (b = true <-> Exists (fun n => holds n m true) ns).
Proof.
  intros HU H. split.
  - intros ->. apply may_return_holds in H. simpl in H. apply fold_or in H. auto.
  - intro HF. eapply may_return_unique; eauto. simpl. apply fold_or. auto.
Qed.

Theorem not_iff n m b b' : clear n m -> may_return (NNot n) m b -> may_return n m b' -> b = negb b'.
Proof.
  intros HU H H'. eapply (may_return_unique (NNot n)); eauto. simpl. rewrite negb_involutive.
  apply may_return_holds; auto.
Qed.

(** in terms of the values the children return on their own *)
Theorem and_of_children ns m b bs : clear (NAnd ns) m -> may_return (NAnd ns) m b ->
  Forall2 (fun n b => may_return n m b) ns bs -> (b = true <-> forall b', In b' bs -> b' = true).
Proof.
  intros HU H HF. rewrite and_true_iff by eauto. simpl in HU. apply clear_children in HU. clear H.
  induction HF as [|n b' ns bs Hb HF IH].
  - split; [intros _ ? []|constructor].
  - inversion HU as [|? ? HU1 HU2]; subst. specialize (IH HU2). split.
    + intro HA. inversion HA as [|? ? HA1 HA2]; subst. intros b0 [<-|Hin]; [eapply may_return_unique; eauto|].
      apply (proj1 IH); auto.
    + intro HA. constructor.
      * assert (b' = true) by (apply HA; simpl; auto). subst. apply may_return_holds; auto.
      * apply (proj2 IH). intros; apply HA; simpl; auto.
Qed.

Theorem or_of_children ns m b bs : clear (NOr ns) m -> may_return (NOr ns) m b ->
  Forall2 (fun n b => may_return n m b) ns bs -> (b = true <-> In true bs).
Proof.
  intros HU H HF. rewrite or_true_iff by eauto. simpl in HU. apply clear_children in HU. clear H.
  induction HF as [|n b' ns bs Hb HF IH].
  - split; [intro H; inversion H|intros []].
  - inversion HU as [|? ? HU1 HU2]; subst. specialize (IH HU2). rewrite Exists_cons, IH. simpl.
    split; (intros [HA|HA]; [left|right; auto]).
    + eapply may_return_unique; eauto.
    + subst; apply may_return_holds; auto.
Qed.

Theorem and_empty m b : may_return (NAnd []) m b -> b = true.
Proof. intro H. eapply may_return_unique; eauto; simpl; auto. Qed.
Theorem or_empty m b : may_return (NOr []) m b -> b = false.
Proof. intro H. eapply may_return_unique; eauto; simpl; auto. Qed.

(** ** Order of the children *)
Lemma shuffled_holds n : forall n', shuffled n n' -> forall m b, holds n m b <-> holds n' m b.
Proof.
  assert (HE : forall (P : node -> message -> Prop) ns ns' m,
    Forall (fun n => forall n', shuffled n n' -> P n m <-> P n' m) ns -> Forall2 shuffled ns ns' ->
    (Exists (fun n => P n m) ns <-> Exists (fun n => P n m) ns') /\ (Forall (fun n => P n m) ns <-> Forall (fun n => P n m) ns')).
  { intros P ns ns' m HI HF. induction HF as [|a b ns ns' Hab HF IH].
    - split; split; auto.
    - inversion HI as [|? ? H1 H2]; subst. specialize (IH H2). destruct IH as [I1 I2]. split.
      + rewrite !Exists_cons, I1, (H1 b Hab). tauto.
      + rewrite !Forall_cons_iff, I2, (H1 b Hab). tauto. }
  assert (HP : forall (P : node -> Prop) l l', Permutation l l' ->
    (Exists P l <-> Exists P l') /\ (Forall P l <-> Forall P l')).
  { intros P l l' HP. split.
    - rewrite !Exists_exists. split; intros (x & Hx & H); exists x; split; auto; eapply Permutation_in; [|exact Hx| |exact Hx]; auto using Permutation_sym.
    - rewrite !Forall_forall. split; intros H x Hx; apply H; eapply Permutation_in; [|exact Hx| |exact Hx]; auto using Permutation_sym. }
  induction n using node_ind'; intros n' HS m b'; inversion HS as [|? ns' ? HF HPm|? ns' ? HF HPm| |]; subst; try reflexivity.
  - simpl. assert (HI : forall b, Forall (fun n => forall n', shuffled n n' -> holds n m b <-> holds n' m b) ns).
    { intro b. eapply Forall_impl; [|exact H]. intros n Hn n' HS'. apply Hn; auto. }
    destruct b'.
    + destruct (HE (fun n m => holds n m true) _ _ m (HI true) HF) as [_ E1].
      destruct (HP (fun n => holds n m true) _ _ HPm) as [_ E2]. rewrite !fold_and. tauto.
    + destruct (HE (fun n m => holds n m false) _ _ m (HI false) HF) as [E1 _].
      destruct (HP (fun n => holds n m false) _ _ HPm) as [E2 _]. rewrite !fold_or. tauto.
  - simpl. assert (HI : forall b, Forall (fun n => forall n', shuffled n n' -> holds n m b <-> holds n' m b) ns).
    { intro b. eapply Forall_impl; [|exact H]. intros n Hn n' HS'. apply Hn; auto. }
    destruct b'.
    + destruct (HE (fun n m => holds n m true) _ _ m (HI true) HF) as [E1 _].
      destruct (HP (fun n => holds n m true) _ _ HPm) as [E2 _]. rewrite !fold_or. tauto.
    + destruct (HE (fun n m => holds n m false) _ _ m (HI false) HF) as [_ E1].
      destruct (HP (fun n => holds n m false) _ _ HPm) as [_ E2]. rewrite !fold_and. tauto.
  - simpl. apply IHn; auto.
  - simpl. assert (IE : forall m b, holds n m b <-> holds n'0 m b) by (intros; apply IHn; auto).
    assert (EF : forall b ms, Forall (fun m => holds n m b) ms <-> Forall (fun m => holds n'0 m b) ms).
    { intros b0 ms. rewrite !Forall_forall. split; intros HX x Hx; apply IE; auto. }
    assert (EX : forall b ms, Exists (fun m => holds n m b) ms <-> Exists (fun m => holds n'0 m b) ms).
    { intros b0 ms. rewrite !Exists_exists. split; intros (x & Hx & HX); exists x; split; auto; apply IE; auto. }
    split; (intros [(ms & HC & HX)|HX]; [left; exists ms; split; auto|right; auto]);
      destruct q, b'; (apply EX || apply EF); auto.
Qed.

Theorem shuffled_same_value n n' m b b' : clear n m -> shuffled n n' ->
  may_return n m b -> may_return n' m b' -> b = b'.
Proof.
  intros HU HS H H'. eapply may_return_unique; eauto. apply (shuffled_holds _ _ HS). apply may_return_holds; auto.
Qed.

(** ** De Morgan *)
Theorem de_morgan_and ns m b b' : clear (NAnd ns) m ->
  may_return (NNot (NAnd ns)) m b -> may_return (NOr (map NNot ns)) m b' -> b = b'.
Proof.
  intros HU H H'. eapply (may_return_unique (NNot (NAnd ns))); eauto.
  apply may_return_holds in H'. clear - H'. simpl in *. destruct b'; simpl.
  - apply fold_or in H'. apply fold_or. apply Exists_exists in H'. destruct H' as (x & Hx & HH).
    apply in_map_iff in Hx. destruct Hx as (y & <- & Hy). apply Exists_exists. eauto.
  - apply fold_and in H'. apply fold_and. rewrite Forall_forall in *. intros x Hx. apply (H' (NNot x)). apply in_map; auto.
Qed.

Theorem de_morgan_or ns m b b' : clear (NOr ns) m ->
  may_return (NNot (NOr ns)) m b -> may_return (NAnd (map NNot ns)) m b' -> b = b'.
Proof.
  intros HU H H'. eapply (may_return_unique (NNot (NOr ns))); eauto.
  apply may_return_holds in H'. clear - H'. simpl in *. destruct b'; simpl.
  - apply fold_and in H'. apply fold_and. rewrite Forall_forall in *. intros x Hx. apply (H' (NNot x)). apply in_map; auto.
  - apply fold_or in H'. apply fold_or. apply Exists_exists in H'. destruct H' as (x & Hx & HH).
    apply in_map_iff in Hx. destruct Hx as (y & <- & Hy). apply Exists_exists. eauto.
Qed.

(** ** ANY and ALL *)
Theorem any_true_iff a n m ms b : clear (NQuant QAny a n) m -> contexts L a m (Some ms) ->
  may_return (NQuant QAny a n) m b -> (b = true <-> Exists (fun m' => holds n m' true) ms).
Proof.
  intros HU HC H. split.
  - intros ->. apply may_return_holds in H. simpl in H. destruct H as [(ms' & HC' & HX)|[_ E]]; [|discriminate].
    pose proof (contexts_perm _ _ _ _ _ HC' HC) as HP. simpl in HP. apply Exists_exists in HX.
    destruct HX as (x & Hx & HX). apply Exists_exists. exists x. split; auto. eapply Permutation_in; eauto.
  - intro HX. eapply may_return_unique; eauto. simpl. left. eauto.
Qed.

Theorem all_true_iff a n m ms b : clear (NQuant QAll a n) m -> contexts L a m (Some ms) ->
  may_return (NQuant QAll a n) m b -> (b = true <-> Forall (fun m' => holds n m' true) ms).
Proof.
  intros HU HC H. split.
  - intros ->. apply may_return_holds in H. simpl in H. destruct H as [(ms' & HC' & HX)|[_ E]]; [|discriminate].
    pose proof (contexts_perm _ _ _ _ _ HC' HC) as HP. simpl in HP. rewrite Forall_forall in *.
    intros x Hx. apply HX. eapply Permutation_in; [apply Permutation_sym|]; eauto.
  - intro HX. eapply may_return_unique; eauto. simpl. left. eauto.
Qed.

Theorem quant_no_elements q a n m b : contexts L a m (Some []) ->
  may_return (NQuant q a n) m b -> b = match q with QAny => false | QAll => true end.
Proof.
  intros HC H. apply may_return_holds in H. simpl in H. destruct H as [(ms' & HC' & HX)|[HC' E]];
    pose proof (contexts_perm _ _ _ _ _ HC' HC) as HP; simpl in HP; [|tauto].
  apply Permutation_sym, Permutation_nil in HP. subst. destruct q, b; auto; inversion HX.
Qed.

(** on raw bytes the elements may be unobtainable: both quantifiers are then false *)
Theorem quant_unknown_elements q a n m b : contexts L a m None ->
  may_return (NQuant q a n) m b -> b = false.
Proof.
  intros HC H. apply may_return_holds in H. simpl in H. destruct H as [(ms' & HC' & HX)|[HC' E]]; auto.
  pose proof (contexts_perm _ _ _ _ _ HC' HC) as HP. simpl in HP. tauto.
Qed.

(** on a parsed document they are always obtainable, and are the selected values *)
Theorem parsed_contexts a m r : m_raw m <> None -> a_prep a <> [] -> contexts L a m r ->
  exists vs, selected L a m vs /\ r = Some (map (fun v => set_raw_rel m (Some v)) vs).
Proof. unfold contexts. destruct (m_raw m); [|congruence]. destruct (a_prep a); [congruence|]. auto. Qed.

Theorem all_is_not_any_not a a' n m b b' : m_raw m <> None -> a_prep a <> [] ->
  a_parent a' = a_parent a -> a_prep a' = a_prep a ->
  clear (NQuant QAll a n) m ->
  may_return (NQuant QAll a n) m b -> may_return (NNot (NQuant QAny a' (NNot n))) m b' -> b = b'.
Proof.
  intros HR HP EP EQ HU H H'. eapply may_return_unique; eauto.
  apply may_return_holds in H'. simpl in H'.
  assert (EC : forall r, contexts L a' m r <-> contexts L a m r).
  { intro r. unfold contexts, selected. rewrite EQ, EP. destruct (m_raw m); [|congruence].
    destruct (a_prep a); [congruence|]. tauto. }
  destruct H' as [(ms & HC & HX)|[HC E]].
  - simpl. left. exists ms. split; [apply EC; auto|]. destruct b'; simpl in HX; auto.
  - apply EC in HC. apply parsed_contexts in HC; auto. destruct HC as (? & _ & ?). discriminate.
Qed.

(** A syntactic check: no condition reads $KEY or $VALUE. *)
Fixpoint reads_no_entry (n : node) : bool :=
  match n with
  | NTrue | NFalse | NNil => true
  | NCond c => negb (j_rel (c_jp c) && (String.eqb (j_query (c_jp c)) "$KEY" || String.prefix "$VALUE" (j_query (c_jp c))))
  | NNot n' => reads_no_entry n'
  | NAnd ns | NOr ns => forallb reads_no_entry ns
  | NQuant _ _ n' => reads_no_entry n'
  end.
Lemma reads_no_entry_clear n : reads_no_entry n = true -> forall m, clear n m.
Proof.
  induction n using node_ind'; cbn [reads_no_entry]; intros HB m; simpl; auto.
  - apply fold_and. rewrite forallb_forall in HB. rewrite Forall_forall in H |- *. intros x Hx. apply H; auto.
  - apply fold_and. rewrite forallb_forall in HB. rewrite Forall_forall in H |- *. intros x Hx. apply H; auto.
  - intros ms _. apply Forall_forall. intros; auto.
  - intros (HR & HQ). exfalso. rewrite HR in HB. simpl in HB. destruct HQ as [E|(rest & E)].
    + rewrite E in HB. discriminate.
    + rewrite E in HB. simpl in HB. destruct rest; discriminate.
Qed.

End Laws.
