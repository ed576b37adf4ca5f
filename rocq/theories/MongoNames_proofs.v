(** Field names in Mongo queries. *)
From Coq Require Import List String Ascii Bool Arith ZArith Lia.
From Verif Require Import Base GoStr GoStr_facts StrUtils Types Prepare Mongo Spec_Glob Glob_proofs Number_proofs Spec_Quotes Quotes_proofs Spec_Names.
Import ListNotations.
Open Scope string_scope.

(** ** Counting *)
Lemma count_one c s : count s (String c "") = occurrences c s.
Proof.
  unfold count, occurrences. induction s as [|x s IH]; auto. cbn [count_from list_ascii_of_string count_occ].
  rewrite prefix_one. change (String.length (String c "") - 1)%nat with 0%nat.
  destruct (ascii_dec x c) as [->|N]; [rewrite Ascii.eqb_refl|rewrite (proj2 (Ascii.eqb_neq x c)) by auto]; auto.
Qed.

(** ** Characters *)
Definition stripped (s : string) : string := replace_all (replace_all (replace_all (replace_all s dqs "") sqs "") "[" ".") "]" "".
Definition field_char (c : ascii) : string :=
  if Ascii.eqb c dq then "" else if Ascii.eqb c sq then "" else if Ascii.eqb c "[" then "." else if Ascii.eqb c "]" then "" else String c "".
Lemma stripped_cmap s : stripped s = cmap field_char s.
Proof.
  unfold stripped, dqs, sqs. rewrite !replace_all_one, !cmap_cmap. apply cmap_ext. intros [[] [] [] [] [] [] [] []]; reflexivity.
Qed.
Lemma field_char_text s : field_text s (cmap field_char s).
Proof.
  induction s as [|c s IH]; [constructor|]. cbn [cmap]. unfold field_char at 1.
  destruct (Ascii.eqb_spec c dq) as [->|N1]; [apply ft_drop; auto; left; right; auto|].
  destruct (Ascii.eqb_spec c sq) as [->|N2]; [apply ft_drop; auto; left; left; auto|].
  destruct (Ascii.eqb_spec c "[") as [->|N3]; [apply ft_bracket; auto|].
  destruct (Ascii.eqb_spec c "]") as [->|N4]; [apply ft_drop; auto|].
  apply ft_keep; auto. intros [H|H]; auto.
Qed.
Lemma field_text_fun s t : field_text s t -> forall t', field_text s t' -> t = t'.
Proof.
  induction 1 as [|c s t HC _ IH|s t _ IH|c s t N1 N2 N3 _ IH]; intros t' H'.
  - inversion H'. auto.
  - inversion H'; subst; auto; [|tauto]. destruct HC as [[HC|HC]|HC]; vm_compute in HC; discriminate.
  - inversion H'; subst; [|f_equal; auto|congruence]. destruct H1 as [[HC|HC]|HC]; vm_compute in HC; discriminate.
  - inversion H'; subst; [tauto|congruence|f_equal; auto].
Qed.

(** ** Dots *)
Lemma shrunk_refl s : dots_shrunk s s.
Proof. induction s; constructor; auto. Qed.
Lemma shrunk_dot s t : dots_shrunk s (String "." t) -> exists s', s = String "." s'.
Proof. intro H. remember (String "." t) as u. revert t Hequ. induction H; intros; [discriminate|injection Hequ as -> _; eauto|eauto]. Qed.
Lemma shrunk_trans s t : dots_shrunk s t -> forall u, dots_shrunk t u -> dots_shrunk s u.
Proof.
  induction 1 as [|c s t H IH|s t H IH]; intros u HU; auto.
  - inversion HU; subst.
    + constructor. auto.
    + destruct (shrunk_dot _ _ H) as [s' ->]. apply ds_drop. auto.
  - apply ds_drop. auto.
Qed.
Lemma dots_step s : replace_all (String "." (String "." s)) ".." "." = String "." (replace_all s ".." ".").
Proof. unfold replace_all. destruct s; reflexivity. Qed.
Lemma prefix_dots c s : String.prefix ".." (String c s) = true -> exists s', c = "."%char /\ s = String "." s'.
Proof. intro H. apply prefix_iff in H. destruct H as [r E]. simpl in E. injection E as -> ->. eauto. Qed.
Lemma other_step c s : String.prefix ".." (String c s) = false -> replace_all (String c s) ".." "." = String c (replace_all s ".." ".").
Proof. intro H. unfold replace_all. cbn [replace_all_from]. rewrite H. auto. Qed.
Lemma replace_shrunk s : dots_shrunk s (replace_all s ".." ".").
Proof.
  remember (String.length s) as n. revert s Heqn. induction n as [n IH] using lt_wf_ind. intros s ->. destruct s as [|c s]; [constructor|].
  destruct (String.prefix ".." (String c s)) eqn:E.
  - apply prefix_dots in E. destruct E as (s' & -> & ->). rewrite dots_step. apply ds_drop, ds_keep.
    apply (IH (String.length s')); simpl; auto.
  - rewrite other_step by auto. apply ds_keep. apply (IH (String.length s)); simpl; auto.
Qed.
Lemma collapse_shrunk n : forall s, dots_shrunk s (collapse_dots n s).
Proof.
  induction n as [|n IH]; intro s; cbn [collapse_dots]; [apply shrunk_refl|].
  destruct (count (replace_all s ".." ".") ".." =? 0)%nat; [apply replace_shrunk|]. eapply shrunk_trans; [apply replace_shrunk|apply IH].
Qed.

Theorem remove_quotes_ok s : (exists f, remove_quotes s = Ok f) <->
  Nat.Even (occurrences dq s) /\ Nat.Even (occurrences sq s) /\ occurrences "[" s = occurrences "]" s.
Proof.
  unfold remove_quotes, dqs, sqs. rewrite !count_one, <- !Nat.even_spec.
  destruct (Nat.even (occurrences dq s)), (Nat.even (occurrences sq s)); cbn [negb orb];
    try (split; [intros [f H]; discriminate|intros (A & B & _); discriminate]).
  destruct (Nat.eqb_spec (occurrences "[" s) (occurrences "]" s)) as [E|N]; cbn [negb].
  - split; [auto|]. intros _. eexists. reflexivity.
  - split; [intros [f H]; discriminate|intros (_ & _ & H); contradiction].
Qed.
Lemma remove_quotes_result s f : remove_quotes s = Ok f -> f = collapse_dots (count (stripped s) "..") (stripped s).
Proof.
  unfold remove_quotes. destruct (_ || _); [discriminate|]. destruct (negb _); [discriminate|]. intro H. injection H as <-. auto.
Qed.
Theorem remove_quotes_text s f : remove_quotes s = Ok f -> exists t, field_text s t /\ dots_shrunk t f.
Proof.
  intro H. apply remove_quotes_result in H. subst. exists (stripped s). split; [rewrite stripped_cmap; apply field_char_text|apply collapse_shrunk].
Qed.
Lemma remove_quotes_no_panic s : remove_quotes s <> Panic.
Proof. unfold remove_quotes. destruct (_ || _); [discriminate|]. destruct (negb _); discriminate. Qed.

(** ** No double dots *)
Lemma count_zero s : count s ".." = 0%nat <-> ~ occurs ".." s.
Proof.
  unfold count. induction s as [|c s IH].
  - split; auto. intros _ (a & b & E). destruct a; discriminate.
  - cbn [count_from]. destruct (String.prefix ".." (String c s)) eqn:EP.
    + split; [discriminate|]. intro H. destruct H. apply prefix_iff in EP. destruct EP as [r E]. exists "", r. auto.
    + rewrite IH. split; intros H (a & b & E); apply H.
      * destruct a as [|x a]; [simpl in E; rewrite E in EP; destruct b; discriminate EP|]. simpl in E. injection E as -> E. exists a, b. auto.
      * exists (String c a), b. simpl. rewrite E. auto.
Qed.
Lemma collapse_none n s : count s ".." = 0%nat -> collapse_dots n s = s.
Proof.
  intro H. assert (HR : replace_all s ".." "." = s).
  { revert H. unfold count, replace_all. induction s as [|c s IH]; intro H; auto. cbn [count_from replace_all_from] in *.
    destruct (String.prefix ".." (String c s)); [discriminate|]. f_equal. auto. }
  destruct n; cbn [collapse_dots]; auto. rewrite HR, H. auto.
Qed.
(** one replacement leaves no double dot when there is no triple one *)
Lemma occurs_cons w c s : occurs w (String c s) <-> (exists b, String c s = w ++ b) \/ occurs w s.
Proof.
  split.
  - intros (a & b & E). destruct a as [|x a]; [left; exists b; auto|]. right. simpl in E. injection E as -> E. exists a, b. auto.
  - intros [(b & E)|(a & b & ->)]; [exists "", b; auto|exists (String c a), b; auto].
Qed.
Lemma replace_head s x u : replace_all s ".." "." = String x u -> exists s', s = String x s'.
Proof.
  destruct s as [|c s]; [discriminate|]. destruct (String.prefix ".." (String c s)) eqn:E.
  - apply prefix_dots in E. destruct E as (s' & -> & ->). rewrite dots_step. intro H. injection H as <- _. eauto.
  - rewrite other_step by auto. intro H. injection H as <- _. eauto.
Qed.
Lemma replace_single s : ~ occurs "..." s -> ~ occurs ".." (replace_all s ".." ".").
Proof.
  remember (String.length s) as n. revert s Heqn. induction n as [n IH] using lt_wf_ind. intros s -> HT. destruct s as [|c s].
  - intros (a & b & E). destruct a; discriminate.
  - destruct (String.prefix ".." (String c s)) eqn:E.
    + apply prefix_dots in E. destruct E as (s' & -> & ->). rewrite dots_step. rewrite occurs_cons. intros [(b & E)|H].
      * simpl in E. injection E as E. apply replace_head in E. destruct E as [s2 ->]. apply HT. exists "", s2. auto.
      * revert H. apply (IH (String.length s')); simpl; auto. intro H. apply HT. rewrite !occurs_cons. auto.
    + rewrite other_step by auto. rewrite occurs_cons. intros [(b & E2)|H].
      * simpl in E2. injection E2 as -> E2. apply replace_head in E2. destruct E2 as [s2 ->]. simpl in E. destruct s2; discriminate.
      * revert H. apply (IH (String.length s)); simpl; auto. intro H. apply HT. rewrite occurs_cons. auto.
Qed.
Theorem single_dots s t f : remove_quotes s = Ok f -> field_text s t -> ~ occurs "..." t -> ~ occurs ".." f.
Proof.
  intros H HT HN. apply remove_quotes_result in H. pose proof (field_text_fun _ _ (field_char_text s) _ HT) as E.
  rewrite <- stripped_cmap in E. rewrite E in H. destruct (count t "..") as [|k] eqn:EC.
  - rewrite collapse_none in H by auto. subst. apply count_zero. auto.
  - cbn [collapse_dots] in H. pose proof (replace_single t HN) as HR. pose proof (proj2 (count_zero _) HR) as E0. rewrite E0 in H. cbn [Nat.eqb] in H.
    subst. auto.
Qed.
(** plain names are unchanged *)
Theorem plain_field s : field_text s s -> ~ occurs ".." s -> remove_quotes s = Ok s.
Proof.
  intros HT HD. assert (HQ : forall c, quote c \/ c = "["%char \/ c = "]"%char -> occurrences c s = 0%nat).
  { clear HD. intros c HC. unfold occurrences. remember s as u eqn:Eu in HT at 2. revert Eu. 
    assert (G : forall s u, field_text s u -> (String.length u <= String.length s)%nat).
    { clear. induction 1; simpl; lia. }
    intro Eu. revert Eu. induction HT as [|x s t HX HT _|s t HT _|x s t N1 N2 N3 HT IH]; intro Eu; auto.
    - apply G in HT. rewrite Eu in HT. simpl in HT. lia.
    - discriminate.
    - injection Eu as Eu. simpl. destruct (ascii_dec x c) as [->|N]; auto. destruct HC as [HC|[->| ->]]; congruence. }
  destruct (proj2 (remove_quotes_ok s)) as [f E].
  - rewrite !HQ by (unfold quote; auto). split; [exists 0%nat; auto|split; [exists 0%nat; auto|auto]].
  - rewrite E. apply remove_quotes_result in E. rewrite E. pose proof (field_text_fun _ _ (field_char_text s) _ HT) as ES. rewrite <- stripped_cmap in ES.
    rewrite ES, collapse_none; auto. apply count_zero. auto.
Qed.
