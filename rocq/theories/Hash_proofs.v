(** Proofs about the texts and hashes of rules. *)
From Coq Require Import List String Ascii Bool Arith ZArith Permutation Lia.
From Verif Require Import Base GoStr GoStr_facts GoFloat Types Json StrUtils Validate Prepare Parse Marshal Strings
  Spec_Tree Spec_Glob Spec_Match Spec_Leaf Spec_Scope Spec_Json Spec_Strings Glob_proofs Match_proofs Tree_proofs Strings_proofs.
Import ListNotations.
Open Scope string_scope.

Lemma lower_same a b : to_lower a = to_lower b <-> same_ignoring_case a b.
Proof. apply lower_iff. Qed.
Lemma lower_same_self a : same_ignoring_case (to_lower a) a.
Proof.
  induction a as [|c a IH]; constructor; auto. apply lower_char_same. revert c. clear.
  assert (T : forallb (fun c => Ascii.eqb (lower_char (lower_char c)) (lower_char c)) all_ascii = true) by (vm_compute; reflexivity).
  intro c. rewrite forallb_forall in T. apply Ascii.eqb_eq, T, all_ascii_in.
Qed.
Lemma lower_avoids cs s : (forall c, In c cs -> In c [">"; ":"; "-"]%char) -> avoids cs s -> avoids cs (to_lower s).
Proof.
  intro HC. assert (T : forallb (fun c => forallb (fun d => negb (Ascii.eqb (lower_char c) d) || Ascii.eqb c d) [">"; ":"; "-"]%char) all_ascii = true)
    by (vm_compute; reflexivity).
  induction s as [|c s IH]; auto. intros [H1 H2]. split; [|apply IH; auto]. intro HI. apply H1.
  rewrite forallb_forall in T. specialize (T c (all_ascii_in c)). rewrite forallb_forall in T. specialize (T _ (HC _ HI)).
  rewrite Ascii.eqb_refl in T. apply Ascii.eqb_eq in T. congruence.
Qed.

Lemma lower_id s : all_chars (fun c => ~ (65 <= nat_of_ascii c <= 90)%nat) s -> s = to_lower s.
Proof.
  unfold to_lower. induction s as [|c s IH]; [auto|]. intros [H1 H2]. cbn [smap]. rewrite <- IH by auto. f_equal. unfold lower_char. cbv zeta.
  destruct (Nat.leb_spec 65 (nat_of_ascii c)), (Nat.leb_spec (nat_of_ascii c) 90); simpl; auto. lia.
Qed.

Section WithLib.
Variable L : Lib.
Notation node := (node L).
Notation text := (node_string L).
Notation rule := (rule L).

Lemma text_head n : forall s, text n = Some s -> exists c x, s = String c x /\ c <> "n"%char.
Proof.
  assert (HB : forall sep ns s, Forall (fun n => forall s, text n = Some s -> exists c x, s = String c x /\ c <> "n"%char) ns ->
    option_map (and_or_string sep) (all_some (map text ns)) = Some s -> exists c x, s = String c x /\ c <> "n"%char).
  { intros sep ns s HF E. destruct (all_some (map text ns)) as [xs|] eqn:EX; [|discriminate]. cbn [option_map] in E. injection E as <-.
    apply all_some_iff in EX. destruct xs as [|x [|y xs]]; cbn [and_or_string].
    - do 2 eexists. split; [reflexivity|discriminate].
    - inversion EX; subst. inversion HF; subst. eauto.
    - do 2 eexists. split; [reflexivity|discriminate]. }
  induction n using node_ind'; intros s E; cbn [node_string] in E; eauto; try discriminate.
  - destruct (text n); [|discriminate]. injection E as <-. do 2 eexists. split; [reflexivity|discriminate].
  - destruct (text n); [|discriminate]. injection E as <-. do 2 eexists. split; [reflexivity|discriminate].
  - injection E as <-. do 2 eexists. split; [reflexivity|discriminate].
  - injection E as <-. do 2 eexists. split; [reflexivity|discriminate].
  - injection E as <-. do 2 eexists. split; [reflexivity|discriminate].
Qed.
Lemma text_not_none n : text n <> Some "no conditions".
Proof. intro E. destruct (text_head _ _ E) as (c & x & H & HN). injection H as <- _. auto. Qed.

Lemma conditions_alike (r1 r2 : rule) : legible_conditions L (ru_tree r1) -> legible_conditions L (ru_tree r2) ->
  (conditions_string L r1 = conditions_string L r2 <-> alike_conditions L (ru_tree r1) (ru_tree r2)).
Proof.
  unfold conditions_string, legible_conditions, alike_conditions. destruct (ru_tree r1) as [n1|], (ru_tree r2) as [n2|]; intros H1 H2.
  - apply text_determines; auto.
  - split; [intro E; apply text_not_none in E; auto|contradiction].
  - split; [intro E; symmetry in E; apply text_not_none in E; auto|contradiction].
  - tauto.
Qed.

Lemma conditions_same_text (r1 r2 : rule) : alike_conditions L (ru_tree r1) (ru_tree r2) -> conditions_string L r1 = conditions_string L r2.
Proof.
  unfold conditions_string, alike_conditions. destruct (ru_tree r1) as [n1|], (ru_tree r2) as [n2|]; try contradiction; auto.
  intro H. apply alike_text; auto.
Qed.

Theorem same_text (r1 r2 : rule) : same_heading L r1 r2 -> alike_conditions L (ru_tree r1) (ru_tree r2) -> rule_string L r1 = rule_string L r2.
Proof.
  intros (H1 & H2 & H3 & H4 & H5 & H6 & H7 & H8 & H9) HA. unfold rule_string.
  apply lower_same in H1, H2, H4, H6, H7. rewrite (conditions_same_text _ _ HA), H1, H2, H3, H4, H5, H6, H7, H8, H9. reflexivity.
Qed.

Theorem text_same (r1 r2 : rule) s : plain_heading L r1 -> plain_heading L r2 ->
  rule_string L r1 = Some s -> rule_string L r2 = Some s -> same_heading L r1 r2 /\ conditions_string L r1 = conditions_string L r2.
Proof.
  intros (A1 & A2 & A3 & A4 & A5 & A6 & A7 & A8 & A9) (B1 & B2 & B3 & B4 & B5 & B6 & B7 & B8 & B9) E1 E2. unfold rule_string in *.
  destruct (conditions_string L r1) as [c1|]; [|discriminate]. destruct (conditions_string L r2) as [c2|]; [|discriminate].
  cbn [option_map] in *. injection E1 as <-. injection E2 as E.
  repeat first [rewrite append_assoc in E | progress cbn [append] in E]. symmetry in E.
  assert (HL : forall cs s, (forall c, In c cs -> In c [">"; ":"; "-"]%char) -> avoids cs s -> avoids cs (to_lower s)) by exact lower_avoids.
  assert (G1 : forall c, In c [">"]%char -> In c [">"; ":"; "-"]%char) by (simpl; intuition).
  assert (G2 : forall c, In c [":"]%char -> In c [">"; ":"; "-"]%char) by (simpl; intuition).
  assert (G3 : forall c, In c ["-"]%char -> In c [">"; ":"; "-"]%char) by (simpl; intuition).
  destruct (cut_at ">" [">"]%char _ _ _ _ (or_introl eq_refl) (HL _ _ G1 A1) (HL _ _ G1 B1) E) as [X1 Y1]. injection Y1 as Y1.
  destruct (cut_at ":" [":"]%char _ _ _ _ (or_introl eq_refl) (HL _ _ G2 A2) (HL _ _ G2 B2) Y1) as [X2 Y2].
  destruct (cut_at ">" [">"]%char _ _ _ _ (or_introl eq_refl) A3 B3 Y2) as [X3 Y3]. injection Y3 as Y3.
  destruct (cut_at ":" [":"]%char _ _ _ _ (or_introl eq_refl) (HL _ _ G2 A4) (HL _ _ G2 B4) Y3) as [X4 Y4].
  destruct (cut_at ">" [">"]%char _ _ _ _ (or_introl eq_refl) A5 B5 Y4) as [X5 Y5]. injection Y5 as Y5.
  destruct (cut_at "-" ["-"]%char _ _ _ _ (or_introl eq_refl) (HL _ _ G3 A6) (HL _ _ G3 B6) Y5) as [X6 Y6].
  destruct (cut_at "-" ["-"]%char _ _ _ _ (or_introl eq_refl) (HL _ _ G3 A7) (HL _ _ G3 B7) Y6) as [X7 Y7]. injection Y7 as Y7.
  destruct (cut_at "-" ["-"]%char _ _ _ _ (or_introl eq_refl) A8 B8 Y7) as [X8 Y8].
  destruct (cut_at ">" [">"]%char _ _ _ _ (or_introl eq_refl) A9 B9 Y8) as [X9 Y9]. injection Y9 as ->.
  split; auto. unfold same_heading. rewrite <- !lower_same. repeat split; assumption.
Qed.

Theorem text_reads_rule (r1 r2 : rule) s : plain_heading L r1 -> plain_heading L r2 ->
  legible_conditions L (ru_tree r1) -> legible_conditions L (ru_tree r2) ->
  rule_string L r1 = Some s -> (rule_string L r2 = Some s <-> same_heading L r1 r2 /\ alike_conditions L (ru_tree r1) (ru_tree r2)).
Proof.
  intros H1 H2 C1 C2 E. split.
  - intro E2. destruct (text_same _ _ _ H1 H2 E E2) as [HH HC]. split; auto. apply conditions_alike; auto.
  - intros [HH HA]. rewrite <- (same_text _ _ HH HA). auto.
Qed.

(** ** Hashes *)
Lemma rule_hash_text (r1 r2 : rule) : rule_string L r1 = rule_string L r2 -> rule_hash L r1 = rule_hash L r2.
Proof. unfold rule_hash. congruence. Qed.

Lemma conditions_equal_iff (r1 r2 : rule) b : conditions_equal L r1 r2 = Some b <->
  exists a1 a2, conditions_string L r1 = Some a1 /\ conditions_string L r2 = Some a2 /\ (b = true <-> md5hex L a1 = md5hex L a2).
Proof.
  unfold conditions_equal, conditions_hash. destruct (conditions_string L r1) as [a1|], (conditions_string L r2) as [a2|]; cbn [option_map].
  - split.
    + intro H. injection H as <-. exists a1, a2. rewrite String.eqb_eq. tauto.
    + intros (x & y & E1 & E2 & H). injection E1 as <-. injection E2 as <-. f_equal. destruct (String.eqb_spec (md5hex L a1) (md5hex L a2)), b; intuition congruence.
  - split; [discriminate|]. intros (? & ? & _ & ? & _). discriminate.
  - split; [discriminate|]. intros (? & ? & ? & _). discriminate.
  - split; [discriminate|]. intros (? & ? & ? & _). discriminate.
Qed.

(** children at any depth *)
Lemma shuffled_conditions (r1 r2 : rule) n1 n2 : ru_tree r1 = Some n1 -> ru_tree r2 = Some n2 -> shuffled n1 n2 ->
  conditions_string L r1 = conditions_string L r2.
Proof. unfold conditions_string. intros -> -> H. apply shuffled_text; auto. Qed.

(** the text exists exactly for trees without nil nodes *)
Lemma text_exists (n : node) : (exists s, text n = Some s) <-> no_nil L n.
Proof.
  revert n. assert (HB : forall f (ns : list node), Forall (fun n => (exists s, text n = Some s) <-> no_nil L n) ns ->
    ((exists s : string, option_map (f : list string -> string) (all_some (map text ns)) = Some s) <-> Forall (no_nil L) ns)).
  { intros f ns HF. rewrite Forall_forall in HF. destruct (all_some (map text ns)) as [xs|] eqn:E; cbn [option_map].
    - split; [|eauto]. intros _. apply all_some_iff in E. apply Forall_forall. intros n Hn. apply HF; auto.
      clear -E Hn. induction E; destruct Hn; subst; eauto.
    - split; [intros [? H]; discriminate|]. intro H. exfalso. apply all_some_none, Exists_exists in E. destruct E as (n & Hn & E).
      rewrite Forall_forall in H. destruct (proj2 (HF n Hn) (H n Hn)). congruence. }
  intro n. induction n using node_ind'; cbn [node_string].
  - rewrite HB by auto. split; [constructor; auto|inversion 1; auto].
  - rewrite HB by auto. split; [constructor; auto|inversion 1; auto].
  - split.
    + intros [s E]. constructor. apply IHn. destruct (text n); [eauto|discriminate].
    + inversion 1; subst. destruct (proj2 IHn H1) as [s ->]. eexists; reflexivity.
  - split.
    + intros [s E]. constructor. apply IHn. destruct (text n); [eauto|discriminate].
    + inversion 1; subst. destruct (proj2 IHn H1) as [s ->]. eexists; reflexivity.
  - split; [constructor|eauto].
  - split; [constructor|eauto].
  - split; [constructor|eauto].
  - split; [intros [s E]; discriminate|inversion 1].
Qed.
Definition no_nil_conditions (r : rule) : Prop := match ru_tree r with None => True | Some n => no_nil L n end.
Lemma conditions_exist (r : rule) : (exists s, conditions_string L r = Some s) <-> no_nil_conditions r.
Proof. unfold conditions_string, no_nil_conditions. destruct (ru_tree r); [apply text_exists|]. split; eauto. Qed.

(** ConditionsEqual is an equivalence *)
Theorem conditions_equal_refl (r : rule) : no_nil_conditions r -> conditions_equal L r r = Some true.
Proof. intro H. apply conditions_exist in H. destruct H as [s E]. apply conditions_equal_iff. exists s, s. tauto. Qed.
Theorem conditions_equal_sym (r1 r2 : rule) b : conditions_equal L r1 r2 = b -> conditions_equal L r2 r1 = b.
Proof.
  unfold conditions_equal. destruct (conditions_hash L r1), (conditions_hash L r2); auto. rewrite String.eqb_sym. auto.
Qed.
Theorem conditions_equal_trans (r1 r2 r3 : rule) : conditions_equal L r1 r2 = Some true -> conditions_equal L r2 r3 = Some true ->
  conditions_equal L r1 r3 = Some true.
Proof.
  unfold conditions_equal. destruct (conditions_hash L r1), (conditions_hash L r2), (conditions_hash L r3); try discriminate.
  destruct (String.eqb_spec s s0); [|discriminate]. destruct (String.eqb_spec s0 s1); [|discriminate]. intros _ _. subst.
  rewrite String.eqb_refl. auto.
Qed.
Theorem conditions_equal_defined (r1 r2 : rule) : conditions_equal L r1 r2 <> None <-> no_nil_conditions r1 /\ no_nil_conditions r2.
Proof.
  rewrite <- !conditions_exist. unfold conditions_equal, conditions_hash.
  destruct (conditions_string L r1), (conditions_string L r2); cbn [option_map]; split; try congruence; try (intros [[? ?] [? ?]]; discriminate); eauto.
Qed.
Theorem conditions_equal_alike (r1 r2 : rule) : no_nil_conditions r1 -> no_nil_conditions r2 ->
  alike_conditions L (ru_tree r1) (ru_tree r2) -> conditions_equal L r1 r2 = Some true.
Proof.
  intros H1 H2 HA. apply conditions_exist in H1, H2. destruct H1 as [s1 E1], H2 as [s2 E2].
  pose proof (conditions_same_text _ _ HA) as E. rewrite E1, E2 in E. injection E as ->.
  apply conditions_equal_iff. exists s2, s2. tauto.
Qed.
(** without collisions of the hash *)
Theorem conditions_equal_legible (r1 r2 : rule) : legible_conditions L (ru_tree r1) -> legible_conditions L (ru_tree r2) ->
  (forall s1 s2, conditions_string L r1 = Some s1 -> conditions_string L r2 = Some s2 -> md5hex L s1 = md5hex L s2 -> s1 = s2) ->
  (conditions_equal L r1 r2 = Some true <-> alike_conditions L (ru_tree r1) (ru_tree r2)).
Proof.
  intros H1 H2 HM. assert (HL : forall n, legible L n -> no_nil L n).
  { clear. induction n using node_ind'; inversion 1; subst; constructor; auto; rewrite Forall_forall in *; auto. }
  assert (HN : forall r : rule, legible_conditions L (ru_tree r) -> no_nil_conditions r).
  { intros r. unfold legible_conditions, no_nil_conditions. destruct (ru_tree r); auto. }
  split; [|intro; apply conditions_equal_alike; auto].
  intro E. apply conditions_equal_iff in E. destruct E as (a1 & a2 & E1 & E2 & HE).
  apply conditions_alike; auto. rewrite E1, E2. f_equal. apply HM; auto. apply HE. auto.
Qed.

(** ** ToLower *)
Theorem lower_text (r : rule) : ru_resource_type r = to_lower (ru_resource_type r) -> rule_string L (rule_to_lower L r) = rule_string L r.
Proof.
  intro E. apply same_text.
  - unfold same_heading, rule_to_lower; simpl. repeat split; try apply lower_same_self; auto.
  - unfold alike_conditions, rule_to_lower; simpl. destruct (ru_tree r); auto. apply al_same.
Qed.
End WithLib.
