(** Proofs about replaced texts and the results of JSON paths (Spec_Cleaned). *)
From Coq Require Import List String Ascii Bool Arith ZArith Lia.
From Verif Require Import Base GoStr GoFloat Types Json StrUtils Validate Prepare Eval GoStr_facts Spec_Tree Tree_laws Spec_Regex Spec_Glob Glob_proofs
  Spec_Names Spec_Leaf Number_proofs Leaf_proofs Leaf_laws Spec_Cleaned.
Import ListNotations.
Open Scope string_scope.
Local Arguments String.prefix : simpl never.

(** ** Replacing *)
Lemma skip_all w r x s : replace_all_from w r (String.length x) (x ++ s) = replace_all_from w r 0 s.
Proof. induction x as [|c x IH]; [reflexivity|]. cbn. exact IH. Qed.

Lemma replace_here w r s : w <> "" -> replace_all (w ++ s) w r = r ++ replace_all s w r.
Proof.
  intro HW. destruct w as [|c w]; [congruence|]. unfold replace_all.
  cbn [append replace_all_from].
  replace (String.prefix (String c w) (String c (w ++ s))) with true by (symmetry; apply prefix_iff; exists s; reflexivity).
  f_equal. change (String.length (String c w) - 1)%nat with (String.length w - 0)%nat. rewrite Nat.sub_0_r. apply skip_all.
Qed.
Lemma replace_pass w r c s : String.prefix w (String c s) = false -> replace_all (String c s) w r = String c (replace_all s w r).
Proof. intro H. unfold replace_all. cbn [replace_all_from]. rewrite H. reflexivity. Qed.

Lemma not_here w c s : ~ (exists x, String c s = w ++ x) -> String.prefix w (String c s) = false.
Proof. intro H. destruct (String.prefix w (String c s)) eqn:E; [|reflexivity]. apply prefix_iff in E. destruct (H E). Qed.

Lemma replace_none w r s : ~ occurs w s -> replace_all s w r = s.
Proof.
  induction s as [|c s IH]; intro H; [reflexivity|]. rewrite replace_pass.
  - rewrite IH; [reflexivity|]. intros (a & b & ->). apply H. exists (String c a), b. reflexivity.
  - apply not_here. intros [x E]. apply H. exists "", x. exact E.
Qed.

Lemma replace_earliest w r a s : w <> "" -> earliest w a s -> replace_all (a ++ w ++ s) w r = a ++ r ++ replace_all s w r.
Proof.
  intros HW. induction a as [|c a IH]; intro HE; [exact (replace_here w r s HW)|].
  cbn [append]. rewrite replace_pass.
  - rewrite IH; [reflexivity|]. intros a' s' E. specialize (HE (String c a') s'). cbn in HE. rewrite E in HE. specialize (HE eq_refl). lia.
  - apply not_here. intros [x E]. specialize (HE "" x E). cbn in HE. lia.
Qed.

Lemma replaced_run w r s t : w <> "" -> all_replaced w r s t -> replace_all s w r = t.
Proof.
  intros HW H. induction H as [s HN|a s t HE _ IH]; [apply replace_none; exact HN|].
  rewrite replace_earliest, IH; auto.
Qed.

Lemma find_first w s : w <> "" -> ~ occurs w s \/ exists a b, s = a ++ w ++ b /\ earliest w a b.
Proof.
  intro HW. induction s as [|c s IH].
  - left. intros (a & b & E). destruct a; [|discriminate]. destruct w; [congruence|discriminate].
  - destruct (String.prefix w (String c s)) eqn:EP.
    + apply prefix_iff in EP. destruct EP as [b E]. right. exists "", b. split; [exact E|]. intros a' s' _. cbn. lia.
    + assert (H0 : forall x, String c s <> w ++ x).
      { intros x E. assert (X : String.prefix w (String c s) = true) by (apply prefix_iff; exists x; exact E). congruence. }
      destruct IH as [HN|(a & b & -> & HE)].
      * left. intros (a & b & E). destruct a as [|x a]; [exact (H0 b E)|]. injection E as _ E. apply HN. exists a, b. exact E.
      * right. exists (String c a), b. split; [reflexivity|]. intros a' s' E. destruct a' as [|x a']; [destruct (H0 s' E)|].
        cbn in E. injection E as _ E. apply HE in E. cbn. lia.
Qed.

Lemma replaced_exists w r : w <> "" -> forall n s, (String.length s < n)%nat -> exists t, all_replaced w r s t.
Proof.
  intro HW. induction n as [|n IH]; intros s HL; [lia|].
  destruct (find_first w s HW) as [HN|(a & b & -> & HE)].
  - exists s. apply ar_none. exact HN.
  - destruct (IH b) as [t HT].
    + rewrite !length_append in HL. destruct w; [congruence|]. cbn in HL. lia.
    + exists (a ++ r ++ t). apply ar_next; assumption.
Qed.

Theorem replace_all_iff w r s t : w <> "" -> (replace_all s w r = t <-> all_replaced w r s t).
Proof.
  intro HW. split; [|apply replaced_run; exact HW]. intros <-.
  destruct (replaced_exists w r HW (S (String.length s)) s) as [t HT]; [lia|].
  rewrite (replaced_run w r s t HW HT). exact HT.
Qed.

Lemma first_earliest w r a s : w <> "" -> earliest w a s -> replace_first (a ++ w ++ s) w r = a ++ r ++ s.
Proof.
  intro HW. induction a as [|c a IH]; intro HE.
  - cbn [append]. assert (E : String.prefix w (w ++ s) = true) by (apply prefix_iff; exists s; reflexivity).
    destruct w as [|c w]; [congruence|]. cbn [append replace_first] in *. rewrite E. f_equal.
    clear. induction w as [|x w IH]; [reflexivity|]. cbn. exact IH.
  - cbn [append replace_first]. rewrite not_here.
    + rewrite IH; [reflexivity|]. intros a' s' E. specialize (HE (String c a') s'). cbn in HE. rewrite E in HE. specialize (HE eq_refl). lia.
    + intros [x E]. specialize (HE "" x E). cbn in HE. lia.
Qed.
Lemma first_none w r s : w <> "" -> ~ occurs w s -> replace_first s w r = s.
Proof.
  intro HW. induction s as [|c s IH]; intro H.
  - cbn. destruct w; [congruence|reflexivity].
  - cbn [replace_first]. rewrite not_here.
    + rewrite IH; [reflexivity|]. intros (a & b & ->). apply H. exists (String c a), b. reflexivity.
    + intros [x E]. apply H. exists "", x. exact E.
Qed.
Theorem replace_first_iff w r s t : w <> "" -> (replace_first s w r = t <-> first_replaced w r s t).
Proof.
  intro HW. split.
  - intros <-. destruct (find_first w s HW) as [HN|(a & b & -> & HE)].
    + rewrite first_none by assumption. apply fr_none. exact HN.
    + rewrite first_earliest by assumption. apply fr_first. exact HE.
  - destruct 1 as [s HN|a s HE]; [apply first_none|apply first_earliest]; assumption.
Qed.

Lemma count_skip w x s : count_from w (String.length x) (x ++ s) = count_from w 0 s.
Proof. induction x as [|c x IH]; [reflexivity|]. cbn. exact IH. Qed.
Lemma count_here w s : w <> "" -> count (w ++ s) w = S (count s w).
Proof.
  intro HW. destruct w as [|c w]; [congruence|]. unfold count. cbn [append count_from].
  replace (String.prefix (String c w) (String c (w ++ s))) with true by (symmetry; apply prefix_iff; exists s; reflexivity).
  f_equal. change (String.length (String c w) - 1)%nat with (String.length w - 0)%nat. rewrite Nat.sub_0_r. apply count_skip.
Qed.
Lemma count_pass w c s : String.prefix w (String c s) = false -> count (String c s) w = count s w.
Proof. intro H. unfold count. cbn [count_from]. rewrite H. reflexivity. Qed.
Lemma count_none w s : ~ occurs w s -> count s w = 0%nat.
Proof.
  induction s as [|c s IH]; intro H; [reflexivity|]. rewrite count_pass.
  - apply IH. intros (a & b & ->). apply H. exists (String c a), b. reflexivity.
  - apply not_here. intros [x E]. apply H. exists "", x. exact E.
Qed.
Lemma count_earliest w a s : w <> "" -> earliest w a s -> count (a ++ w ++ s) w = S (count s w).
Proof.
  intros HW. induction a as [|c a IH]; intro HE; [exact (count_here w s HW)|].
  cbn [append]. rewrite count_pass.
  - apply IH. intros a' s' E. specialize (HE (String c a') s'). cbn in HE. rewrite E in HE. specialize (HE eq_refl). lia.
  - apply not_here. intros [x E]. specialize (HE "" x E). cbn in HE. lia.
Qed.
Lemma times_run w s n : w <> "" -> times w s n -> count s w = n.
Proof.
  intros HW H. induction H as [s HN|a s n HE _ IH]; [apply count_none; exact HN|]. rewrite count_earliest, IH; auto.
Qed.
Lemma times_exists w : w <> "" -> forall k s, (String.length s < k)%nat -> exists n, times w s n.
Proof.
  intro HW. induction k as [|k IH]; intros s HL; [lia|]. destruct (find_first w s HW) as [HN|(a & b & -> & HE)].
  - exists 0%nat. apply tm_none. exact HN.
  - destruct (IH b) as [n HT]; [rewrite !length_append in HL; destruct w; [congruence|]; cbn in HL; lia|].
    exists (S n). apply tm_next; assumption.
Qed.
Theorem count_iff w s n : w <> "" -> (count s w = n <-> times w s n).
Proof.
  intro HW. split; [|apply times_run; exact HW]. intros <-.
  destruct (times_exists w HW (S (String.length s)) s) as [n HT]; [lia|]. rewrite (times_run w s n HW HT). exact HT.
Qed.

Lemma absent_cons c x s : ~ occurs (String c "") (String x s) <-> x <> c /\ ~ occurs (String c "") s.
Proof.
  split.
  - intro H. split; [intros ->; apply H; exists "", s; reflexivity|]. intros (a & b & ->). apply H. exists (String x a), b. reflexivity.
  - intros [HX HS] (a & b & E). destruct a as [|y a]; cbn in E; injection E as E1 E2; [congruence|]. apply HS. exists a, b. exact E2.
Qed.
Lemma split_char_separated c s : separated c s (split_char c s).
Proof.
  induction s as [|x s IH]; cbn [split_char].
  - apply sp_last. intros (a & b & E). destruct a; discriminate.
  - destruct (Ascii.eqb_spec x c) as [->|N].
    + apply (sp_next c "" s). { intros (a & b & E). destruct a; discriminate. } exact IH.
    + destruct IH as [s HS|a s l HA HS].
      * apply sp_last. apply absent_cons. auto.
      * apply (sp_next c (String x a) s l); [apply absent_cons; auto|exact HS].
Qed.
Lemma separated_split c s l : separated c s l -> split_char c s = l.
Proof.
  induction 1 as [s HS|a s l HA _ IH].
  - induction s as [|x s IH]; [reflexivity|]. apply absent_cons in HS. destruct HS as [HX HS]. cbn [split_char].
    apply Ascii.eqb_neq in HX. rewrite HX, IH by exact HS. reflexivity.
  - induction a as [|x a IHA]; cbn [append split_char].
    + rewrite Ascii.eqb_refl, IH. reflexivity.
    + apply absent_cons in HA. destruct HA as [HX HA]. apply Ascii.eqb_neq in HX. rewrite HX, IHA by exact HA. reflexivity.
Qed.
Theorem split_char_iff c s l : split_char c s = l <-> separated c s l.
Proof. split; [intros <-; apply split_char_separated|apply separated_split]. Qed.

(** ** Results *)
Definition rewritten (v : string) : string :=
  replace_all (replace_all (replace_all (replace_all v "[[" "[") "]]" "]") (String "[" dqs) dqs) (String dq "]") dqs.
Lemma unbracketed_iff raw d : unbracketed raw d <-> rewritten raw = d.
Proof.
  unfold unbracketed, rewritten. split.
  - intros (a & b & c & H1 & H2 & H3 & H4).
    apply replace_all_iff in H1, H2, H3, H4; try discriminate. rewrite H1, H2. change (String "[" dqs) with ("[" ++ dqs). rewrite H3. exact H4.
  - intros H. eexists. eexists. eexists. repeat split; [apply replace_all_iff; [discriminate|reflexivity]..|].
    apply replace_all_iff; [discriminate|exact H].
Qed.

Lemma starts_dq_iff u : starts_dq u = true <-> first_mark u.
Proof.
  unfold starts_dq, first_char, first_mark. destruct u as [|c u]; cbn.
  - split; [discriminate|]. intros [x E]. discriminate.
  - rewrite Ascii.eqb_eq. split; [intros ->; exists u; reflexivity|]. intros [x E]. injection E; auto.
Qed.
Lemma ends_dq_iff u : ends_dq u = true <-> last_mark u.
Proof.
  unfold ends_dq, last_char, last_mark. split.
  - destruct (String.get (String.length u - 1) u) as [c|] eqn:E; [|discriminate]. intro H. apply Ascii.eqb_eq in H. subst c. apply last_get. exact E.
  - intros [x ->]. unfold dqs. rewrite get_last. reflexivity.
Qed.

Lemma both_marks u : (2 <= String.length u)%nat -> first_mark u -> last_mark u -> exists x, u = dqs ++ x ++ dqs.
Proof.
  intros HL [x ->] [y E]. destruct y as [|c y].
  - cbn in E, HL. injection E as ->. cbn in HL. lia.
  - cbn in E. injection E as _ E. exists y. cbn. rewrite E. reflexivity.
Qed.
Lemma quoted_marks x : first_mark (dqs ++ x ++ dqs) /\ last_mark (dqs ++ x ++ dqs) /\ (2 <= String.length (dqs ++ x ++ dqs))%nat.
Proof.
  split; [exists (x ++ dqs); reflexivity|]. split; [exists (dqs ++ x); rewrite append_assoc; reflexivity|].
  rewrite !length_append. change (String.length dqs) with 1%nat. lia.
Qed.

Definition peel (v : string) : string :=
  let v := if String.eqb v "[]" then "" else v in
  if (2 <=? String.length v)%nat && (starts_dq v && ends_dq v) then strip_ends v else v.
Lemma removed_steps v : remove_quotes_and_brackets v = peel (rewritten v).
Proof. reflexivity. Qed.

Lemma peel_quotes x : peel (dqs ++ x ++ dqs) = x.
Proof.
  unfold peel. change (String.eqb (dqs ++ x ++ dqs) "[]") with false. cbv zeta iota. destruct (quoted_marks x) as (H1 & H2 & H3).
  apply starts_dq_iff in H1. apply ends_dq_iff in H2. apply Nat.leb_le in H3. rewrite H1, H2, H3. cbn [andb]. apply strip_quoted.
Qed.
Lemma peel_iff d u : peeled d u <-> peel d = u.
Proof.
  split.
  - destruct 1 as [|x|d HN HX]; [reflexivity|apply peel_quotes|].
    unfold peel. apply String.eqb_neq in HN. rewrite HN. cbv zeta.
    destruct ((2 <=? String.length d)%nat && (starts_dq d && ends_dq d)) eqn:E; [|reflexivity].
    apply andb_true_iff in E. destruct E as [E1 E2]. apply andb_true_iff in E2. destruct E2 as [E2 E3].
    apply Nat.leb_le in E1. apply starts_dq_iff in E2. apply ends_dq_iff in E3.
    destruct (both_marks d E1 E2 E3) as [x EX]. destruct (HX x EX).
  - intros <-. destruct (String.eqb_spec d "[]") as [->|HN]; [apply pl_list|].
    assert (HC : (exists x, d = dqs ++ x ++ dqs) \/ forall x, d <> dqs ++ x ++ dqs).
    { destruct ((2 <=? String.length d)%nat && (starts_dq d && ends_dq d)) eqn:E.
      - left. apply andb_true_iff in E. destruct E as [E1 E2]. apply andb_true_iff in E2. destruct E2 as [E2 E3].
        apply both_marks; [apply Nat.leb_le; exact E1|apply starts_dq_iff; exact E2|apply ends_dq_iff; exact E3].
      - right. intros x ->. destruct (quoted_marks x) as (H1 & H2 & H3).
        apply starts_dq_iff in H1. apply ends_dq_iff in H2. apply Nat.leb_le in H3. rewrite H1, H2, H3 in E. discriminate. }
    destruct HC as [[x ->]|HX]; [rewrite peel_quotes; apply pl_quotes|].
    unfold peel. rewrite (proj2 (String.eqb_neq _ _) HN). cbv zeta.
    destruct ((2 <=? String.length d)%nat && (starts_dq d && ends_dq d)) eqn:E; [|apply pl_other; assumption].
    apply andb_true_iff in E. destruct E as [E1 E2]. apply andb_true_iff in E2. destruct E2 as [E2 E3].
    apply Nat.leb_le in E1. apply starts_dq_iff in E2. apply ends_dq_iff in E3.
    destruct (both_marks d E1 E2 E3) as [x EX]. destruct (HX x EX).
Qed.

Lemma status_steps raw : status_of raw =
  let u := peel (rewritten raw) in
  if String.eqb u "" then Missing else match remove_quotes_from_result u with None => Misaligned | Some t => Present t end.
Proof. unfold status_of. rewrite removed_steps. destruct (String.eqb_spec raw "") as [->|H]; reflexivity. Qed.

Lemma result_one c : remove_quotes_from_result (String c "") = Some (String c "").
Proof. reflexivity. Qed.
Lemma result_quoted x : remove_quotes_from_result (dqs ++ x ++ dqs) = Some x.
Proof.
  unfold remove_quotes_from_result. destruct (quoted_marks x) as (H1 & H2 & H3).
  apply starts_dq_iff in H1. apply ends_dq_iff in H2. rewrite H1, H2. cbn [negb andb orb].
  replace (1 <? String.length (dqs ++ x ++ dqs))%nat with true by (symmetry; apply Nat.ltb_lt; lia). rewrite strip_quoted. reflexivity.
Qed.
Lemma bool_cases b : b = true \/ b = false.
Proof. destruct b; auto. Qed.
Lemma not_first u : starts_dq u = false <-> ~ first_mark u.
Proof. rewrite <- starts_dq_iff. destruct (starts_dq u); split; congruence. Qed.
Lemma not_last u : ends_dq u = false <-> ~ last_mark u.
Proof. rewrite <- ends_dq_iff. destruct (ends_dq u); split; congruence. Qed.

Theorem status_iff raw s : status_of raw = s <-> compared raw s.
Proof.
  rewrite status_steps. cbv zeta. split.
  - intros <-. set (u := peel (rewritten raw)).
    assert (H1 : unbracketed raw (rewritten raw)) by (apply unbracketed_iff; reflexivity).
    assert (H2 : peeled (rewritten raw) u) by (apply peel_iff; reflexivity).
    clearbody u. destruct (String.eqb_spec u "") as [->|HU]; [eapply cp_missing; eauto|].
    destruct (string_dec u dqs) as [->|HD]; [eapply cp_plain; eauto|].
    unfold remove_quotes_from_result.
    destruct (starts_dq u) eqn:ES; destruct (ends_dq u) eqn:EE; cbn [negb andb orb].
    + apply starts_dq_iff in ES. apply ends_dq_iff in EE.
      assert (HL : (2 <= String.length u)%nat).
      { destruct ES as [x ->]. destruct x as [|c x]; [destruct HD; reflexivity|]. cbn. lia. }
      replace (1 <? String.length u)%nat with true by (symmetry; apply Nat.ltb_lt; lia).
      destruct (both_marks u HL ES EE) as [x ->]. rewrite strip_quoted. eapply cp_quoted; eauto.
    + apply starts_dq_iff in ES. apply not_last in EE.
      replace (1 <? String.length u)%nat with true; [eapply cp_one_side; eauto|].
      symmetry. apply Nat.ltb_lt. destruct ES as [x ->]. destruct x as [|c x]; [destruct HD; reflexivity|]. cbn. lia.
    + apply not_first in ES. apply ends_dq_iff in EE.
      replace (1 <? String.length u)%nat with true; [eapply cp_one_side; eauto|].
      symmetry. apply Nat.ltb_lt. destruct EE as [x ->]. destruct x as [|c x]; [destruct HD; reflexivity|]. rewrite length_append. cbn. lia.
    + apply not_first in ES. apply not_last in EE.
      assert (H : compared raw (Present u)) by (eapply cp_plain; eauto). destruct (1 <? String.length u)%nat; exact H.
  - destruct 1 as [d H1 H2|d x H1 H2|d u H1 H2 HD HS|d u H1 H2 HU HS];
      apply unbracketed_iff in H1; apply peel_iff in H2; rewrite H1, H2.
    + reflexivity.
    + rewrite result_quoted. reflexivity.
    + unfold remove_quotes_from_result.
      assert (HL : (1 <? String.length u)%nat = true).
      { apply Nat.ltb_lt. destruct HS as [[[x ->] _]|[[x ->] _]].
        - destruct x as [|c x]; [destruct HD; reflexivity|]. cbn. lia.
        - destruct x as [|c x]; [destruct HD; reflexivity|]. rewrite length_append. cbn. lia. }
      rewrite HL. destruct (String.eqb_spec u "") as [->|_]; [discriminate HL|].
      destruct HS as [[HF HE]|[HE HF]].
      * apply starts_dq_iff in HF. apply not_last in HE. rewrite HF, HE. reflexivity.
      * apply not_first in HF. apply ends_dq_iff in HE. rewrite HF, HE. reflexivity.
    + rewrite (proj2 (String.eqb_neq _ _) HU). destruct HS as [->|[HF HE]]; [reflexivity|].
      unfold remove_quotes_from_result. apply not_first in HF. apply not_last in HE. rewrite HF, HE. cbn [negb andb orb].
      destruct (1 <? String.length u)%nat; reflexivity.
Qed.

(** ** Conditions *)
Theorem parsed_condition : forall L p att method value ret c v k rel query q d u s m b, NumberSpec L ->
  prepares L p att method value ret c -> replaced p method value v -> plain_value v -> method_is method k ->
  path_of att rel query -> ~ In query ["$KEY"; "$VALUE"] -> m_raw m <> None -> jp_prepare L query = Some q ->
  (if rel then m_raw_rel m else m_raw m) = Some d -> asks L q d = Some u -> text_of L u <> "<nil>" ->
  compared (text_of L u) s -> may_return L (NCond c) m b -> (b = true <-> satisfied L k v s).
Proof.
  intros L p att method value ret c v k rel query q d u s m b HN HP HR HV HK HPO HQ HM HJ HD HA HT HC HB.
  eapply condition_iff; eauto. exists rel, query. split; [exact HPO|].
  pose proof (sa_parsed L m rel query q d HM HQ HJ HD) as HX. rewrite HA in HX. unfold value_status in HX.
  rewrite (proj2 (String.eqb_neq _ _) HT) in HX. apply status_iff in HC. rewrite HC in HX. exact HX.
Qed.
Theorem raw_condition : forall L p att method value ret c v k rel query d raw s m b, NumberSpec L ->
  prepares L p att method value ret c -> replaced p method value v -> plain_value v -> method_is method k ->
  path_of att rel query -> ~ In query ["$KEY"; "$VALUE"] -> m_raw m = None ->
  (if rel then m_json_rel m else m_json m) = Some d -> d <> "" -> fetch L d query = Some raw ->
  compared raw s -> may_return L (NCond c) m b -> (b = true <-> satisfied L k v s).
Proof.
  intros L p att method value ret c v k rel query d raw s m b HN HP HR HV HK HPO HQ HM HD HE HF HC HB.
  eapply condition_iff; eauto. exists rel, query. split; [exact HPO|].
  pose proof (sa_raw L m rel query d HM HQ HD HE) as HX. rewrite HF in HX. apply status_iff in HC. rewrite HC in HX. exact HX.
Qed.

(** ** Lists *)
Definition keep_char (c : ascii) : bool := negb (Ascii.eqb c "[") && negb (Ascii.eqb c "]").
Fixpoint strip_brackets (s : string) : string :=
  match s with EmptyString => "" | String c s' => if keep_char c then String c (strip_brackets s') else strip_brackets s' end.
Lemma keep_iff c : keep_char c = true <-> ~ In c ["["; "]"]%char.
Proof.
  unfold keep_char. rewrite andb_true_iff, !negb_true_iff, !Ascii.eqb_neq. cbn. intuition congruence.
Qed.
Lemma no_brackets_iff s t : no_brackets s t <-> strip_brackets s = t.
Proof.
  split.
  - induction 1 as [|c s t HI _ IH|c s t HI _ IH]; [reflexivity| |]; cbn.
    + destruct (keep_char c) eqn:E; [apply keep_iff in E; contradiction|exact IH].
    + apply keep_iff in HI. rewrite HI, IH. reflexivity.
  - revert t. induction s as [|c s IH]; intros t <-; cbn; [apply nb_end|].
    destruct (keep_char c) eqn:E.
    + apply nb_keep; [apply keep_iff; exact E|apply IH; reflexivity].
    + apply nb_drop; [|apply IH; reflexivity].
      unfold keep_char in E. apply andb_false_iff in E. rewrite !negb_false_iff, !Ascii.eqb_eq in E. cbn. destruct E; auto.
Qed.
Lemma replace_one k r c s : replace_all (String c s) (String k "") r = (if Ascii.eqb k c then r else String c "") ++ replace_all s (String k "") r.
Proof.
  destruct (Ascii.eqb_spec k c) as [->|N].
  - apply (replace_here (String c "") r s). discriminate.
  - rewrite replace_pass; [reflexivity|]. apply not_here. intros [x E]. injection E. congruence.
Qed.
Lemma brackets_removed s : replace_all (replace_all s "[" "") "]" "" = strip_brackets s.
Proof.
  induction s as [|c s IH]; [reflexivity|]. rewrite replace_one. cbn [strip_brackets]. unfold keep_char.
  rewrite (Ascii.eqb_sym "["). destruct (Ascii.eqb c "["); cbn [negb andb append]; [exact IH|].
  rewrite replace_one, (Ascii.eqb_sym "]"), IH. destruct (Ascii.eqb c "]"); reflexivity.
Qed.
Lemma strip_comma a b : strip_brackets (a ++ "," ++ b) = strip_brackets a ++ "," ++ strip_brackets b.
Proof. induction a as [|c a IH]; cbn; [reflexivity|]. destruct (keep_char c); [cbn; f_equal|]; exact IH. Qed.
Lemma strip_items l : strip_brackets (String.concat "," l) = String.concat "," (map strip_brackets l).
Proof.
  induction l as [|x l IH]; [reflexivity|]. destruct l as [|y l]; [reflexivity|].
  change (String.concat "," (x :: y :: l)) with (x ++ "," ++ String.concat "," (y :: l)). rewrite strip_comma, IH. reflexivity.
Qed.
Lemma comma_absent s : all_chars (fun c => c <> ","%char) s -> all_chars (fun c => c <> ","%char) (strip_brackets s).
Proof. induction s as [|c s IH]; cbn; [auto|]. intros [H1 H2]. destruct (keep_char c); cbn; auto. Qed.
Lemma comma_replaced s r rest : all_chars (fun c => c <> ","%char) s -> replace_all (s ++ "," ++ rest) "," r = s ++ r ++ replace_all rest "," r.
Proof.
  induction s as [|c s IH]; intro H.
  - apply (replace_here "," r rest). discriminate.
  - destruct H as [H1 H2]. cbn [append]. rewrite replace_one. destruct (Ascii.eqb_spec "," c) as [<-|_]; [congruence|].
    cbn [append]. f_equal. apply IH. exact H2.
Qed.
Lemma comma_none s r : all_chars (fun c => c <> ","%char) s -> replace_all s "," r = s.
Proof.
  induction s as [|c s IH]; intro H; [reflexivity|]. destruct H as [H1 H2]. rewrite replace_one, IH by exact H2.
  destruct (Ascii.eqb_spec "," c) as [<-|_]; [congruence|reflexivity].
Qed.
Lemma commas_replaced r l : l <> [] -> Forall (all_chars (fun c => c <> ","%char)) l -> replace_all (String.concat "," l) "," r = String.concat r l.
Proof.
  induction l as [|x l IH]; intros HN HF; [congruence|]. inversion HF as [|y l' H1 H2]; subst. destruct l as [|y l].
  - apply comma_none. exact H1.
  - change (String.concat "," (x :: y :: l)) with (x ++ "," ++ String.concat "," (y :: l)).
    rewrite comma_replaced by exact H1. rewrite IH; [reflexivity|discriminate|exact H2].
Qed.
Theorem alternatives_text v items parts : comma_items v items -> Forall2 no_brackets items parts ->
  list_to_alternatives v = "^" ++ String.concat "$|^" parts ++ "$".
Proof.
  intros (HN & HF & ->) H2. unfold list_to_alternatives. rewrite brackets_removed, strip_items.
  assert (E : map strip_brackets items = parts).
  { clear -H2. induction H2 as [|x y l l' H _ IH]; [reflexivity|]. cbn. apply no_brackets_iff in H. rewrite H, IH. reflexivity. }
  rewrite <- E, commas_replaced; [reflexivity| |].
  - destruct items; [congruence|discriminate].
  - apply Forall_forall. intros x HX. apply in_map_iff in HX. destruct HX as (y & <- & HY). apply comma_absent.
    rewrite Forall_forall in HF. apply HF. exact HY.
Qed.
