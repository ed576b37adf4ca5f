(** Validation of conditions against its specification; validation never panics. *)
From Coq Require Import List String Ascii Bool Arith ZArith Lia.
From Verif Require Import Base GoStr GoStr_facts GoFloat Types StrUtils Validate Prepare Spec_Tree Spec_Glob Glob_proofs Match_proofs
  Spec_Leaf Number_proofs Leaf_proofs Leaf_laws Attr_proofs Spec_Validate.
Import ListNotations.
Open Scope string_scope.
Local Arguments String.prefix : simpl never.

(** ** Texts *)
Lemma contains_some w s : contains s w = true -> exists a b, s = a ++ w ++ b.
Proof.
  induction s as [|c s IH]; cbn [contains]; intro H; apply orb_true_iff in H; destruct H as [H|H].
  - apply prefix_iff in H. destruct H as [r E]. exists "", r. auto.
  - discriminate.
  - apply prefix_iff in H. destruct H as [r E]. exists "", r. auto.
  - destruct (IH H) as (a & b & ->). exists (String c a), b. auto.
Qed.
Lemma contains_no w s : contains s w = false -> forall a b, s <> a ++ w ++ b.
Proof.
  induction s as [|c s IH]; intros H a b E; cbn [contains] in H; apply orb_false_iff in H; destruct H as [H1 H2].
  - destruct a; [|discriminate]. simpl in E. rewrite E, prefix_app_eq in H1. discriminate.
  - destruct a as [|x a].
    + simpl in E. rewrite E, prefix_app_eq in H1. discriminate.
    + injection E; intros E1 E2. eapply IH; eauto.
Qed.

Lemma index_range s sub : forall i, (0 <= i)%Z -> index_from i s sub = (-1)%Z \/ (i <= index_from i s sub <= i + Z.of_nat (String.length s))%Z.
Proof.
  induction s as [|c s IH]; intros i HI; cbn [index_from].
  - destruct (String.prefix sub ""); [right; simpl; lia|auto].
  - destruct (String.prefix sub (String c s)); [right; lia|].
    destruct (IH (i + 1)%Z) as [H|H]; [lia|auto|right]. simpl String.length. lia.
Qed.
Lemma index_zero s p : (index s p =? 0)%Z = has_prefix s p.
Proof.
  unfold index, has_prefix. destruct s as [|c s]; cbn [index_from].
  - destruct (String.prefix p ""); auto.
  - destruct (String.prefix p (String c s)); [auto|].
    apply Z.eqb_neq. destruct (index_range s p (0 + 1)%Z); lia.
Qed.

Lemma index_char s ch : index s (String ch "") = (-1)%Z /\ all_chars (fun c => c <> ch) s \/
  exists a b, s = a ++ String ch b /\ all_chars (fun c => c <> ch) a /\ index s (String ch "") = Z.of_nat (String.length a).
Proof.
  assert (H : all_chars (fun c => c <> ch) s \/ exists a b, s = a ++ String ch b /\ all_chars (fun c => c <> ch) a).
  { induction s as [|c s IH]; [left; simpl; auto|]. destruct (Ascii.eqb c ch) eqn:E.
    - apply Ascii.eqb_eq in E. subst. right. exists "", s. simpl. auto.
    - apply Ascii.eqb_neq in E. destruct IH as [IH|(a & b & -> & IH)]; [left; simpl; auto|].
      right. exists (String c a), b. simpl. auto. }
  destruct H as [H|(a & b & -> & H)].
  - left. split; auto. unfold index. clear -H. generalize 0%Z. induction s as [|c s IH]; intro i; auto.
    destruct H as [H1 H2]. cbn [index_from]. rewrite prefix_one. apply Ascii.eqb_neq in H1. rewrite H1. auto.
  - right. exists a, b. split; auto. split; auto. unfold index. rewrite index_before by auto. lia.
Qed.

Lemma label_format s : label_format_ok s = true <-> s = "" \/ exists k, s = k ++ "]" /\ label_key_ok k.
Proof.
  unfold label_format_ok. rewrite negb_true_iff, Z.ltb_ge.
  destruct (index_char s "]") as [[E H]|(a & b & -> & H & E)]; rewrite E.
  - split.
    + intro HL. left. destruct s; [auto|]. simpl String.length in HL. lia.
    + intros [->|(k & -> & HK)]; [simpl; lia|]. exfalso. apply all_chars_app in H. destruct H as [_ [H _]]. congruence.
  - rewrite length_append. simpl String.length. split.
    + intro HL. right. exists a. destruct b; [auto|]. simpl String.length in HL. lia.
    + intros [E'|(k & E' & HK)]; [destruct a; discriminate|].
      destruct b as [|x b]; [simpl; lia|]. exfalso.
      assert (HL : (String.length (a ++ String "]" (String x b)) = String.length (k ++ "]"))%nat) by congruence.
      rewrite !length_append in HL. simpl in HL.
      clear - E' HK HL. revert k E' HK HL. induction a as [|y a IH]; intros k E' HK HL.
      * destruct k; [discriminate|]. simpl in E'. injection E'; intros _ <-. destruct HK as [HK _]. congruence.
      * destruct k as [|z k]; simpl in E'; [injection E'; intros X _; destruct a; discriminate|].
        injection E'; intros E1 E2. destruct HK as [_ HK]. simpl in HL. eapply IH; eauto.
Qed.

Lemma app_prefix p s k : s = k ++ "]" -> (exists r, s = p ++ "[" ++ r) -> label_key_ok k -> all_chars (fun c => c <> "]"%char) p ->
  exists key, s = p ++ "[" ++ key ++ "]" /\ label_key_ok key.
Proof.
  intros E (r & E') HK HP. 
  assert (exists key, k = p ++ "[" ++ key) as [key ->].
  { rewrite E in E'. clear E s. revert k E' HK. induction p as [|c p IH]; intros k E' HK.
    - destruct k as [|x k]; simpl in E'; [discriminate|]. injection E'; intros _ ->. exists k. auto.
    - destruct k as [|x k]; simpl in E'; [injection E'; intros; subst; destruct HP; congruence|].
      injection E'; intros E1 ->. destruct HK as [_ HK]. destruct HP as [_ HP]. destruct (IH HP _ E1 HK) as [key ->]. exists key. auto. }
  exists key. split; [rewrite E, !append_assoc; auto|]. unfold label_key_ok in *. rewrite !all_chars_app in HK. tauto.
Qed.

Lemma label_sender_format att : has_prefix att "senderLabel[" = true -> (label_format_ok att = true <-> exists key, att = sender_label key /\ label_key_ok key).
Proof.
  intro HP. rewrite label_format. apply has_prefix_iff in HP. destruct HP as [r E]. split.
  - intros [E'|(k & E' & HK)]; [subst; discriminate|].
    destruct (app_prefix "senderLabel" att k E') as (key & E2 & HK2); [exists r; auto|auto|simpl; repeat split; discriminate|].
    exists key. auto.
  - intros (key & -> & HK). right. exists ("senderLabel[" ++ key). split; [unfold sender_label; rewrite append_assoc; auto|].
    unfold label_key_ok. rewrite all_chars_app. split; auto. simpl; repeat split; discriminate.
Qed.
Lemma label_receiver_format att : has_prefix att "receiverLabel[" = true -> (label_format_ok att = true <-> exists key, att = receiver_label key /\ label_key_ok key).
Proof.
  intro HP. rewrite label_format. apply has_prefix_iff in HP. destruct HP as [r E]. split.
  - intros [E'|(k & E' & HK)]; [subst; discriminate|].
    destruct (app_prefix "receiverLabel" att k E') as (key & E2 & HK2); [exists r; auto|auto|simpl; repeat split; discriminate|].
    exists key. auto.
  - intros (key & -> & HK). right. exists ("receiverLabel[" ++ key). split; [unfold receiver_label; rewrite append_assoc; auto|].
    unfold label_key_ok. rewrite all_chars_app. split; auto. simpl; repeat split; discriminate.
Qed.

(** ** Brackets *)
Definition index_check (inside : string) : bool :=
  match first_char inside with
  | None => false
  | Some f =>
    let l := last_char inside in
    if Ascii.eqb f dq && opt_char_is l dq then true
    else if Ascii.eqb f sq && opt_char_is l sq then true
    else match parse_int inside with None => false | Some n => negb (n <? 0)%Z end
  end.

Lemma string_last s : s = "" \/ exists b x, s = b ++ String x "".
Proof.
  induction s as [|c s IH]; [auto|]. right. destruct IH as [->|(b & x & ->)]; [exists "", c; auto|].
  exists (String c b), x. auto.
Qed.
Lemma get_last a c : String.get (String.length (a ++ String c "") - 1) (a ++ String c "") = Some c.
Proof.
  rewrite length_append. simpl String.length. replace (String.length a + 1 - 1)%nat with (String.length a) by lia.
  induction a as [|x a IH]; [auto|]. exact IH.
Qed.
Lemma last_char_app a c : last_char (a ++ String c "") = Some c.
Proof. unfold last_char. apply get_last. Qed.

Lemma index_check_iff inside : index_check inside = true <-> index_text inside.
Proof.
  split.
  - unfold index_check. destruct inside as [|f s]; [discriminate|].
    change (first_char (String f s)) with (Some f).
    assert (HQ : forall q, q = sq \/ q = dq -> Ascii.eqb f q && opt_char_is (last_char (String f s)) q = true -> index_text (String f s)).
    { intros q Q H. apply andb_true_iff in H. destruct H as [H1 H2]. apply Ascii.eqb_eq in H1. subst f.
      destruct (string_last s) as [->|(b & x & ->)]; [apply it_mark; auto|].
      change (String q (b ++ String x "")) with ((String q b) ++ String x "") in H2. rewrite last_char_app in H2. simpl in H2.
      apply Ascii.eqb_eq in H2. subst x. apply it_quoted; auto. }
    cbv iota zeta. destruct (Ascii.eqb f dq && opt_char_is (last_char (String f s)) dq) eqn:E1; [intros _; apply (HQ dq); auto|].
    destruct (Ascii.eqb f sq && opt_char_is (last_char (String f s)) sq) eqn:E2; [intros _; apply (HQ sq); auto|].
    destruct (parse_int (String f s)) as [n|] eqn:EP; [|discriminate]. rewrite negb_true_iff, Z.ltb_ge. intro H. eapply it_number; eauto.
  - intros [q s Q|q Q|s n E H].
    + unfold index_check. change (first_char (String q (s ++ String q ""))) with (Some q). cbv iota beta zeta.
      change (String q (s ++ String q "")) with (String q s ++ String q ""). rewrite last_char_app. unfold opt_char_is.
      rewrite !andb_diag. destruct Q as [-> | ->]; [|reflexivity]. reflexivity.
    + destruct Q as [-> | ->]; reflexivity.
    + unfold index_check. destruct s as [|f s]; [discriminate|]. change (first_char (String f s)) with (Some f). cbv iota beta zeta.
      match goal with |- context [if ?b then _ else _] => destruct b; [auto|] end. match goal with |- context [if ?b then _ else _] => destruct b; [auto|] end. rewrite E, negb_true_iff, Z.ltb_ge. auto.
Qed.

(** the position of the last opening bracket before the current character *)
Definition last_open (seen : string) (start : Z) : Prop :=
  (exists pre inside, seen = pre ++ "[" ++ inside /\ all_chars (fun c => c <> "["%char) inside /\ start = Z.of_nat (String.length pre))
  \/ (all_chars (fun c => c <> "["%char) seen /\ start = 0%Z).

Lemma slice_inside pre inside rest :
  slice (pre ++ "[" ++ inside ++ rest) (Z.of_nat (String.length pre) + 1) (Z.of_nat (String.length (pre ++ "[" ++ inside))) = Some inside.
Proof.
  unfold slice. rewrite !length_append. change (String.length "[") with 1%nat.
  match goal with |- context [if ?b then _ else _] => replace b with true by (symmetry; rewrite !andb_true_iff, !Z.leb_le; lia) end.
  replace (Z.to_nat (Z.of_nat (String.length pre) + 1)) with (String.length (pre ++ "[")) by (rewrite length_append; simpl; lia).
  replace (pre ++ "[" ++ inside ++ rest) with ((pre ++ "[") ++ inside ++ rest) by (rewrite append_assoc; auto).
  rewrite drop_app. replace (Z.to_nat _) with (String.length inside) by lia. f_equal.
  clear. induction inside; simpl; [auto|]. congruence.
Qed.

Lemma app_bracket_inj pre inside pre' inside' : all_chars (fun c => c <> "["%char) inside -> all_chars (fun c => c <> "["%char) inside' ->
  pre ++ "[" ++ inside = pre' ++ "[" ++ inside' -> pre = pre' /\ inside = inside'.
Proof.
  intros H H' E.
  revert pre' E. induction pre as [|c pre IH]; intros pre' E.
  - destruct pre' as [|d pre']; simpl in E; [injection E; auto|].
    injection E; intros E1 <-. exfalso. rewrite E1 in H. apply all_chars_app in H. destruct H as [_ [H _]]. congruence.
  - destruct pre' as [|d pre']; simpl in E.
    + injection E; intros E1 ->. exfalso. rewrite <- E1 in H'. apply all_chars_app in H'. destruct H' as [_ [H' _]]. congruence.
    + injection E; intros E1 <-. destruct (IH _ E1) as [-> ->]. auto.
Qed.

Lemma validate_arrays_iff d s : forall start (seen := "jsonpath:" ++ d) (att := seen ++ s),
  (forall a b, att <> a ++ "[]" ++ b) -> last_open seen start ->
  exists r, validate_arrays_from att start (Z.of_nat (String.length seen)) s = Some r /\
    (r = true <-> forall a b, s = a ++ "]" ++ b ->
       exists pre inside, seen ++ a = pre ++ "[" ++ inside /\ all_chars (fun c => c <> "["%char) inside /\ index_text inside).
Proof.
  revert d. induction s as [|c s IH]; intros d start seen att HE HO; cbn [validate_arrays_from].
  - exists true. split; auto. split; auto. intros _ a b E. destruct a; discriminate.
  - assert (EA : att = ("jsonpath:" ++ (d ++ String c "")) ++ s).
    { unfold att, seen. rewrite !append_assoc. auto. }
    assert (EL : (Z.of_nat (String.length seen) + 1)%Z = Z.of_nat (String.length ("jsonpath:" ++ (d ++ String c "")))).
    { unfold seen. rewrite !length_append. simpl String.length. lia. }
    destruct (Ascii.eqb c "]") eqn:EC.
    + apply Ascii.eqb_eq in EC. subst c. change (Ascii.eqb "]" "[") with false. cbv iota zeta.
      assert (HS : exists inside, slice att (start + 1) (Z.of_nat (String.length seen)) = Some inside /\ inside <> "" /\
        (index_check inside = true <-> exists pre inside, seen = pre ++ "[" ++ inside /\ all_chars (fun c => c <> "["%char) inside /\ index_text inside)).
      { destruct HO as [(pre & inside & E1 & H1 & ->)|[H ->]].
        - exists inside. split; [|split].
          + unfold att. rewrite E1. rewrite <- (slice_inside pre inside (String "]" s)) at 1. f_equal.
            rewrite !append_assoc. auto.
          + intros ->. apply (HE pre s). unfold att. rewrite E1. rewrite !append_assoc. auto.
          + rewrite index_check_iff. split; [eauto|]. intros (pre' & inside' & E2 & H2 & H3).
            rewrite E1 in E2. apply app_bracket_inj in E2; auto. destruct E2 as [-> ->]. auto.
        - exists ("sonpath:" ++ d). split; [|split].
          + unfold att, seen, slice. rewrite !length_append. 
            match goal with |- context [if ?b then _ else _] => replace b with true by (symmetry; rewrite !andb_true_iff, !Z.leb_le; simpl String.length; lia) end.
            change (Z.to_nat (0 + 1)) with 1%nat. f_equal.
            match goal with |- take ?n _ = _ => replace n with (String.length ("sonpath:" ++ d)) by
              (rewrite !length_append; change (String.length "jsonpath:") with 9%nat; change (String.length "sonpath:") with 8%nat; lia) end.
            change (drop 1 (("jsonpath:" ++ d) ++ String "]" s)) with (("sonpath:" ++ d) ++ String "]" s).
            clear. induction ("sonpath:" ++ d) as [|x t IH]; simpl; [auto|]. congruence.
          + discriminate.
          + split; [discriminate|]. intros (pre & inside & E & _). rewrite E in H. apply all_chars_app in H. destruct H as [_ [H _]]. congruence. }
      destruct HS as (inside & -> & NE & HI).
      destruct (IH (d ++ "]") start) as (r & ER & HR).
      { rewrite <- EA. auto. }
      { destruct HO as [(pre & ins & E1 & H1 & ->)|[H ->]].
        - left. exists pre, (ins ++ "]"). rewrite <- append_assoc. change ("jsonpath:" ++ d) with seen. rewrite E1, !append_assoc.
          split; auto. split; auto. rewrite all_chars_app. split; auto. simpl. split; [discriminate|auto].
        - right. rewrite <- append_assoc. split; auto. rewrite all_chars_app. split; auto. simpl. split; [discriminate|auto]. }
      rewrite <- EA, <- EL in ER.
      assert (HX : (index_check inside = true /\ r = true) <-> (forall a b, String "]" s = a ++ "]" ++ b ->
         exists pre inside, seen ++ a = pre ++ "[" ++ inside /\ all_chars (fun c => c <> "["%char) inside /\ index_text inside)).
      { split.
        - intros [H1 H2] a b E. destruct a as [|x a].
          + rewrite append_nil_r. apply HI. auto.
          + simpl in E. injection E; intros E1 <-. rewrite HR in H2. destruct (H2 _ _ E1) as (pre & ins & E2 & H3).
            exists pre, ins. split; auto. rewrite <- E2. unfold seen. rewrite !append_assoc. auto.
        - intro H. split.
          + apply HI. specialize (H "" s eq_refl). rewrite append_nil_r in H. auto.
          + apply HR. intros a b E. destruct (H (String "]" a) b) as (pre & ins & E2 & H3); [simpl; rewrite E; auto|].
            exists pre, ins. split; auto. rewrite <- E2. unfold seen. rewrite !append_assoc. auto. }
      unfold index_check in HX. destruct inside as [|f t] eqn:EI; [congruence|]. rewrite <- EI in *.
      assert (EF : first_char inside = Some f) by (rewrite EI; auto). rewrite EF in *. cbv iota zeta in HX |- *.
      match goal with |- context [if ?b then _ else _] => destruct b end.
      { exists r. split; auto. rewrite <- HX. tauto. }
      match goal with |- context [if ?b then _ else _] => destruct b end.
      { exists r. split; auto. rewrite <- HX. tauto. }
      destruct (parse_int inside) as [n|].
      * destruct (n <? 0)%Z; cbn [negb] in HX.
        -- exists false. split; auto. rewrite <- HX. intuition discriminate.
        -- exists r. split; auto. rewrite <- HX. tauto.
      * exists false. split; auto. rewrite <- HX. intuition discriminate.
    + apply Ascii.eqb_neq in EC. cbv zeta.
      destruct (IH (d ++ String c "") (if Ascii.eqb c "[" then Z.of_nat (String.length seen) else start)) as (r & ER & HR).
      { rewrite <- EA. auto. }
      { rewrite <- append_assoc. change ("jsonpath:" ++ d) with seen. destruct (Ascii.eqb c "[") eqn:EB.
        - apply Ascii.eqb_eq in EB. subst c. left. exists seen, "". simpl. auto.
        - apply Ascii.eqb_neq in EB. destruct HO as [(pre & ins & E1 & H1 & ->)|[H ->]].
          + left. exists pre, (ins ++ String c ""). rewrite E1, !append_assoc.
            split; auto. split; auto. rewrite all_chars_app. split; auto. simpl. auto.
          + right. split; auto. rewrite all_chars_app. split; auto. simpl. auto. }
      rewrite <- EA, <- EL in ER. exists r. split; auto. rewrite HR. split.
      * intros H a b E. destruct a as [|x a]; simpl in E; [congruence|]. injection E; intros E1 <-.
        destruct (H _ _ E1) as (pre & ins & E2 & H3). exists pre, ins. split; auto. rewrite <- E2. unfold seen. rewrite !append_assoc. auto.
      * intros H a b E. destruct (H (String c a) b) as (pre & ins & E2 & H3); [simpl; rewrite E; auto|].
        exists pre, ins. split; auto. rewrite <- E2. unfold seen. rewrite !append_assoc. auto.
Qed.

Lemma absent_jsonpath x w path : ~ In x (list_ascii_of_string "jsonpath:") ->
  ((forall a b, "jsonpath:" ++ path <> a ++ String x w ++ b) <-> forall a b, path <> a ++ String x w ++ b).
Proof.
  intro NX. split.
  - intros H a b E. apply (H ("jsonpath:" ++ a) b). rewrite E, append_assoc. auto.
  - intros H a b E. simpl in NX.
    do 9 (destruct a as [|? a]; [simpl in E; injection E; intros; subst; tauto|injection E; clear E; intros E _; try (injection E; clear E; intros E ?)]).
    apply (H a b). auto.
Qed.

(** ** Attributes *)
Lemma contains_iff s w : contains s w = true <-> exists a b, s = a ++ w ++ b.
Proof.
  split; [apply contains_some|]. intros (a & b & E). destruct (contains s w) eqn:EC; [auto|].
  exfalso. eapply contains_no; eauto.
Qed.

Lemma arrays_jsonpath path : (forall a b, "jsonpath:" ++ path <> a ++ "[]" ++ b) ->
  exists r, validate_arrays_with_index ("jsonpath:" ++ path) = Some r /\ (r = true <-> brackets_ok ("jsonpath:" ++ path)).
Proof.
  intro HE. destruct (validate_arrays_iff "" path 0%Z) as (r & ER & HR); [auto|right; simpl; repeat split; discriminate|].
  exists r. split; [exact ER|]. rewrite HR. unfold brackets_ok. split; intros H a b E.
  - do 9 (destruct a as [|? a]; [discriminate|injection E; clear E; intros E <-]).
    destruct (H _ _ E) as (pre & ins & E1 & H1). exists pre, ins. split; auto.
  - destruct (H ("jsonpath:" ++ a) b) as (pre & ins & E1 & H1); [rewrite E, append_assoc; auto|]. exists pre, ins. split; auto.
Qed.

Lemma prefix_jsonpath p path : has_prefix ("jsonpath:" ++ path) ("jsonpath:" ++ p) = has_prefix path p.
Proof.
  destruct (has_prefix path p) eqn:E.
  - apply has_prefix_iff in E. destruct E as [r ->]. apply has_prefix_iff. exists r. rewrite append_assoc. auto.
  - destruct (has_prefix ("jsonpath:" ++ path) ("jsonpath:" ++ p)) eqn:E'; [|auto]. apply has_prefix_iff in E'. destruct E' as [r E'].
    rewrite append_assoc in E'. apply append_inj_l in E'. subst. rewrite <- E. symmetry. apply has_prefix_iff. eauto.
Qed.

Lemma jsonpath_accepts path : validate_jsonpath ("jsonpath:" ++ path) <> Panic /\
  (validate_jsonpath ("jsonpath:" ++ path) = Ok tt <->
   path_start path /\ brackets_ok ("jsonpath:" ++ path) /\
   (forall a b, path <> a ++ "[:]" ++ b) /\ (forall a b, path <> a ++ "[]" ++ b)).
Proof.
  unfold validate_jsonpath, slice_has_prefix. cbn [existsb].
  change "jsonpath:$" with ("jsonpath:" ++ "$"). change "jsonpath:." with ("jsonpath:" ++ ".").
  change "jsonpath:$." with ("jsonpath:" ++ "$."). change "jsonpath:$RELATIVE." with ("jsonpath:" ++ "$RELATIVE.").
  change "jsonpath:$KEY." with ("jsonpath:" ++ "$KEY."). change "jsonpath:$KEY" with ("jsonpath:" ++ "$KEY").
  change "jsonpath:$VALUE" with ("jsonpath:" ++ "$VALUE"). change "jsonpath:$RELATIVE" with ("jsonpath:" ++ "$RELATIVE").
  rewrite !prefix_jsonpath.
  assert (ER : String.eqb ("jsonpath:" ++ path) ("jsonpath:" ++ "$RELATIVE") = String.eqb path "$RELATIVE") by reflexivity.
  rewrite ER. clear ER.
  match goal with |- (if ?a then _ else if ?b then _ else if ?c then _ else ?r) <> _ /\ _ =>
    assert (HP : (a = false /\ b = false /\ c = false) <-> path_start path); [|set (A := a) in *; set (B := b) in *; set (C := c) in *; clearbody A B C] end.
  { unfold path_start. rewrite <- !starts_iff.
    destruct (has_prefix path "$KEY.") eqn:EK.
    - assert (EK2 : has_prefix path "." = false /\ has_prefix path "$." = false /\ has_prefix path "$RELATIVE." = false /\ has_prefix path "$VALUE" = false /\
        String.eqb path "$RELATIVE" = false).
      { apply has_prefix_iff in EK. destruct EK as [r ->]. repeat split; reflexivity. }
      destruct EK2 as (E1 & E2 & E3 & E4 & E5). apply String.eqb_neq in E5. rewrite E1, E2, E3, E4. split; [intros (_ & _ & ?); discriminate|].
      intros [?|[?|[?|[?|[[_ ?]|?]]]]]; congruence.
    - assert (HX : forall r, has_prefix path (String "$" r) = true -> has_prefix path "$" = true).
      { intros r H. apply has_prefix_iff in H. destruct H as [x ->]. apply has_prefix_iff. eexists; reflexivity. }
      assert (HY : has_prefix path "$RELATIVE" = true -> has_prefix path "$" = true) by apply HX.
      assert (HZ : path = "$RELATIVE" -> has_prefix path "$" = true) by (intros ->; reflexivity).
      assert (HD : has_prefix path "." = true -> has_prefix path "$" = false).
      { intro H. apply has_prefix_iff in H. destruct H as [x ->]. reflexivity. }
      rewrite <- String.eqb_eq in *.
      pose proof (HX "."). pose proof (HX "RELATIVE."). pose proof (HX "KEY"). pose proof (HX "VALUE").
      destruct (has_prefix path "$"), (has_prefix path "."), (has_prefix path "$."), (has_prefix path "$RELATIVE."), (has_prefix path "$KEY"),
        (has_prefix path "$VALUE"), (String.eqb path "$RELATIVE"); simpl; intuition discriminate. }
  destruct A.
  { split; [discriminate|]. split; [discriminate|]. intros (H & _). apply HP in H. intuition discriminate. }
  destruct B.
  { split; [discriminate|]. split; [discriminate|]. intros (H & _). apply HP in H. intuition discriminate. }
  destruct C.
  { split; [discriminate|]. split; [discriminate|]. intros (H & _). apply HP in H. intuition discriminate. }
  assert (PS : path_start path) by (apply HP; auto).
  destruct (contains ("jsonpath:" ++ path) "[:]") eqn:EC1.
  { split; [discriminate|]. split; [discriminate|]. intros (_ & _ & H & _). apply contains_some in EC1. destruct EC1 as (a & b & E).
    exfalso. revert a b E. apply absent_jsonpath; auto. simpl. intuition discriminate. }
  destruct (contains ("jsonpath:" ++ path) "[]") eqn:EC2.
  { split; [discriminate|]. split; [discriminate|]. intros (_ & _ & _ & H). apply contains_some in EC2. destruct EC2 as (a & b & E).
    exfalso. revert a b E. apply absent_jsonpath; auto. simpl. intuition discriminate. }
  pose proof (contains_no _ _ EC1) as HC1. pose proof (contains_no _ _ EC2) as HC2.
  destruct (arrays_jsonpath path HC2) as (r & -> & HR).
  assert (NB : ~ In "["%char (list_ascii_of_string "jsonpath:")) by (simpl; intuition discriminate).
  assert (HC1' := proj1 (absent_jsonpath "[" ":]" path NB) HC1). assert (HC2' := proj1 (absent_jsonpath "[" "]" path NB) HC2). clear HC1 HC2.
  destruct r; (split; [discriminate|]); (split; [|]); try discriminate.
  - intros _. tauto.
  - auto.
  - intros (_ & H & _). apply HR in H. discriminate.
Qed.

(** ** Methods *)
Lemma supported_kind m : contains_string supported_methods m = true <-> exists k, method_is m k.
Proof.
  change (is_any m supported_methods = true <-> exists k, method_is m k). rewrite is_any_iff. split.
  - intro H. simpl in H. unfold method_is.
    repeat (destruct H as [<-|H]; [eexists; simpl; tauto|]). destruct H.
  - intros [k H]. method_cases H; simpl; tauto.
Qed.
Lemma number_kind m k : method_is m k -> (contains_string number_methods m = true <-> In k order_kinds).
Proof. intro H. method_cases H; simpl; intuition discriminate. Qed.
Lemma regex_kind m k : method_is m k -> (contains_string regex_methods m = true <-> k = KRe \/ k = KNre).
Proof. intro H. method_cases H; simpl; intuition discriminate. Qed.
Lemma version_kind m k : method_is m k -> (contains_string encryption_version_methods m = true <-> In k (KEq :: order_kinds)).
Proof. intro H. method_cases H; simpl; intuition discriminate. Qed.

Definition label_value (value : string) : Prop := starts "receiverLabel[" value -> exists key, value = receiver_label key /\ label_key_ok key.
Lemma label_value_iff value : (index value "receiverLabel[" =? 0)%Z && negb (label_format_ok value) = false <-> label_value value.
Proof.
  rewrite index_zero. unfold label_value. rewrite <- starts_iff. destruct (has_prefix value "receiverLabel[") eqn:E.
  - pose proof (label_receiver_format value E) as H. destruct (label_format_ok value); simpl; split; auto.
    + intros _ _. apply H. auto.
    + discriminate.
    + intro H'. assert (false = true) by (apply H; auto). discriminate.
  - split; auto. intros _ ?. discriminate.
Qed.

Definition known_prefix (att : string) : Prop := exists p, In p attribute_prefixes /\ starts p att.

Lemma attribute_iff att method value k : method_is method k ->
  validate_attribute att method value <> Panic /\
  (validate_attribute att method value = Ok tt <-> attribute_for k att /\ label_value value).
Proof.
  intro HM. rewrite <- label_value_iff. unfold validate_attribute, validate_labels, validate_objects.
  rewrite !index_zero. 
  assert (NK : contains_string number_methods method = false <-> ~ In k order_kinds).
  { rewrite <- (number_kind _ _ HM). destruct (contains_string number_methods method); split; intro H; try congruence; tauto. }
  set (bv := has_prefix value "receiverLabel[" && negb (label_format_ok value)). clearbody bv.
  destruct (existsb (fun p => (index att p =? 0)%Z) attribute_prefixes) eqn:EP.
  - rewrite orb_true_r. simpl negb. cbv iota.
    unfold attribute_prefixes in EP. cbn [existsb] in EP. rewrite !index_zero in EP.
    destruct (has_prefix att "$sender.") eqn:E1; [|destruct (has_prefix att "$receiver.") eqn:E2;
      [|destruct (has_prefix att "senderLabel[") eqn:E3; [|destruct (has_prefix att "receiverLabel[") eqn:E4;
      [|destruct (has_prefix att "jsonpath:") eqn:E5; [|discriminate]]]]]; clear EP.
    + apply has_prefix_iff in E1. destruct E1 as [x ->].
      replace (String.eqb ("$sender." ++ x) "encryptionVersion") with false by reflexivity.
      replace (has_prefix ("$sender." ++ x) "jsonpath:") with false by reflexivity.
      replace (has_prefix ("$sender." ++ x) "senderLabel[") with false by reflexivity.
      replace (has_prefix ("$sender." ++ x) "receiverLabel[") with false by reflexivity.
      replace (has_prefix ("$sender." ++ x) "$receiver.") with false by reflexivity.
      cbn [andb negb rbind]. 
      assert (HA : attribute_for k ("$sender." ++ x) <-> ~ In k order_kinds).
      { split; [|apply af_sender]. intro H. inversion H; auto; try discriminate.
        simpl in H0. repeat (destruct H0 as [H0|H0]; [discriminate|]). destruct H0. }
      rewrite HA, <- NK. destruct bv, (contains_string number_methods method); cbn [rbind]; intuition discriminate.
    + apply has_prefix_iff in E2. destruct E2 as [x ->].
      replace (String.eqb ("$receiver." ++ x) "encryptionVersion") with false by reflexivity.
      replace (has_prefix ("$receiver." ++ x) "jsonpath:") with false by reflexivity.
      replace (has_prefix ("$receiver." ++ x) "senderLabel[") with false by reflexivity.
      replace (has_prefix ("$receiver." ++ x) "receiverLabel[") with false by reflexivity.
      cbn [andb negb rbind]. 
      assert (HA : attribute_for k ("$receiver." ++ x) <-> ~ In k order_kinds).
      { split; [|apply af_receiver]. intro H. inversion H; auto; try discriminate.
        simpl in H0. repeat (destruct H0 as [H0|H0]; [discriminate|]). destruct H0. }
      rewrite HA, <- NK. destruct bv, (contains_string number_methods method); cbn [rbind]; intuition discriminate.
    + pose proof (label_sender_format att E3) as HL.
      apply has_prefix_iff in E3. destruct E3 as [x ->].
      replace (String.eqb ("senderLabel[" ++ x) "encryptionVersion") with false by reflexivity.
      replace (has_prefix ("senderLabel[" ++ x) "jsonpath:") with false by reflexivity.
      replace (has_prefix ("senderLabel[" ++ x) "receiverLabel[") with false by reflexivity.
      cbn [andb negb rbind]. 
      assert (HA : attribute_for k ("senderLabel[" ++ x) <-> label_format_ok ("senderLabel[" ++ x) = true /\ ~ In k order_kinds).
      { rewrite HL. split; [|intros [(key & -> & HK) N]; apply af_sender_label; auto]. intro H. inversion H; try discriminate.
        - simpl in H0. repeat (destruct H0 as [H0|H0]; [discriminate|]). destruct H0.
        - split; auto. exists key. split; auto. }
      rewrite HA, <- NK. destruct bv, (label_format_ok ("senderLabel[" ++ x)), (contains_string number_methods method); cbn [rbind orb negb]; intuition discriminate.
    + pose proof (label_receiver_format att E4) as HL.
      apply has_prefix_iff in E4. destruct E4 as [x ->].
      replace (String.eqb ("receiverLabel[" ++ x) "encryptionVersion") with false by reflexivity.
      replace (has_prefix ("receiverLabel[" ++ x) "jsonpath:") with false by reflexivity.
      cbn [andb negb rbind]. 
      assert (HA : attribute_for k ("receiverLabel[" ++ x) <-> label_format_ok ("receiverLabel[" ++ x) = true /\ ~ In k order_kinds).
      { rewrite HL. split; [|intros [(key & -> & HK) N]; apply af_receiver_label; auto]. intro H. inversion H; try discriminate.
        - simpl in H0. repeat (destruct H0 as [H0|H0]; [discriminate|]). destruct H0.
        - split; auto. exists key. split; auto. }
      rewrite HA, <- NK. destruct bv, (label_format_ok ("receiverLabel[" ++ x)), (contains_string number_methods method); cbn [rbind orb negb]; intuition discriminate.
    + apply has_prefix_iff in E5. destruct E5 as [x ->].
      replace (String.eqb ("jsonpath:" ++ x) "encryptionVersion") with false by reflexivity.
      cbn [andb negb rbind]. destruct (jsonpath_accepts x) as [NP HJ].
      assert (HA : attribute_for k ("jsonpath:" ++ x) <-> validate_jsonpath ("jsonpath:" ++ x) = Ok tt).
      { rewrite HJ. split; [|intros (H1 & H2 & H3 & H4); apply af_jsonpath; auto]. intro H. inversion H; try discriminate.
        - simpl in H0. repeat (destruct H0 as [H0|H0]; [discriminate|]). destruct H0.
        - auto. }
      rewrite HA. destruct (validate_jsonpath ("jsonpath:" ++ x)) as [[]| |]; [|intuition discriminate|congruence].
      destruct bv; cbn [rbind]; intuition discriminate.
  - rewrite orb_false_r.
    unfold attribute_prefixes in EP. cbn [existsb] in EP. rewrite !index_zero, !orb_false_iff in EP.
    destruct EP as (E1 & E2 & E3 & E4 & E5 & _). rewrite E1, E2, E3, E4, E5. cbn [andb rbind].
    assert (HA : attribute_for k att <-> In att plain_attributes \/ att = "encryptionVersion" /\ In k (KEq :: order_kinds)).
    { split; [|intros [H|[-> H]]; [apply af_plain|apply af_version]; auto].
      intro H. apply starts_false in E1, E2, E3, E4, E5. inversion H; subst; auto.
      - destruct E1. eexists. reflexivity.
      - destruct E2. eexists. reflexivity.
      - destruct E3. eexists. reflexivity.
      - destruct E4. eexists. reflexivity.
      - destruct E5. eexists. reflexivity. }
    rewrite HA. clear HA.
    destruct (existsb (String.eqb att) attribute_names) eqn:EN.
    + change (is_any att attribute_names = true) in EN. apply is_any_iff in EN. cbn [negb].
      assert (HI : In att attribute_names <-> In att plain_attributes \/ att = "encryptionVersion") by (simpl; intuition auto).
      apply HI in EN. rewrite <- (version_kind _ _ HM).
      destruct (String.eqb att "encryptionVersion") eqn:EV.
      * apply String.eqb_eq in EV. subst att.
        assert (NI : ~ In "encryptionVersion" plain_attributes) by (simpl; intuition discriminate).
        destruct (contains_string encryption_version_methods method), bv; cbn [andb negb rbind]; intuition discriminate.
      * apply String.eqb_neq in EV. cbn [andb]. destruct bv; cbn [rbind]; intuition discriminate.
    + split; [discriminate|]. split; [discriminate|]. intros [HA _]. exfalso.
      change (is_any att attribute_names = false) in EN. apply is_any_false in EN. apply EN. simpl in HA |- *. intuition auto.
Qed.

(** ** Conditions *)
Section WithLib.
Variable L : Lib.

Theorem condition_accepted att method value (ret : retpart L) :
  acceptable L att method value <-> exists c, validate_condition L (written L att method value ret) = Ok c.
Proof.
  unfold validate_condition. cbn [c_attr c_method c_value written].
  destruct (contains_string supported_methods method) eqn:ES.
  2:{ split.
      - intros (k & H & _). exfalso. assert (contains_string supported_methods method = true) by (apply supported_kind; eauto). congruence.
      - intros [c H]. exfalso. apply rbind_ok in H. destruct H as (u & _ & H). apply rbind_ok in H. destruct H as (u' & H & _).
        unfold validate_method in H. rewrite ES in H. discriminate. }
  assert (HK : exists k, method_is method k) by (apply supported_kind; auto). destruct HK as [k HM].
  destruct (attribute_iff att method value k HM) as [NP HA].
  assert (HU : forall k', method_is method k' -> k' = k).
  { intros k' H'. clear -HM H'. method_cases HM; method_cases H'; reflexivity. }
  assert (EQ : acceptable L att method value <-> attribute_for k att /\ value_for L method k value).
  { split; [intros (k' & H1 & H2 & H3); rewrite (HU _ H1) in *; auto|intros [H1 H2]; exists k; auto]. }
  rewrite EQ. clear EQ. unfold value_for. fold (label_value value).
  destruct (validate_attribute att method value) as [[]| |].
  2:{ split; [|intros [c H]; discriminate]. intros [H1 (_ & _ & _ & H2)]. assert (Err = Ok tt) by (apply HA; auto). discriminate. }
  2:{ congruence. }
  assert (H0 : attribute_for k att /\ label_value value) by (apply HA; auto).
  cbn [rbind]. unfold validate_method. rewrite ES. cbn [negb].
  rewrite <- (regex_kind _ _ HM), <- (number_kind _ _ HM).
  assert (HQ : (exists x, quantity L value x) <-> float_with_units L value <> None).
  { split; [intros [x H]; apply number_iff in H; congruence|]. destruct (float_with_units L value) as [x|] eqn:E; [|congruence].
    intros _. exists x. apply number_iff. auto. }
  rewrite HQ. clear HQ. unfold validate_numerical. cbn [c_attr c_method c_value written c_num no_num n_int n_float n_regex n_string_regex].
  assert (HIN : is_any method ["IN"; "NIN"] = true <-> In method ["IN"; "NIN"]) by apply is_any_iff.
  assert (HV : (String.length value =? 0)%nat = true <-> value = "").
  { rewrite Nat.eqb_eq. destruct value; simpl; split; auto; discriminate. }
  destruct (is_any method ["IN"; "NIN"]) eqn:EI.
  - assert (HI : In method ["IN"; "NIN"]) by (apply HIN; auto).
    assert (EM : contains_string number_methods method = false /\ contains_string regex_methods method = false) by (destruct HI as [<-|[<-|[]]]; split; reflexivity).
    destruct EM as [-> ->]. rewrite !andb_false_r.
    destruct (String.length value =? 0)%nat eqn:EL; cbn [rbind].
    + split; [|intros [c H]; discriminate]. intros (_ & _ & _ & H & _). exfalso. apply (proj1 (H HI)). apply HV. auto.
    + destruct (re_compile L (list_to_alternatives value)) as [re|]; cbn [is_some rbind].
      * split; [eauto|]. intros _. destruct H0. split; auto. split; [discriminate|]. split; [discriminate|]. split; auto.
        intros _. split; [|discriminate]. intro E. apply HV in E. discriminate.
      * split; [|intros [c H]; discriminate]. intros (_ & _ & _ & H & _). exfalso. apply (proj2 (H HI)). auto.
  - assert (HI : ~ In method ["IN"; "NIN"]) by (intro H; apply HIN in H; discriminate).
    cbn [rbind]. destruct H0 as [H01 H02].
    destruct (contains_string number_methods method) eqn:EN.
    + assert (ER : contains_string regex_methods method = false) by (clear -HM EN; method_cases HM; try discriminate; reflexivity).
      rewrite ER, andb_false_r, andb_true_r.
      destruct (float_with_units L value), (parse_int value); cbn [is_some orb negb];
        (split; [intros (_ & H & _)|intros [c' H]]); try (eexists; reflexivity);
        try (split; [auto|]; split; [intros _; solve [left; discriminate | right; discriminate]|split; [discriminate|tauto]]).
      exfalso. destruct (H eq_refl); congruence.
    + rewrite andb_false_r. destruct (contains_string regex_methods method) eqn:ER.
      * rewrite andb_true_r. destruct (re_compile L value); cbn [is_some negb]; (split; [intros (_ & _ & H & _)|intros [c' H]]).
        -- eexists; reflexivity.
        -- split; [auto|]. split; [discriminate|]. split; [discriminate|tauto].
        -- exfalso. apply H; auto.
        -- discriminate.
      * rewrite andb_false_r. split; [eexists; reflexivity|]. intros _. split; [auto|]. split; [discriminate|]. split; [discriminate|tauto].
Qed.

Theorem accepted_unchanged c c' : validate_condition L c = Ok c' ->
  c_attr c' = c_attr c /\ c_method c' = c_method c /\ c_value c' = c_value c /\ c_ret c' = c_ret c.
Proof. intro H. apply validate_ok in H. destruct H as [-> _]. auto. Qed.

(** ** Validation never panics *)
Lemma validate_attribute_total att method value : validate_attribute att method value <> Panic.
Proof.
  unfold validate_attribute.
  destruct (negb _); [discriminate|]. destruct (_ && _); [discriminate|].
  assert (NJ : (if has_prefix att "jsonpath:" then validate_jsonpath att else Ok tt) <> Panic).
  { destruct (has_prefix att "jsonpath:") eqn:E; [|discriminate]. apply has_prefix_iff in E. destruct E as [r ->]. apply jsonpath_accepts. }
  destruct (if has_prefix att "jsonpath:" then validate_jsonpath att else Ok tt) as [[]| |]; [|discriminate|congruence].
  cbn [rbind]. unfold validate_labels, validate_objects.
  repeat match goal with |- context [if ?b then _ else _] => destruct b; cbn [rbind]; try discriminate end.
Qed.
Theorem validate_total c : validate_condition L c <> Panic.
Proof.
  unfold validate_condition. pose proof (validate_attribute_total (c_attr c) (c_method c) (c_value c)).
  destruct (validate_attribute _ _ _) as [[]| |]; [|discriminate|congruence]. cbn [rbind]. unfold validate_method.
  repeat match goal with |- context [if ?b then _ else _] => destruct b; cbn [rbind]; try discriminate end;
    unfold validate_numerical; repeat match goal with |- context [if ?b then _ else _] => destruct b; cbn [rbind]; try discriminate end.
Qed.
End WithLib.
