(** From attributes naming a path to what the condition sees, and the laws of single conditions. *)
From Coq Require Import List String Ascii Bool Arith ZArith Lia Permutation.
From Verif Require Import Base GoStr GoFloat Types Json StrUtils Validate Prepare Eval GoStr_facts Spec_Tree Tree_laws
  Spec_Regex Spec_Glob Glob_proofs Match_proofs Spec_Leaf Number_proofs Leaf_proofs.
Import ListNotations.
Open Scope string_scope.
Local Arguments String.prefix : simpl never.
Local Notation holds := Spec_Leaf.holds.

(** ** Texts without a word *)
Definition absent (w s : string) : Prop := forall a b, s <> a ++ w ++ b.

Lemma absent_cons w c s : absent w (String c s) -> absent w s /\ String.prefix w (String c s) = false.
Proof.
  intro H. split.
  - intros a b E. apply (H (String c a) b). simpl. congruence.
  - destruct (String.prefix w (String c s)) eqn:E; auto. exfalso. apply prefix_iff in E. destruct E as [r E].
    apply (H "" r). auto.
Qed.
Lemma replace_absent w new s : absent w s -> replace_all s w new = s.
Proof.
  unfold replace_all. induction s as [|c s IH]; intro H; auto. apply absent_cons in H. destruct H as [H1 H2].
  cbn [replace_all_from]. rewrite H2, IH; auto.
Qed.
Lemma contains_absent w s : w <> "" -> absent w s -> contains s w = false.
Proof.
  intro NE. induction s as [|c s IH]; intro H.
  - destruct w; [congruence|]. reflexivity.
  - apply absent_cons in H. destruct H as [H1 H2]. cbn [contains]. rewrite H2, IH; auto.
Qed.
Lemma absent_char c w s : all_chars (fun x => x <> c) s -> absent (String c w) s.
Proof.
  intros H a b E. subst s. apply all_chars_app in H. destruct H as [_ H]. simpl in H. destruct H as [H _]. congruence.
Qed.
Lemma absent_tail c x w s : all_chars (fun y => y <> x) s -> absent (String c (String x w)) s.
Proof.
  intros H a b E. subst s. apply all_chars_app in H. destruct H as [_ H]. simpl in H. destruct H as [_ [H _]]. congruence.
Qed.
Lemma absent_first w c s : absent w s -> String.prefix w (String c s) = false -> absent w (String c s).
Proof.
  intros H HP a b E. destruct a as [|x a].
  - simpl in E. rewrite E, prefix_app_eq in HP. discriminate.
  - injection E; intros E1 E2. eapply H; eauto.
Qed.

Lemma remove_dot_quotes_plain s : forall p, all_chars (fun c => c <> sq /\ c <> dq) s ->
  remove_dot_quotes_from p false false s = s.
Proof.
  induction s as [|c s IH]; intros p H; auto. destruct H as [[H1 H2] H]. cbn [remove_dot_quotes_from].
  apply Ascii.eqb_neq in H1. apply Ascii.eqb_neq in H2. rewrite H1, H2, !andb_false_r. simpl. rewrite IH; auto.
Qed.

Lemma path_char_parts rest : all_chars (fun c => ~ In c [sq; dq; "$"%char]) rest ->
  all_chars (fun c => c <> sq /\ c <> dq) rest /\ all_chars (fun c => c <> sq) rest /\ all_chars (fun c => c <> "$"%char) rest.
Proof.
  intro H. repeat split; eapply all_chars_impl; try exact H; simpl; intros c HC; try split; intro E; apply HC; auto.
Qed.

Section WithLib.
Variable L : Lib.
Local Notation cond := (cond L).

Lemma cleaned_path rest : starts "." rest -> path_chars rest ->
  replace_all (replace_all (remove_dot_quotes ("$" ++ rest)) sqs dqs) ".[" "[" = "$" ++ rest.
Proof.
  intros HS [HC HB]. apply path_char_parts in HC. destruct HC as (H1 & H2 & H3).
  unfold remove_dot_quotes. rewrite remove_dot_quotes_plain by (simpl; split; [split; discriminate|auto]).
  rewrite (replace_absent sqs) by (apply absent_char; simpl; split; [discriminate|auto]).
  apply replace_absent. apply absent_first; auto.
Qed.

Lemma prepared_path rest : starts "." rest -> path_chars rest ->
  prepare_query L ("$" ++ rest) = match jp_prepare L ("$" ++ rest) with Some q => Ok (Some q) | None => Err end.
Proof.
  intros HS [HC HB]. apply path_char_parts in HC. destruct HC as (H1 & H2 & H3). unfold prepare_query.
  assert (HA : forall c w, c <> "."%char -> c <> "["%char -> absent (String "$" (String c w)) ("$" ++ rest)).
  { intros c w N1 N2. apply absent_first; [apply absent_char; auto|].
    destruct (String.prefix _ _) eqn:EP; auto. exfalso. apply prefix_iff in EP. destruct EP as [r E].
    simpl in E. injection E; intros E'. destruct HS as [x ->]; injection E'; intros; congruence. }
  rewrite (replace_absent "$RELATIVE") by (apply HA; discriminate).
  destruct (String.eqb ("$" ++ rest) "$*") eqn:EQ.
  { apply String.eqb_eq in EQ. simpl in EQ. destruct HS as [x ->]; discriminate. }
  rewrite (contains_absent "$KEY"), (contains_absent "$VALUE"); try discriminate; try (apply HA; discriminate). auto.
Qed.

Lemma take_all s : take (String.length s) s = s.
Proof. induction s; simpl; congruence. Qed.
Lemma prefix_head c p d s : String.prefix (String c p) (String d s) = Ascii.eqb c d && String.prefix p s.
Proof.
  unfold String.prefix at 1. fold String.prefix. destruct (ascii_dec c d) as [->|N].
  - rewrite Ascii.eqb_refl. auto.
  - apply Ascii.eqb_neq in N. rewrite N. auto.
Qed.

Lemma slice_after_colon rest : slice_res ("jsonpath:" ++ rest) (index ("jsonpath:" ++ rest) ":" + 1)
   (Z.of_nat (String.length ("jsonpath:" ++ rest))) = Ok rest.
Proof.
  assert (EI : index ("jsonpath:" ++ rest) ":" = 8%Z).
  { unfold index. cbn -[Z.add]. rewrite !prefix_one. reflexivity. }
  rewrite EI. unfold slice_res, slice. rewrite length_append.
  replace (_ && _) with true.
  - change (drop (Z.to_nat (8 + 1)) ("jsonpath:" ++ rest)) with rest.
    replace (Z.to_nat _) with (String.length rest); [rewrite take_all; auto|].
    change (String.length "jsonpath:") with 9%nat. lia.
  - symmetry. change (String.length "jsonpath:") with 9%nat. rewrite !andb_true_iff, !Z.leb_le. lia.
Qed.

Definition jp_shape (c : cond) : bool * string := (j_rel (c_jp c), j_query (c_jp c)).

Lemma path_shape att rel query c c' : path_of att rel query -> c_attr c = att -> handle_jsonpath L c = Ok c' ->
  jp_shape c' = (rel, query).
Proof.
  intros HP EA H. unfold handle_jsonpath in H. rewrite EA in H.
  destruct HP as [rest HS HC|rest HS HC|rest HS HC| | | ].
  - change ("jsonpath:$" ++ rest) with ("jsonpath:" ++ ("$" ++ rest)) in H.
    assert (EP : has_prefix ("jsonpath:" ++ ("$" ++ rest)) "jsonpath:" = true) by (apply has_prefix_iff; eauto).
    rewrite EP in H. rewrite slice_after_colon in H. cbn [rbind] in H.
    assert (E1 : slice_has_prefix ["$RELATIVE."; "$KEY"; "$VALUE"] ("$" ++ rest) = false).
    { unfold slice_has_prefix, has_prefix. destruct HS as [r ->]; reflexivity. }
    rewrite E1 in H.
    destruct (String.eqb ("$" ++ rest) "$RELATIVE") eqn:E2.
    { exfalso. apply String.eqb_eq in E2. destruct HS as [r ->]; discriminate. }
    change (first_char ("$" ++ rest)) with (Some "$"%char) in H. cbn [rbind] in H.
    change (Ascii.eqb "$" ".") with false in H. cbn iota in H. rewrite cleaned_path in H by auto.
    injection H; intros <-. reflexivity.
  - assert (EP : has_prefix ("jsonpath:" ++ rest) "jsonpath:" = true) by (apply has_prefix_iff; eauto).
    rewrite EP in H. rewrite slice_after_colon in H. cbn [rbind] in H.
    assert (E1 : slice_has_prefix ["$RELATIVE."; "$KEY"; "$VALUE"] rest = false).
    { unfold slice_has_prefix, has_prefix. destruct HS as [r ->]; reflexivity. }
    rewrite E1 in H.
    destruct (String.eqb rest "$RELATIVE") eqn:E2.
    { exfalso. apply String.eqb_eq in E2. destruct HS as [r ->]; discriminate. }
    assert (E3 : first_char rest = Some "."%char) by (destruct HS as [r ->]; reflexivity).
    rewrite E3 in H. cbn [rbind] in H.
    change (Ascii.eqb "." ".") with true in H. cbn iota in H. rewrite cleaned_path in H by auto.
    injection H; intros <-. reflexivity.
  - change ("jsonpath:$RELATIVE" ++ rest) with ("jsonpath:" ++ ("$RELATIVE" ++ rest)) in H.
    assert (EP : has_prefix ("jsonpath:" ++ ("$RELATIVE" ++ rest)) "jsonpath:" = true) by (apply has_prefix_iff; eauto).
    rewrite EP in H. rewrite slice_after_colon in H. cbn [rbind] in H.
    assert (E1 : slice_has_prefix ["$RELATIVE."; "$KEY"; "$VALUE"] ("$RELATIVE" ++ rest) = true).
    { destruct HS as [r ->]. unfold slice_has_prefix. cbn [existsb].
      assert (EX : has_prefix ("$RELATIVE" ++ "." ++ r) "$RELATIVE." = true) by (apply has_prefix_iff; exists r; auto).
      rewrite EX. auto. }
    rewrite E1 in H.
    assert (E3 : replace_first ("$RELATIVE" ++ rest) "$RELATIVE." "$." = "$" ++ rest).
    { destruct HS as [r ->]. change ("$RELATIVE" ++ "." ++ r) with ("$RELATIVE." ++ r). rewrite replace_first_app. auto. }
    rewrite E3 in H.
    change (first_char ("$" ++ rest)) with (Some "$"%char) in H. cbn [rbind] in H.
    change (Ascii.eqb "$" ".") with false in H. cbn iota in H. rewrite cleaned_path in H by auto.
    injection H; intros <-. reflexivity.
  - vm_compute in H. injection H; intros <-. reflexivity.
  - vm_compute in H. injection H; intros <-. reflexivity.
  - vm_compute in H. injection H; intros <-. reflexivity.
Qed.

Lemma path_jsonpath att rel query : path_of att rel query -> starts "jsonpath:" att.
Proof.
  destruct 1; [exists ("$" ++ rest)|exists rest|exists ("$RELATIVE" ++ rest)|exists "$RELATIVE"|exists "$KEY"|exists "$VALUE"]; auto.
Qed.

(** everything about a prepared path condition that does not depend on its value *)
Theorem prepared_path_condition p att method value ret c rel query : prepares L p att method value ret c ->
  path_of att rel query ->
  c_attr c = "jsonpath" /\ j_is (c_jp c) = true /\ c_method c = final_method method /\ c_ret c = ret /\
  j_rel (c_jp c) = rel /\ j_query (c_jp c) = query /\ prepare_query L query = Ok (j_prep (c_jp c)).
Proof.
  intros H HP. pose proof (path_jsonpath _ _ _ HP) as HS. apply starts_iff in HS.
  apply prepares_inv in H. destruct H as (v & c1 & c4 & R & EA & EM & EV & EL & EO & EJ & ER & EX & EN & VA & VA2 & VM & NM & RM & HC & HF).
  apply convert_ok in HC. destruct HC as (c2 & c3 & H2 & H3 & H4 & _).
  destruct (jsonpath_clash _ HS) as (C1 & C2 & C3 & C4).
  assert (A3 : c_attr c3 = att /\ c_method c3 = final_method method /\ c_ret c3 = ret).
  { unfold handle_labels in H2. simpl in H2. rewrite EA, C1 in H2. simpl in H2. rewrite C2 in H2. simpl in H2.
    apply rbind_ok in H2. destruct H2 as ((val & lab) & _ & H2). injection H2; intros; subst. clear H2.
    unfold handle_objects in H3. simpl in H3. rewrite C3 in H3. simpl in H3. rewrite C4 in H3. simpl in H3.
    apply rbind_ok in H3. destruct H3 as ((val' & obj) & _ & H3). injection H3; intros; subst. auto. }
  destruct A3 as (A3 & M3 & R3).
  pose proof (path_shape _ _ _ _ _ HP A3 H4) as SH. unfold jp_shape in SH. injection SH; intros SQ SR.
  apply handle_jsonpath_ok in H4; [|rewrite A3; auto]. destruct H4 as (rel' & net & E4 & _). subst c4. simpl in *.
  destruct HF as (q & HQ & ->). simpl. subst. repeat split; auto.
Qed.

Lemma query_prepared rel query att q : path_of att rel query -> ~ In query ["$KEY"; "$VALUE"] ->
  prepare_query L query = Ok q -> q = jp_prepare L query /\ q <> None.
Proof.
  intros HP HK HQ. destruct HP as [rest HS HC|rest HS HC|rest HS HC| | | ].
  - rewrite prepared_path in HQ by auto. destruct (jp_prepare L ("$" ++ rest)); [|discriminate].
    injection HQ; intros <-. split; [auto|discriminate].
  - rewrite prepared_path in HQ by auto. destruct (jp_prepare L ("$" ++ rest)); [|discriminate].
    injection HQ; intros <-. split; [auto|discriminate].
  - rewrite prepared_path in HQ by auto. destruct (jp_prepare L ("$" ++ rest)); [|discriminate].
    injection HQ; intros <-. split; [auto|discriminate].
  - unfold prepare_query in HQ. change (replace_all "$" "$RELATIVE" "$") with "$" in HQ.
    change (String.eqb "$" "$*") with false in HQ.
    change (contains "$" "$KEY" || contains "$" "$VALUE") with false in HQ. cbn iota in HQ.
    destruct (jp_prepare L "$"); [|discriminate]. injection HQ; intros <-. split; [auto|discriminate].
  - exfalso. apply HK. simpl. auto.
  - exfalso. apply HK. simpl. auto.
Qed.

Lemma key_query_path att rel query : path_of att rel query -> starts "$VALUE" query \/ query = "$KEY" ->
  rel = true /\ In query ["$KEY"; "$VALUE"].
Proof.
  intros HP HQ. destruct HP as [rest HS HC|rest HS HC|rest HS HC| | | ]; simpl; auto; exfalso.
  - destruct HQ as [[r HQ]|HQ]; destruct HS as [x ->]; discriminate.
  - destruct HQ as [[r HQ]|HQ]; destruct HS as [x ->]; discriminate.
  - destruct HQ as [[r HQ]|HQ]; destruct HS as [x ->]; discriminate.
  - destruct HQ as [[r HQ]|HQ]; discriminate.
Qed.

(** the prepared condition sees what the attribute's path shows *)
Theorem shows_seen p att method value ret c m s : prepares L p att method value ret c -> shows L att m s ->
  c_attr c = "jsonpath" /\ j_is (c_jp c) = true /\ c_method c = final_method method /\
  (sees L (c_jp c) m s \/ sees_raw L (c_jp c) m s).
Proof.
  intros HPR (rel & query & HP & HSA).
  destruct (prepared_path_condition _ _ _ _ _ _ _ _ HPR HP) as (E1 & E2 & E3 & E4 & E5 & E6 & E7).
  do 3 (split; [auto|]).
  assert (NK : ~ In query ["$KEY"; "$VALUE"] -> ~ key_query L (c_jp c)).
  { intros N [K|K]; apply N; rewrite E6 in K; eapply key_query_path; eauto. }
  destruct HSA as [q d HM HN HQ HD|k x HM EQ HQ HD|k x HM EQ HQ HD|d HM HN HD HE|d HM HI HD HE].
  - left. split; [auto|]. destruct (query_prepared _ _ _ _ HP HN E7) as [E8 E9]. exists q. split; [congruence|].
    specialize (NK HN). destruct rel.
    + split; [exists (asks L q d); apply lu_relative; auto|]. intros r HR.
      destruct HR as [d' F1 F2|d' F1 F2 F3|o k x F1 F2|o k x F1 F2|o k x F1 F2|F1 F2]; try congruence;
        try (exfalso; apply NK; solve [left; auto|right; auto|right; rewrite F2; exists ""; auto|auto]).
      replace d' with d by congruence. destruct (asks L q d); auto.
    + split; [exists (asks L q d); apply lu_absolute; auto|]. intros r HR.
      destruct HR as [d' F1 F2|d' F1 F2 F3|o k x F1 F2|o k x F1 F2|o k x F1 F2|F1 F2]; try congruence.
      replace d' with d by congruence. destruct (asks L q d); auto.
  - left. subst query. split; [auto|]. unfold prepare_query in E7.
    change (replace_all "$KEY" "$RELATIVE" "$") with "$KEY" in E7. change (String.eqb "$KEY" "$*") with false in E7.
    change (contains "$KEY" "$KEY" || contains "$KEY" "$VALUE") with true in E7. cbn iota in E7.
    injection E7; intros E7'. destruct (jp_prepare L "$.*") as [q|]; [|congruence]. exists q. split; [auto|].
    destruct (key_query_path _ _ _ HP (or_intror eq_refl)) as [-> _].
    split; [exists (Some (GStr k)); eapply lu_key; eauto; left; auto|]. intros r HR.
    destruct HR as [d' F1 F2|d' F1 F2 F3|o k' x' F1 F2 F3 F4|o k' x' F1 F2|o k' x' F1 F2|F1 F2 F3]; try congruence.
    + exfalso. apply F2. left. auto.
    + replace o with [(k, x)] in F4 by congruence. destruct F4 as [F4|[]]. congruence.
    + exfalso. rewrite E6 in F2. destruct F2 as [r F2]. discriminate.
  - left. subst query. split; [auto|]. unfold prepare_query in E7.
    change (replace_all "$VALUE" "$RELATIVE" "$") with "$VALUE" in E7. change (String.eqb "$VALUE" "$*") with false in E7.
    change (contains "$VALUE" "$KEY" || contains "$VALUE" "$VALUE") with true in E7. cbn iota in E7.
    injection E7; intros E7'. destruct (jp_prepare L "$.*") as [q|]; [|congruence]. exists q. split; [auto|].
    assert (HV : starts "$VALUE" "$VALUE") by (exists ""; auto).
    destruct (key_query_path _ _ _ HP (or_introl HV)) as [-> _].
    split; [exists (Some x); eapply lu_value with (k := k); eauto; simpl; rewrite String.eqb_refl; auto|]. intros r HR.
    destruct HR as [d' F1 F2|d' F1 F2 F3|o k' x' F1 F2 F3 F4|o k' x' F1 F2 F3 F4|o k' x' F1 F2|F1 F2 F3]; try congruence.
    + exfalso. apply F2. right. rewrite E6. auto.
    + replace o with [(k, x)] in F4 by congruence. simpl in F4. destruct (String.eqb k' k); congruence.
  - right. split; [auto|]. specialize (NK HN). exists (fetch L d query). split; [|destruct (fetch L d query); auto].
    rewrite <- E6. destruct rel; [apply rl_relative|apply rl_absolute]; auto.
  - right. split; [auto|]. exists (entry_text L d query). split; [|destruct (entry_text L d query); auto].
    assert (KQ : starts "$VALUE" query \/ query = "$KEY").
    { destruct HI as [<-|[<-|[]]]; [right; auto|left; exists ""; auto]. }
    destruct (key_query_path _ _ _ HP KQ) as [-> _]. rewrite <- E6 in *. apply rl_entry; auto.
    + destruct KQ; [right|left]; auto.
    + intros [r K]. rewrite K in HI. destruct HI as [HI|[HI|[]]]; discriminate.
Qed.

(** ** The value of a condition *)
Lemma returns_evaluates c m b : may_return L (NCond c) m b -> exists ord, fair ord /\ evaluates L ord c m b.
Proof. intros (ord & t & x & s & HF & H). exists ord. split; auto. exists t, x, s. auto. Qed.

Theorem condition_iff p att method value ret c v k m s b : NumberSpec L ->
  prepares L p att method value ret c -> replaced p method value v -> plain_value v -> method_is method k ->
  shows L att m s -> may_return L (NCond c) m b -> (b = true <-> satisfied L k v s).
Proof.
  intros HN HP HR HV HM HS H. apply returns_evaluates in H. destruct H as (ord & HF & H).
  pose proof (shows_seen _ _ _ _ _ _ _ _ HP HS) as (_ & _ & _ & HSS).
  assert (HJ : starts "jsonpath:" att) by (destruct HS as (rel & q & HPO & _); eapply path_jsonpath; eauto).
  destruct (prepared_jsonpath _ _ _ _ _ _ _ _ _ HP HJ HR HV HM) as (R & _).
  destruct HSS as [HSS|HSS]; [eapply parsed_condition; eauto|eapply raw_condition; eauto].
Qed.

(** *** C16 *)
Lemma nex_method p att method value ret c : prepares L p att method value ret c -> 
  forall rel q, path_of att rel q -> (empty_result L c = true <-> In method ["NEX"; "nex"]).
Proof.
  intros HP rel q HPO. destruct (prepared_path_condition _ _ _ _ _ _ _ _ HP HPO) as (_ & _ & E & _).
  unfold empty_result. rewrite E. rewrite is_any_iff. unfold final_method.
  destruct (is_any method ["IN"; "IS"]) eqn:E1.
  - apply is_any_iff in E1. split; intro H.
    + destruct H as [H|[H|[]]]; discriminate.
    + exfalso. destruct E1 as [<-|[<-|[]]]; destruct H as [H|[H|[]]]; discriminate.
  - destruct (is_any method ["NIN"]) eqn:E2; [|tauto].
    apply is_any_iff in E2. split; intro H.
    + destruct H as [H|[H|[]]]; discriminate.
    + exfalso. destruct E2 as [<-|[]]; destruct H as [H|[H|[]]]; discriminate.
Qed.

Theorem missing_only_nex p att method value ret c m b : prepares L p att method value ret c ->
  shows L att m Missing -> may_return L (NCond c) m b -> (b = true <-> In method ["NEX"; "nex"]).
Proof.
  intros HP HS H. apply returns_evaluates in H. destruct H as (ord & HF & H).
  destruct HS as (rel & q & HPO & HSA). rewrite <- (nex_method _ _ _ _ _ _ HP _ _ HPO).
  assert (HS : shows L att m Missing) by (exists rel, q; auto).
  pose proof (shows_seen _ _ _ _ _ _ _ _ HP HS) as (E1 & E2 & _ & [HSS|HSS]).
  - eapply sees_compare in H; eauto. rewrite H. tauto.
  - destruct H as (t & x & e & H). apply leaf_flag in H; auto. destruct H as (e1 & H).
    assert (HM : m_raw m = None) by apply HSS. rewrite HM in H. unfold mopt in H. injection H; intros _ H'.
    rewrite (sees_raw_compare _ _ _ _ E1 E2 HSS) in H'. injection H'; intros ->. tauto.
Qed.

Lemma missing_values v : In v [GNil; GStr ""; GArr []] -> value_status L v = Missing.
Proof. intros [<-|[<-|[<-|[]]]]; reflexivity. Qed.
Lemma missing_raw raw : In raw [""; dqs ++ dqs; "[]"] -> status_of raw = Missing.
Proof. intros [<-|[<-|[<-|[]]]]; reflexivity. Qed.

Theorem missing_parsed p att method value ret c rel query q d m b : prepares L p att method value ret c ->
  path_of att rel query -> ~ In query ["$KEY"; "$VALUE"] -> m_raw m <> None -> jp_prepare L query = Some q ->
  (if rel then m_raw_rel m else m_raw m) = Some d ->
  (forall v, asks L q d = Some v -> In v [GNil; GStr ""; GArr []]) ->
  may_return L (NCond c) m b -> (b = true <-> In method ["NEX"; "nex"]).
Proof.
  intros HP HPO HQ HM HJ HD HV HB. eapply missing_only_nex; eauto. exists rel, query. split; auto.
  pose proof (sa_parsed L m rel query q d HM HQ HJ HD) as HA. destruct (asks L q d) as [v|]; auto.
  rewrite missing_values in HA; auto.
Qed.
Theorem missing_in_raw p att method value ret c rel query d m b : prepares L p att method value ret c ->
  path_of att rel query -> ~ In query ["$KEY"; "$VALUE"] -> m_raw m = None ->
  (if rel then m_json_rel m else m_json m) = Some d -> d <> "" ->
  (forall text, fetch L d query = Some text -> In text [""; dqs ++ dqs; "[]"]) ->
  may_return L (NCond c) m b -> (b = true <-> In method ["NEX"; "nex"]).
Proof.
  intros HP HPO HQ HM HD HN HV HB. eapply missing_only_nex; eauto. exists rel, query. split; auto.
  pose proof (sa_raw L m rel query d HM HQ HD HN) as HA. destruct (fetch L d query) as [v|]; auto.
  rewrite missing_raw in HA; auto.
Qed.

Theorem nothing_false p att method value ret c rel q m b : prepares L p att method value ret c ->
  path_of att rel q -> jp_prepare L "$.*" <> None -> nothing_to_read rel m ->
  may_return L (NCond c) m b -> b = false.
Proof.
  intros HP HPO HQ HN H. apply returns_evaluates in H. destruct H as (ord & HF & H).
  destruct (prepared_path_condition _ _ _ _ _ _ _ _ HP HPO) as (E1 & E2 & E3 & E4 & E5 & E6 & E7).
  eapply no_document; eauto; [|rewrite E5; auto].
  destruct (in_dec string_dec q ["$KEY"; "$VALUE"]) as [I|I].
  - assert (E8 : prepare_query L q = Ok (jp_prepare L "$.*")) by (destruct I as [<-|[<-|[]]]; reflexivity).
    congruence.
  - destruct (query_prepared _ _ _ _ HPO I E7). congruence.
Qed.

(** *** Present values *)
Lemma last_get t : forall c, String.get (String.length t - 1) t = Some c -> exists a, t = a ++ String c "".
Proof.
  induction t as [|x t IH]; intros c H; [discriminate|]. destruct t as [|y t].
  - simpl in H. injection H; intros ->. exists "". auto.
  - destruct (IH c) as [a E]; [simpl in *; rewrite Nat.sub_0_r; auto|]. exists (String x a). simpl. congruence.
Qed.
Lemma get_last a c : String.get (String.length (a ++ String c "") - 1) (a ++ String c "") = Some c.
Proof.
  induction a as [|x a IH]; auto. simpl in *. rewrite Nat.sub_0_r in *.
  destruct (String.length (a ++ String c "")) eqn:E; [destruct a; discriminate|]. simpl in *. rewrite Nat.sub_0_r in IH. auto.
Qed.

Lemma not_quoted t : ~ starts dqs t -> (forall a, t <> a ++ dqs) -> starts_dq t = false /\ ends_dq t = false.
Proof.
  intros H5 H6. split.
  - unfold starts_dq, first_char. destruct t as [|c t]; auto. simpl. apply Ascii.eqb_neq. intros ->.
    apply H5. exists t. auto.
  - unfold ends_dq, last_char. destruct (String.get _ t) as [c|] eqn:EG; auto. apply Ascii.eqb_neq. intros ->.
    apply last_get in EG. destruct EG as [a E]. apply (H6 a). auto.
Qed.

Lemma clean_result t : clean t -> remove_quotes_from_result t = Some t.
Proof.
  intros (N1 & N2 & H1 & H2 & H3 & H4 & H5 & H6). destruct (not_quoted t H5 H6) as [SD ED].
  unfold remove_quotes_from_result. rewrite SD, ED. simpl. destruct (1 <? _)%nat; auto.
Qed.

Theorem clean_status t : clean t -> status_of t = Present t.
Proof.
  intros HC. pose proof (clean_result _ HC) as HRR. destruct HC as (N1 & N2 & H1 & H2 & H3 & H4 & H5 & H6). unfold status_of.
  assert (E1 : String.eqb t "" = false) by (apply String.eqb_neq; auto). rewrite E1.
  destruct (not_quoted t H5 H6) as [SD ED].
  assert (ER : remove_quotes_and_brackets t = t).
  { unfold remove_quotes_and_brackets. rewrite (replace_absent "[["), (replace_absent "]]"), (replace_absent (String "[" dqs)), (replace_absent (String dq "]")); auto.
    apply String.eqb_neq in N2. rewrite N2, SD, andb_false_r. auto. }
  cbv zeta. rewrite ER, E1, HRR. auto.
Qed.

Lemma string_last b : b = "" \/ exists b' x, b = b' ++ String x "".
Proof.
  induction b as [|c b IH]; [auto|right]. destruct IH as [->|(b' & x & ->)].
  - exists "", c. auto.
  - exists (String c b'), x. auto.
Qed.
Lemma app_last a c : forall b d, a ++ String c "" = b ++ String d "" -> a = b /\ c = d.
Proof.
  induction a as [|x a IH]; intros [|y b] d E; simpl in E; injection E; intros; subst; auto.
  - destruct b; discriminate.
  - destruct a; discriminate.
  - destruct (IH b d) as [-> ->]; auto.
Qed.

Lemma absent_last w t c : absent w t -> (forall a, t ++ String c "" <> a ++ w) -> absent w (t ++ String c "").
Proof.
  intros H HE a b E. destruct (string_last b) as [->|(b' & x & ->)].
  - rewrite append_nil_r in E. eapply HE; eauto.
  - rewrite <- !append_assoc in E. apply app_last in E. destruct E as [E ->]. rewrite append_assoc in E. eapply H; eauto.
Qed.
Lemma absent_quoted x y t : absent (String x (String y "")) t -> (x = dq -> ~ starts (String y "") t) ->
  (y = dq -> forall a, t <> a ++ String x "") -> (x <> dq \/ y <> dq) ->
  absent (String x (String y "")) (dqs ++ t ++ dqs).
Proof.
  intros H HS HE HD. rewrite <- append_assoc. apply absent_last.
  - apply absent_first; auto. destruct (String.prefix _ _) eqn:EP; auto. exfalso. apply prefix_iff in EP.
    destruct EP as [r E]. injection E; intros E1 E2. subst x. apply HS; auto. exists r. auto.
  - intros a E. destruct (Ascii.eqb_spec y dq) as [->|N].
    + change (String x (String dq "")) with (String x "" ++ String dq "") in E. rewrite <- append_assoc in E.
      apply app_last in E. destruct E as [E _]. destruct a as [|z a].
      * injection E; intros E1 E2. subst x. destruct HD; congruence.
      * injection E; intros E1 E2. eapply HE; eauto.
    + change (String x (String y "")) with (String x "" ++ String y "") in E. rewrite <- append_assoc in E.
      apply app_last in E. destruct E; congruence.
Qed.

Lemma strip_quoted t : strip_ends (dqs ++ t ++ dqs) = t.
Proof.
  unfold strip_ends. rewrite !length_append. change (drop 1 (dqs ++ t ++ dqs)) with (t ++ dqs).
  change (String.length dqs) with 1%nat. replace (1 + (String.length t + 1) - 2)%nat with (String.length t) by lia.
  generalize dqs. intro z. induction t; simpl; [destruct z; auto|]. rewrite IHt. auto.
Qed.

(** a quoted text in a raw document *)
Theorem quoted_status t : clean t -> ~ starts "]" t -> (forall a, t <> a ++ "[") -> status_of (dqs ++ t ++ dqs) = Present t.
Proof.
  intros HC HB HE. pose proof (clean_result _ HC) as HRR. destruct HC as (N1 & N2 & H1 & H2 & H3 & H4 & H5 & H6). unfold status_of.
  assert (ER : remove_quotes_and_brackets (dqs ++ t ++ dqs) = t).
  { unfold remove_quotes_and_brackets.
    rewrite (replace_absent "[["), (replace_absent "]]"), (replace_absent (String "[" dqs)), (replace_absent (String dq "]"));
      try (apply absent_quoted; auto; first [discriminate|left; discriminate|right; discriminate]).
    change (String.eqb (dqs ++ t ++ dqs) "[]") with false. cbn iota.
    rewrite strip_quoted.
    replace (2 <=? String.length (dqs ++ t ++ dqs))%nat with true
      by (symmetry; apply Nat.leb_le; rewrite !length_append; change (String.length dqs) with 1%nat; lia).
    replace (ends_dq (dqs ++ t ++ dqs)) with true; [reflexivity|].
    unfold ends_dq, last_char. rewrite <- append_assoc. unfold dqs at 2 4. rewrite get_last. reflexivity. }
  change (String.eqb (dqs ++ t ++ dqs) "") with false. cbv zeta. rewrite ER.
  assert (E1 : String.eqb t "" = false) by (apply String.eqb_neq; auto). rewrite E1, HRR. auto.
Qed.

(** values of a parsed document *)
Theorem text_status t : clean t -> t <> "<nil>" -> value_status L (GStr t) = Present t.
Proof.
  intros H N. unfold value_status. simpl. apply String.eqb_neq in N. rewrite N. apply clean_status; auto.
Qed.
Theorem bool_status b : value_status L (GBool b) = Present (if b then "true" else "false").
Proof. destruct b; reflexivity. Qed.

(** *** C17, C18 *)
Definition opposites : list (kind * kind) := [(KEx, KNex); (KRe, KNre); (KEq, KNeq); (KIn, KNin)].

Lemma quantity_dec s : (exists x, quantity L s x) \/ not_number L s.
Proof.
  destruct (float_with_units L s) as [x|] eqn:E.
  - left. exists x. apply number_iff. auto.
  - right. apply not_number_iff. auto.
Qed.

Lemma satisfied_present k v t : satisfied L k v (Present t) <-> holds L k v t.
Proof. simpl. tauto. Qed.
Ltac numeric := unfold numeric_kind; simpl; tauto.
Lemma holds_eq_neq v t : holds L KNeq v t <-> ~ holds L KEq v t.
Proof.
  destruct (quantity_dec v) as [[x QX]|NV].
  - destruct (quantity_dec t) as [[y QY]|NT].
    + rewrite !(holds_both L _ v t x y) by (auto; numeric). simpl. destruct (feqb y x); simpl; split; intro H; auto; try discriminate.
    + rewrite !(holds_rule_only L _ v t x) by (auto; numeric). split; auto. discriminate.
  - rewrite !(holds_text L _ v t) by (auto; numeric). split.
    + intros [[H _]|[_ H]]; [discriminate|]. intros [[_ H']|[H' _]]; [auto|discriminate].
    + intro H. right. split; auto.
Qed.

Lemma holds_opposite k k' v c t : ready L k v c -> In (k, k') opposites -> (holds L k' v t <-> ~ holds L k v t).
Proof.
  intros R HO. unfold opposites in HO. simpl in HO.
  destruct HO as [E|[E|[E|[E|[]]]]]; injection E; intros <- <-.
  - simpl. split; [auto|]. intro H. destruct (string_dec t ""); auto. exfalso; auto.
  - destruct R as (_ & _ & method & HM & _ & _ & _ & _ & HC & _).
    rewrite (method_list_kind method KRe HM) in HC by discriminate. simpl in *.
    destruct (re_compile L v) as [re|]; [|exfalso; apply HC; auto].
    split.
    + intros (re1 & E1 & M1) (re2 & E2 & M2). congruence.
    + intro H. exists re. split; auto. destruct (re_match L re t) eqn:EM; auto. exfalso. apply H. eauto.
  - apply holds_eq_neq.
  - destruct R as (_ & _ & method & HM & _ & _ & _ & _ & HC & _).
    rewrite (list_word method KIn v HM) in HC by auto. simpl in *.
    destruct (re_compile L (list_to_alternatives v)) as [re|]; [|exfalso; apply HC; auto].
    split.
    + intros (re1 & E1 & M1) (re2 & E2 & M2). congruence.
    + intro H. exists re. split; auto. destruct (re_match L re t) eqn:EM; auto. exfalso. apply H. eauto.
Qed.

Lemma negb_iff (b b' : bool) : (b' = true <-> b <> true) -> b' = negb b.
Proof.
  intros [H1 H2]. destruct b, b'; simpl; try reflexivity.
  - exfalso. apply H1; reflexivity.
  - apply H2. discriminate.
Qed.

Lemma shows_ready p att method value ret c v k m s : prepares L p att method value ret c ->
  replaced p method value v -> plain_value v -> method_is method k -> shows L att m s -> ready L k v c.
Proof.
  intros HP HR HV HM HS.
  assert (HJ : starts "jsonpath:" att) by (destruct HS as (rel & q & HPO & _); eapply path_jsonpath; eauto).
  destruct (prepared_jsonpath _ _ _ _ _ _ _ _ _ HP HJ HR HV HM) as (R & _). auto.
Qed.

Theorem complementary p att method method' value value' v ret ret' c c' k k' m t b b' : NumberSpec L ->
  In (k, k') opposites -> method_is method k -> method_is method' k' ->
  prepares L p att method value ret c -> prepares L p att method' value' ret' c' ->
  replaced p method value v -> replaced p method' value' v -> plain_value v ->
  shows L att m (Present t) -> may_return L (NCond c) m b -> may_return L (NCond c') m b' -> b' = negb b.
Proof.
  intros HN HO HM HM' HP HP' HR HR' HV HS HB HB'.
  apply (condition_iff _ _ _ _ _ _ v k _ _ _ HN HP HR HV HM HS) in HB.
  apply (condition_iff _ _ _ _ _ _ v k' _ _ _ HN HP' HR' HV HM' HS) in HB'.
  pose proof (shows_ready _ _ _ _ _ _ _ _ _ _ HP HR HV HM HS) as R. simpl in HB, HB'.
  apply negb_iff. rewrite HB', HB. eapply holds_opposite; eauto.
Qed.

(** EX is true on every non-empty text *)
Theorem present_exists p att method value ret c m t b : NumberSpec L -> method_is method KEx ->
  prepares L p att method value ret c -> plain_value value -> ~ starts "#" value ->
  shows L att m (Present t) -> t <> "" -> may_return L (NCond c) m b -> b = true.
Proof.
  intros HN HM HP HV HH HS HT HB.
  assert (HR : replaced p method value value) by (constructor; auto).
  apply (condition_iff _ _ _ _ _ _ value KEx _ _ _ HN HP HR HV HM HS) in HB. apply HB. auto.
Qed.

Theorem ne_on_numbers p att method method' value v ret ret' c c' m t x y b b' : NumberSpec L ->
  method_is method KNe -> method_is method' KNeq ->
  prepares L p att method value ret c -> prepares L p att method' value ret' c' ->
  replaced p method value v -> replaced p method' value v -> plain_value v ->
  shows L att m (Present t) -> quantity L v x -> quantity L t y ->
  may_return L (NCond c) m b -> may_return L (NCond c') m b' -> b = b'.
Proof.
  intros HN HM HM' HP HP' HR HR' HV HS QX QY HB HB'.
  apply (condition_iff _ _ _ _ _ _ v KNe _ _ _ HN HP HR HV HM HS) in HB.
  apply (condition_iff _ _ _ _ _ _ v KNeq _ _ _ HN HP' HR' HV HM' HS) in HB'.
  rewrite satisfied_present in HB, HB'. rewrite (holds_both L _ v t x y) in HB by (auto; numeric).
  rewrite (holds_both L _ v t x y) in HB' by (auto; numeric).
  simpl in *. apply bool_iff_true. rewrite HB, HB'. tauto.
Qed.

Theorem ne_on_texts p att method value v ret c m t b : NumberSpec L ->
  method_is method KNe -> prepares L p att method value ret c -> replaced p method value v -> plain_value v ->
  shows L att m (Present t) -> not_number L v \/ not_number L t -> may_return L (NCond c) m b -> b = false.
Proof.
  intros HN HM HP HR HV HS HT HB.
  apply (condition_iff _ _ _ _ _ _ v KNe _ _ _ HN HP HR HV HM HS) in HB. simpl in HB.
  destruct b; auto. exfalso. destruct HB as [HB _]. destruct (HB eq_refl) as (x & y & QX & QY & _).
  destruct HT as [HT|HT]; eapply HT; eauto.
Qed.

(** *** C19 *)
Lemma list_to_alternatives_bare l : Forall plain_item l -> l <> [] ->
  list_to_alternatives (String.concat "," l) = list_to_alternatives (list_value l).
Proof.
  intros HF HN. rewrite (list_to_alternatives_words l HN HF).
  unfold list_to_alternatives. rewrite !replace_all_one.
  assert (HB : all_chars (fun c => c <> "["%char /\ c <> "]"%char) (String.concat "," l)).
  { apply concat_chars; [|simpl; repeat split; discriminate].
    eapply Forall_impl; [|exact HF]. intros a Ha. eapply all_chars_impl; [|exact Ha]. simpl.
    intros c [HC _]. apply plain_no_bracket; auto. }
  rewrite (cmap_id (subst1 "[" "") (String.concat "," l)).
  2:{ eapply all_chars_impl; [|exact HB]. simpl. intros c [H _]. unfold subst1. rewrite (proj2 (Ascii.eqb_neq c "[")); auto. }
  rewrite (cmap_id (subst1 "]" "") (String.concat "," l)).
  2:{ eapply all_chars_impl; [|exact HB]. simpl. intros c [_ H]. unfold subst1. rewrite (proj2 (Ascii.eqb_neq c "]")); auto. }
  apply words_concat; auto.
  eapply Forall_impl; [|exact HF]. intros a Ha. eapply all_chars_impl; [|exact Ha]. simpl. tauto.
Qed.

Lemma items_plain_value l v : Forall plain_item l -> v = list_value l \/ v = String.concat "," l -> plain_value v.
Proof.
  intros HF HV.
  assert (HC : all_chars (fun c => c <> "["%char /\ c <> "$"%char) (String.concat "," l)).
  { apply concat_chars; [|simpl; repeat split; discriminate].
    eapply Forall_impl; [|exact HF]. intros a Ha. eapply all_chars_impl; [|exact Ha]. simpl.
    intros c [[HC _] _]. split; intros ->; apply HC; simpl; tauto. }
  destruct HV as [->|E].
  - split; intros [r E]; discriminate.
  - rewrite <- E in HC. split; intros [r ->]; simpl in HC; tauto.
Qed.

Theorem list_membership p att method value v ret c k m t l b : NumberSpec L -> RegexSpec L ->
  method_is method k -> prepares L p att method value ret c -> replaced p method value v ->
  l <> [] -> Forall plain_item l -> v = list_value l \/ v = String.concat "," l ->
  shows L att m (Present t) -> ascii_text t -> may_return L (NCond c) m b ->
  (k = KIn -> (b = true <-> In t l)) /\ (k = KNin -> (b = true <-> ~ In t l)).
Proof.
  intros HN HRX HM HP HR NL HF HV HS HA HB.
  pose proof (items_plain_value _ _ HF HV) as PV.
  apply (condition_iff _ _ _ _ _ _ v k _ _ _ HN HP HR PV HM HS) in HB. simpl in HB.
  destruct (membership_regex L HRX l NL HF) as (re & E & HRE). specialize (HRE t HA).
  assert (EV : re_compile L (list_to_alternatives v) = Some re).
  { destruct HV as [->| ->]; [auto|]. rewrite list_to_alternatives_bare; auto. }
  split; intros ->; rewrite HB; simpl; rewrite EV.
  - split; [intros (re1 & E1 & M1)|intro I; exists re; split; auto; apply HRE; auto]. apply HRE. congruence.
  - rewrite <- HRE. split.
    + intros (re1 & E1 & M1). congruence.
    + intro NI. exists re. split; auto. destruct (re_match L re t); auto. exfalso. auto.
Qed.

Theorem empty_list_rejected p att method value ret c : In method ["IN"; "NIN"] -> replaced p method value "" ->
  ~ prepares L p att method value ret c.
Proof.
  intros HM HR HP. apply prepares_inv in HP.
  destruct HP as (v & c1 & c4 & R & EA & EM & EV & EL & EO & EJ & ER & EX & EN & VA & VA2 & VM & _).
  assert (EE : v = "") by (eapply replaced_fun; eauto). rewrite EE in VM.
  unfold validate_method in VM. destruct HM as [<-|[<-|[]]]; discriminate.
Qed.

(** *** C20 *)
Theorem numbers_compared p att method value v ret c k m t x y b : NumberSpec L ->
  method_is method k -> In k number_kinds ->
  prepares L p att method value ret c -> replaced p method value v -> plain_value v ->
  shows L att m (Present t) -> quantity L v x -> quantity L t y -> may_return L (NCond c) m b ->
  (b = true <-> float_holds k y x).
Proof.
  intros HN HM HK HP HR HV HS QX QY HB.
  apply (condition_iff _ _ _ _ _ _ v k _ _ _ HN HP HR HV HM HS) in HB. rewrite satisfied_present in HB.
  rewrite (holds_both L _ v t x y) in HB by auto.
  destruct k; simpl in *; try (rewrite negb_true_iff in HB); try exact HB; exfalso; intuition discriminate.
Qed.

(** the methods on one attribute and value relate to each other as order relations do *)
Theorem order_laws p att value m t x y (conds : kind -> cond) (method : kind -> string) (ret : kind -> retpart L) (b : kind -> bool) :
  NumberSpec L -> ~ starts "#" value -> plain_value value ->
  shows L att m (Present t) -> quantity L value x -> quantity L t y ->
  (forall k, In k [KLt; KEq; KGt; KLe; KGe] -> method_is (method k) k /\
     prepares L p att (method k) value (ret k) (conds k) /\ may_return L (NCond (conds k)) m (b k)) ->
  b KLe = b KLt || b KEq /\ b KGe = b KGt || b KEq /\
  (~ is_nan x -> ~ is_nan y -> 
     (b KLt = true /\ b KEq = false /\ b KGt = false) \/ (b KLt = false /\ b KEq = true /\ b KGt = false)
     \/ (b KLt = false /\ b KEq = false /\ b KGt = true)) /\
  (is_nan x \/ is_nan y -> forall k, In k [KLt; KEq; KGt; KLe; KGe] -> b k = false).
Proof.
  intros HN HH HV HS QX QY HC.
  assert (HX : forall k, In k [KLt; KEq; KGt; KLe; KGe] -> (b k = true <-> float_holds k y x)).
  { intros k HK. destruct (HC k HK) as (HM & HP & HB). eapply numbers_compared; eauto.
    - clear - HK. simpl in *. intuition auto.
    - constructor; auto. }
  assert (E1 : b KLt = fltb y x) by (apply bool_iff_true; rewrite HX by (simpl; tauto); reflexivity).
  assert (E2 : b KEq = feqb y x) by (apply bool_iff_true; rewrite HX by (simpl; tauto); reflexivity).
  assert (E3 : b KGt = fltb x y) by (apply bool_iff_true; rewrite HX by (simpl; tauto); reflexivity).
  assert (E4 : b KLe = fleb y x) by (apply bool_iff_true; rewrite HX by (simpl; tauto); reflexivity).
  assert (E5 : b KGe = fleb x y) by (apply bool_iff_true; rewrite HX by (simpl; tauto); reflexivity).
  rewrite E1, E2, E3, E4, E5. split; [apply float_le|]. split; [rewrite float_le, (feqb_sym x y); auto|]. split.
  - intros N1 N2. apply float_cases; auto.
  - intros N k HK. assert (N' : is_nan y \/ is_nan x) by tauto. destruct (nan_false _ _ N') as (F1 & F2 & F3 & F4 & F5).
    simpl in HK. destruct HK as [<-|[<-|[<-|[<-|[<-|[]]]]]]; congruence.
Qed.

Theorem text_against_number p att method value v ret c k m t x b : NumberSpec L ->
  method_is method k -> In k [KEq; KNeq; KNe; KLt; KLe; KGt; KGe] ->
  prepares L p att method value ret c -> replaced p method value v -> plain_value v ->
  shows L att m (Present t) -> quantity L v x -> not_number L t -> may_return L (NCond c) m b -> (b = true <-> k = KNeq).
Proof.
  intros HN HM HK HP HR HV HS QX NT HB.
  apply (condition_iff _ _ _ _ _ _ v k _ _ _ HN HP HR HV HM HS) in HB. rewrite satisfied_present in HB.
  rewrite (holds_rule_only L _ v t x) in HB by auto. auto.
Qed.

(** *** C44 *)
Theorem backends_agree p att method value v ret c k m m' s b b' : NumberSpec L ->
  method_is method k -> prepares L p att method value ret c -> replaced p method value v -> plain_value v ->
  shows L att m s -> shows L att m' s -> may_return L (NCond c) m b -> may_return L (NCond c) m' b' -> b = b'.
Proof.
  intros HN HM HP HR HV HS HS' HB HB'.
  apply (condition_iff _ _ _ _ _ _ v k _ _ _ HN HP HR HV HM HS) in HB.
  apply (condition_iff _ _ _ _ _ _ v k _ _ _ HN HP HR HV HM HS') in HB'.
  apply bool_iff_true. rewrite HB, HB'. tauto.
Qed.

(** ** Crashes *)
Definition may_panic (n : node L) (m : message) : Prop :=
  exists ord t s, fair ord /\ eval L ord n (mkEst m t) = (None, s).

(** a JSON-path condition without return values panics only if the comparison does *)
Lemma leaf_panic ord c m t s : c_attr c = "jsonpath" -> r_paths (c_ret c) = None ->
  test_condition L ord c (mkEst m t) = (None, s) ->
  fst (match m_raw m, j_prep (c_jp c) with
       | Some _, Some q => test_json_iface L ord c q m
       | _, _ => mopt (test_json_bytes L c m)
       end (mkEst m t)) = None.
Proof.
  intros EA ER H. unfold test_condition, mbind, mmsg in H. cbn [e_msg] in H. rewrite EA in H.
  change (is_any "jsonpath" ["true"; "TRUE"]) with false in H.
  change (is_any "jsonpath" ["false"; "FALSE"]) with false in H. cbn [String.eqb Ascii.eqb Bool.eqb] in H.
  destruct ((match m_raw m, j_prep (c_jp c) with
             | Some _, Some q => test_json_iface L ord c q m
             | _, _ => mopt (test_json_bytes L c m)
             end) (mkEst m t)) as [[fl|] e1]; [|auto].
  rewrite ER in H. discriminate.
Qed.

(** *** the comparison on a parsed document always has a result, unless a key or value is asked of something
    that is not an object *)
Lemma json_iface_result k v ord c q m e : NumberSpec L -> fair ord -> ready L k v c ->
  (j_rel (c_jp c) = true -> key_query L (c_jp c) -> m_raw_rel m = None \/ exists o, m_raw_rel m = Some (GMapS o)) ->
  fst (test_json_iface L ord c q m e) <> None.
Proof.
  intros HN HF R HK. unfold test_json_iface. pose proof R as R'. destruct R' as (_ & EJ & _). rewrite EJ. cbn [negb].
  assert (FIN : forall (w : iface * bool) e,
     fst ((if snd w then mret (empty_result L c) else mopt (compare_iface L c (iface_text L (fst w)))) e) <> None).
  { intros [w err] e0. simpl. destruct err; [discriminate|].
    destruct (compare_iface_status L k v c w HN R) as (b & E & _). rewrite E. discriminate. }
  destruct (j_rel (c_jp c)) eqn:ER.
  - destruct (m_raw_rel m) as [d|] eqn:EM; [|discriminate].
    destruct (String.eqb (j_query (c_jp c)) "$KEY" || has_prefix (j_query (c_jp c)) "$VALUE") eqn:EQ; [|apply FIN].
    assert (KQ : key_query L (c_jp c)).
    { unfold key_query. apply orb_true_iff in EQ. destruct EQ as [EQ|EQ].
      - left. apply String.eqb_eq. auto.
      - right. apply starts_iff. auto. }
    destruct (HK eq_refl KQ) as [H|[o H]]; [discriminate|]. injection H; intros ->.
    unfold mbind. destruct (get_key_value_iface L ord c q (GMapS o) e) as [[r|] e1] eqn:EG; [apply FIN|].
    exfalso. unfold get_key_value_iface, mrange, mbind in EG.
    destruct (ord (e_tick e) (keys o)) as [|key ks] eqn:EO; [discriminate|].
    destruct (fair_head ord o _ _ _ HF EO) as (x & HI & y & HA). rewrite HA in EG.
    destruct (String.eqb _ "$KEY"); [discriminate|]. destruct (String.eqb _ "$VALUE"); discriminate.
  - destruct (m_raw m) as [d|]; [apply FIN|discriminate].
Qed.

Theorem parsed_no_crash p att method value v ret c k m s : NumberSpec L ->
  method_is method k -> prepares L p att method value ret c -> replaced p method value v -> plain_value v ->
  r_paths ret = None -> shows L att m s -> m_raw m <> None -> ~ may_panic (NCond c) m.
Proof.
  intros HN HM HP HR HV HRET HS HRAW (ord & t & s' & HF & H).
  pose proof (shows_ready _ _ _ _ _ _ _ _ _ _ HP HR HV HM HS) as R.
  pose proof HS as (rel & query & HPO & HSA).
  destruct (prepared_path_condition _ _ _ _ _ _ _ _ HP HPO) as (E1 & E2 & E3 & E4 & E5 & E6 & E7).
  apply leaf_panic in H; auto; [|congruence].
  destruct (shows_seen _ _ _ _ _ _ _ _ HP HS) as (_ & _ & _ & [HSS|HSS]); [|destruct HSS; congruence].
  destruct HSS as (_ & q & EQ & _). rewrite EQ in H. destruct (m_raw m) eqn:EMR; [|congruence].
  revert H. eapply json_iface_result; eauto. intros J1 J2. right.
  assert (HI : In query ["$KEY"; "$VALUE"]).
  { eapply key_query_path; eauto. unfold key_query in J2. rewrite E6 in J2. tauto. }
  destruct HSA as [q' d A1 A2 A3 A4|k' x A1 A2 A3 A4|k' x A1 A2 A3 A4|d A1 A2 A3|d A1 A2 A3]; eauto; try congruence.
Qed.

(** on a raw document a number compared with a text crashes, and nothing else does *)
Theorem raw_crash_iff p att method value v ret c k m s : NumberSpec L ->
  method_is method k -> prepares L p att method value ret c -> replaced p method value v -> plain_value v ->
  r_paths ret = None -> shows L att m s -> m_raw m = None ->
  (may_panic (NCond c) m <-> exists t, s = Present t /\ In k [KEq; KNeq; KNe] /\ not_number L v /\ exists y, quantity L t y).
Proof.
  intros HN HM HP HR HV HRET HS HRAW.
  pose proof (shows_ready _ _ _ _ _ _ _ _ _ _ HP HR HV HM HS) as R.
  pose proof HS as (rel & query & HPO & HSA).
  destruct (prepared_path_condition _ _ _ _ _ _ _ _ HP HPO) as (E1 & E2 & E3 & E4 & E5 & E6 & E7).
  destruct (shows_seen _ _ _ _ _ _ _ _ HP HS) as (_ & _ & _ & [HSS|HSS]); [destruct HSS; congruence|].
  assert (ER : r_paths (c_ret c) = None) by congruence.
  pose proof (fun ord t => raw_crash L ord k v c m t s HN R ER HSS) as HC. split.
  - intros (ord & t & s' & HF & H). apply (HC ord t). simpl in H. rewrite H. auto.
  - intros (t' & E & HK). exists (fun _ ks => ks), 0%nat.
    destruct (eval L (fun _ ks => ks) (NCond c) (mkEst m 0)) as [r s'] eqn:EE. exists s'.
    split; [intros n ks; apply Permutation_refl|].
    assert (HX : fst (test_condition L (fun _ ks => ks) c (mkEst m 0)) = None) by (apply HC; eauto).
    simpl in EE. rewrite EE in HX. simpl in HX. congruence.
Qed.

End WithLib.
