(** The translation into Mongo queries mirrors the tree. *)
From Coq Require Import List String Ascii Bool Arith ZArith Lia.
From Verif Require Import Base GoStr GoStr_facts GoFloat Types Json StrUtils Validate Prepare Parse Marshal Lifecycle Prepare_proofs Mongo Spec_Tree Tree_proofs Spec_Leaf Number_proofs Validate_proofs Match_proofs Leaf_proofs Leaf_laws
  Spec_Quotes Spec_Names MongoNames_proofs Spec_Mongo.
Import ListNotations.
Open Scope string_scope.
Local Arguments String.prefix : simpl never.

(** ** Texts *)
Lemma not_occurs w s : ~ occurs w s <-> absent w s.
Proof. split; [intros H a b E; apply H; exists a, b; auto|intros H (a & b & E); eapply H; eauto]. Qed.
Lemma occurs_part w x s : occurs (w ++ x) s -> occurs w s.
Proof. intros (a & b & ->). exists a, (x ++ b). rewrite append_assoc. auto. Qed.
Lemma replace_first_absent s w new : ~ occurs w s -> replace_first s w new = s.
Proof.
  induction s as [|c s IH]; intro H; cbn [replace_first].
  - destruct (String.prefix w "") eqn:E; auto. apply prefix_iff in E. destruct E as [r E]. destruct H. exists "", r. auto.
  - destruct (String.prefix w (String c s)) eqn:E.
    + apply prefix_iff in E. destruct E as [r E]. destruct H. exists "", r. auto.
    + f_equal. apply IH. intro HO. apply H. apply occurs_cons. auto.
Qed.
Lemma contains_occurs s w : contains s w = true <-> occurs w s.
Proof. apply contains_iff. Qed.

(** ** Marks *)
Lemma drop_mark m s : replace_all ("[" ++ String m ("]" ++ s)) ("[" ++ String m "]") "" = replace_all s ("[" ++ String m "]") "".
Proof.
  unfold replace_all. cbn [append replace_all_from]. replace (String.prefix _ _) with true; [reflexivity|].
  symmetry. apply prefix_iff. exists s. auto.
Qed.
Lemma keep_char c s w new : String.prefix w (String c s) = false -> replace_all (String c s) w new = String c (replace_all s w new).
Proof. intro H. unfold replace_all. cbn [replace_all_from]. rewrite H. auto. Qed.
Lemma prefix_head_false a w c s : a <> c -> String.prefix (String a w) (String c s) = false.
Proof. intro H. destruct (String.prefix _ _) eqn:E; auto. apply prefix_iff in E. destruct E as [r E]. injection E; intros; congruence. Qed.
Lemma prefix_mark_false m s w : (forall r, s <> String m r) -> String.prefix (String "[" (String m w)) (String "[" s) = false.
Proof. intro H. destruct (String.prefix _ _) eqn:E; auto. apply prefix_iff in E. destruct E as [r E]. injection E; intros E2. destruct (H _ E2). Qed.
Lemma marks_removed s f : without_marks s f -> replace_all (replace_all s "[:]" "") "[*]" "" = f.
Proof.
  induction 1 as [|s t _ IH|s t _ IH|c s t HC HW IH]; auto.
  - change "[:]" with ("[" ++ String ":" "]") in *. change (("[" ++ String ":" "]") ++ s) with ("[" ++ String ":" ("]" ++ s)). rewrite drop_mark. auto.
  - change ("[*]" ++ s) with (String "[" (String "*" (String "]" s))).
    rewrite (keep_char "[" _ "[:]" "") by (apply prefix_mark_false; intros r E; discriminate E).
    rewrite (keep_char "*" _ "[:]" "") by (apply prefix_head_false; discriminate). rewrite (keep_char "]" _ "[:]" "") by (apply prefix_head_false; discriminate).
    change "[*]" with ("[" ++ String "*" "]") in *.
    change (String "[" (String "*" (String "]" (replace_all s "[:]" "")))) with ("[" ++ String "*" ("]" ++ replace_all s "[:]" "")). rewrite drop_mark. auto.
  - assert (E1 : String.prefix "[:]" (String c s) = false).
    { destruct (Ascii.eqb_spec c "[") as [->|N]; [apply prefix_mark_false|apply prefix_head_false; congruence].
      intros r ->. apply (HC eq_refl _ _ eq_refl). simpl. auto. }
    rewrite keep_char by auto.
    assert (E2 : String.prefix "[*]" (String c (replace_all s "[:]" "")) = false).
    { destruct (Ascii.eqb_spec c "[") as [->|N]; [apply prefix_mark_false|apply prefix_head_false; congruence].
      destruct s as [|x r]; [discriminate|]. pose proof (HC eq_refl _ _ eq_refl) as HX. simpl in HX.
      rewrite keep_char by (apply prefix_head_false; intro E; subst; tauto). intros r' E. injection E as -> _. tauto. }
    rewrite keep_char by auto. f_equal. auto.
Qed.
Lemma parent_name_fun base orig f : parent_name base orig f -> parent_field base orig = f.
Proof.
  intros [p f' HO HW|p f' HO HW]; unfold parent_field.
  - rewrite replace_first_app, append_assoc. rewrite replace_first_absent; [apply marks_removed; auto|].
    intro H. apply HO. change "jsonpath:$RELATIVE." with ("jsonpath:$" ++ "RELATIVE.") in H. eapply occurs_part; eauto.
  - rewrite (replace_first_absent ("jsonpath:$RELATIVE." ++ p) "jsonpath:$.").
    + rewrite replace_first_app. apply marks_removed; auto.
    + cbn [append]. repeat (rewrite occurs_cons; intros [[b E]|H]; [discriminate E|revert H]). intro H. apply HO.
      change "jsonpath:$." with ("jsonpath:$" ++ ".") in H. eapply occurs_part; eauto.
Qed.
Lemma inner_depth_iff orig d d' : inner_depth orig d d' <-> d' = S (array_depth orig d).
Proof.
  assert (E : (has_suffix orig "[:]" || has_suffix orig "[*]")%bool = true <-> marked orig).
  { rewrite orb_true_iff, !has_suffix_iff. unfold marked. split; [intros [[p H]|[p H]]; eauto|intros [p [H|H]]; eauto]. }
  unfold inner_depth, array_depth. destruct (_ || _)%bool.
  - assert (M : marked orig) by (apply E; auto). split; [intros [[_ ->]|[N _]]; [lia|tauto]|intros ->; left; split; auto; lia].
  - assert (M : ~ marked orig) by (intro H; apply E in H; discriminate). split; [intros [[N _]|[_ ->]]; [tauto|lia]|intros ->; right; split; auto; lia].
Qed.

(** ** Fields *)
Definition raw_field (base parent att : string) : string :=
  if has_prefix att "jsonpath:$RELATIVE" then replace_first att "jsonpath:$RELATIVE." ""
  else if has_prefix att "jsonpath:$VALUE" then "addedField." ++ parent ++ ".v" ++ replace_first att "jsonpath:$VALUE" ""
  else if has_prefix att "jsonpath:$KEY" then "addedField." ++ parent ++ ".k"
  else if has_prefix att "jsonpath:$." then replace_first att "jsonpath:$." (if nonempty base then base ++ "." else "")
  else "".
Lemma has_prefix_app w r : has_prefix (w ++ r) w = true.
Proof. apply has_prefix_iff. eauto. Qed.
Lemma not_prefix s w : ~ starts w s -> has_prefix s w = false.
Proof. intro H. destruct (has_prefix s w) eqn:E; auto. apply has_prefix_iff in E. destruct (H E). Qed.
Lemma cond_name_fun base parent att f : cond_name base parent att f -> raw_field base parent att = f.
Proof.
  intros [p HB|p HB|p|r HO|r|r|a N1 N2 N3 N4]; unfold raw_field.
  - rewrite HB. rewrite (has_prefix_app "jsonpath:$." p). change (replace_first ("jsonpath:$." ++ p) "jsonpath:$." "" = p). rewrite replace_first_app. auto.
  - replace (nonempty base) with true by (destruct base; [congruence|reflexivity]).
    rewrite (has_prefix_app "jsonpath:$." p). change (replace_first ("jsonpath:$." ++ p) "jsonpath:$." (base ++ ".") = base ++ "." ++ p). rewrite replace_first_app, append_assoc. auto.
  - change (has_prefix ("jsonpath:$RELATIVE." ++ p) "jsonpath:$RELATIVE") with (has_prefix ("jsonpath:$RELATIVE" ++ ("." ++ p)) "jsonpath:$RELATIVE").
    rewrite has_prefix_app, replace_first_app. auto.
  - rewrite has_prefix_app. apply replace_first_absent. auto.
  - change (has_prefix ("jsonpath:$VALUE" ++ r) "jsonpath:$RELATIVE") with false. cbn iota. rewrite has_prefix_app, replace_first_app. auto.
  - change (has_prefix ("jsonpath:$KEY" ++ r) "jsonpath:$RELATIVE") with false. change (has_prefix ("jsonpath:$KEY" ++ r) "jsonpath:$VALUE") with false.
    cbn iota. rewrite has_prefix_app. auto.
  - rewrite !not_prefix by auto. auto.
Qed.
Lemma cond_name_any_parent base parent att f parent' : cond_name base parent att f -> exists f', cond_name base parent' att f'.
Proof.
  intros [p HB|p HB|p|r HO|r|r|a N1 N2 N3 N4]; eexists;
    [apply cn_bare|apply cn_root|apply cn_relative|apply cn_element|apply cn_value|apply cn_key|apply cn_other]; auto.
Qed.

Section WithLib.
Variable L : Lib.
Notation node := (node L).
Notation cond := (cond L).

Definition entryb (att : string) : bool := (has_prefix att "jsonpath:$VALUE" || has_prefix att "jsonpath:$KEY")%bool.
Lemma entryb_iff (c : cond) : entryb (og_attr (c_orig c)) = true <-> entry_cond L c.
Proof. unfold entryb, entry_cond, starts. rewrite orb_true_iff, !has_prefix_iff. tauto. Qed.
Lemma mongo_field_spec base parent d att : mongo_field base parent d att =
  if (entryb att && (2 <=? d)%nat)%bool then Err
  else if (has_prefix att "jsonpath:$KEY" && contains att "jsonpath:$KEY.")%bool then Err
  else Ok (raw_field base parent att, if entryb att then [add_fields parent] else []).
Proof.
  unfold mongo_field, raw_field, entryb.
  destruct (has_prefix att "jsonpath:$RELATIVE") eqn:E1.
  { apply has_prefix_iff in E1. destruct E1 as [r ->]. reflexivity. }
  destruct (has_prefix att "jsonpath:$VALUE") eqn:E2.
  { apply has_prefix_iff in E2. destruct E2 as [r ->]. change (has_prefix ("jsonpath:$VALUE" ++ r) "jsonpath:$KEY") with false. cbn [orb andb].
    destruct (2 <=? d)%nat; auto. }
  destruct (has_prefix att "jsonpath:$KEY") eqn:E3; cbn [orb andb].
  { destruct (2 <=? d)%nat; [auto|]. destruct (contains _ _); auto. }
  destruct (has_prefix att "jsonpath:$."); auto.
Qed.

(** ** Methods *)
Lemma mongo_value_compared v : compared L v (mongo_value L v).
Proof. unfold mongo_value. destruct (parse_float L v) eqn:E; constructor; auto. Qed.
Lemma method_query_spec method k f v : method_is method k -> method <> "IS" ->
  match method_query L method f v with
  | Ok q => operation L f v k q /\ ~ In method ["IN"; "NIN"; "in"; "nin"]
  | Err => In method ["IN"; "NIN"; "in"; "nin"]
  | Panic => False
  end.
Proof.
  intros HM HI. unfold method_is in HM. simpl in HM.
  repeat (destruct HM as [HM|HM]; [injection HM as <- <-; try congruence;
    unfold method_query; cbn [to_upper smap String.eqb Ascii.eqb is_any];
    first [ split; [first [ apply op_exists | apply op_missing | apply op_regex | apply op_no_regex | apply op_compare; [simpl; tauto|apply mongo_value_compared] ] | simpl; intuition discriminate ]
          | simpl; tauto ]|]).
  destruct HM.
Qed.

(** ** The translation *)
Lemma rseq_cases {A} (l : list (res A)) :
  match rseq l with
  | Ok xs => l = map Ok xs
  | Err => exists a b xs, l = (map Ok xs ++ a :: b)%list /\ a = Err
  | Panic => In Panic l
  end.
Proof.
  induction l as [|r l IH]; simpl; auto. destruct r as [x| |]; simpl.
  - destruct (rseq l) as [xs| |]; simpl.
    + rewrite IH. auto.
    + destruct IH as (a & b & xs & -> & E). exists a, b, (x :: xs). auto.
    + auto.
  - exists Err, l, []. auto.
  - auto.
Qed.

Lemma reads_entries_steps base n : forall p l, steps L base p n l -> (l <> [] <-> reads_entries L n).
Proof.
  induction n as [ns IH|ns IH|n IH|q a n IH| | |c|] using node_ind'; intros p l HS.
  - inversion HS as [? ? ls HF| | | | | |]; subst. split.
    + intro HN. apply re_and. clear HS. induction HF as [|n l ns ls H1 HF IHF]; [simpl in HN; congruence|]. inversion IH; subst.
      destruct l as [|x l]; [right; apply IHF; auto|]. left. eapply H2; eauto. discriminate.
    + intro H. inversion H as [|? HE| | |]; subst. clear HS H. induction HF as [|n l ns ls H1 HF IHF]; [inversion HE|]. inversion IH; subst.
      inversion HE; subst; simpl.
      * apply (H2 _ _ H1) in H0. destruct l; [congruence|discriminate].
      * specialize (IHF H3 H0). destruct l; auto. discriminate.
  - inversion HS as [|? ? ls HF| | | | |]; subst. split.
    + intro HN. apply re_or. clear HS. induction HF as [|n l ns ls H1 HF IHF]; [simpl in HN; congruence|]. inversion IH; subst.
      destruct l as [|x l]; [right; apply IHF; auto|]. left. eapply H2; eauto. discriminate.
    + intro H. inversion H as [| |? HE| |]; subst. clear HS H. induction HF as [|n l ns ls H1 HF IHF]; [inversion HE|]. inversion IH; subst.
      inversion HE; subst; simpl.
      * apply (H2 _ _ H1) in H0. destruct l; [congruence|discriminate].
      * specialize (IHF H3 H0). destruct l; auto. discriminate.
  - inversion HS as [| |? ? ? H2| | | |]; subst. rewrite (IH _ _ H2). split; [constructor; auto|intro H; inversion H; auto].
  - inversion HS as [| | |? ? ? f ? HP H1|? ? ? HN| |]; subst.
    + rewrite (IH _ _ H1). split; [constructor; auto|intro H; inversion H; auto].
    + split; [congruence|]. intro H. inversion H; subst. contradiction.
  - inversion HS.
  - inversion HS.
  - inversion HS; subst.
    + split; [intros _; constructor; auto|discriminate].
    + split; [congruence|]. intro H'. inversion H'; subst. contradiction.
  - inversion HS.
Qed.

Definition correct base p d (n : node) : Prop :=
  match to_mongo L base p d n with
  | Ok (q, ps) => mirrors L base p n q /\ steps L base p n ps /\ ~ refused L base p d n
  | Err => refused L base p d n
  | Panic => False
  end.

Lemma children base d (ns : list node) : Forall (fun n => correct base "" d n) ns ->
  match rseq (map (to_mongo L base "" d) ns) with
  | Ok qs => Forall2 (mirrors L base "") ns (map fst qs) /\ Forall2 (steps L base "") ns (map snd qs) /\ ~ Exists (refused L base "" d) ns
  | Err => Exists (refused L base "" d) ns
  | Panic => False
  end.
Proof.
  induction 1 as [|n ns H HF IH]; simpl.
  - split; [constructor|split; [constructor|]]. intro H. inversion H.
  - unfold correct in H. destruct (to_mongo L base "" d n) as [[q ps]| |]; simpl; auto.
    destruct (rseq _) as [qs| |]; simpl; auto. destruct H as (A & B & C), IH as (A' & B' & C').
    split; [constructor; auto|split; [constructor; auto|]]. intro H. inversion H; subst; auto.
Qed.

Theorem translation_correct base n : regular L base n -> forall p d, correct base p d n.
Proof.
  induction n as [ns IH|ns IH|n IH|q a n IH| | |c|] using node_ind'; intros HR p d; unfold correct; cbn [to_mongo].
  - inversion HR as [? HF| | | | | |]; subst.
    assert (HC : Forall (fun n => correct base "" d n) ns) by (rewrite Forall_forall in *; intros; apply IH; auto).
    apply children in HC. destruct (rseq _) as [qs| |]; simpl; auto.
    + destruct HC as (A & B & C). split; [constructor; auto|split; [constructor; auto|]]. intro H. inversion H; subst; auto.
    + constructor. auto.
  - inversion HR as [|? HF| | | | |]; subst.
    assert (HC : Forall (fun n => correct base "" d n) ns) by (rewrite Forall_forall in *; intros; apply IH; auto).
    apply children in HC. destruct (rseq _) as [qs| |]; simpl; auto.
    + destruct HC as (A & B & C). split; [constructor; auto|split; [constructor; auto|]]. intro H. inversion H; subst; auto.
    + constructor. auto.
  - inversion HR as [| |? HN| | | |]; subst. specialize (IH HN "" d). unfold correct in IH. destruct (to_mongo L base "" d n) as [[q ps]| |]; simpl; auto.
    + destruct IH as (A & B & C). split; [constructor; auto|split; [constructor; auto|]]. intro H. inversion H; subst; auto.
    + constructor. auto.
  - inversion HR as [| | |? ? ? HP HN| | |]; subst.
    destruct (has_prefix (a_orig a) "jsonpath:$..") eqn:ED.
    + apply has_prefix_iff in ED. destruct q; apply rf_deep_scan; auto.
    + assert (ND : ~ starts "jsonpath:$.." (a_orig a)) by (intro H; apply has_prefix_iff in H; congruence).
      destruct HP as [HP|[f HP]]; [contradiction|]. rewrite (parent_name_fun _ _ _ HP).
      pose proof (proj2 (inner_depth_iff (a_orig a) d _) eq_refl) as HD. remember (S (array_depth (a_orig a) d)) as d' eqn:Ed'.
      destruct q.
      * specialize (IH HN f d'). unfold correct in IH. destruct (to_mongo L base f d' n) as [[q ps]| |]; simpl; auto; [|eapply rf_any; eauto].
        destruct IH as (A & B & C). pose proof (reads_entries_steps _ _ _ _ B) as HE.
        assert (NR : ~ refused L base p d (NQuant QAny a n)).
        { intro H. inversion H; subst; auto. 
          match goal with H1 : parent_name _ _ ?x, H2 : inner_depth _ _ ?y |- _ => 
            rewrite <- (parent_name_fun _ _ _ HP), (parent_name_fun _ _ _ H1) in C; apply inner_depth_iff in H2; subst y; auto end. }
        destruct ps as [|x ps].
        -- split; [eapply mi_any; eauto; intro H; apply HE in H; auto|]. split; auto. eapply st_any; eauto.
        -- split; [eapply mi_any_entries; eauto; apply HE; discriminate|]. split; auto. eapply st_any; eauto.
      * specialize (IH HN "" d'). unfold correct in IH. destruct (to_mongo L base "" d' n) as [[q ps]| |]; simpl; auto; [|eapply rf_all; eauto].
        destruct IH as (A & B & C). pose proof (reads_entries_steps _ _ _ _ B) as HE.
        destruct ps as [|x ps].
        -- assert (NE : ~ reads_entries L n) by (intro H; apply HE in H; auto). split; [eapply mi_all; eauto|]. split; [constructor; auto|].
           intro H. inversion H; subst; auto. match goal with H2 : inner_depth _ _ ?y |- _ => apply inner_depth_iff in H2; subst y; auto end.
        -- apply rf_all_entries. apply HE. discriminate.
  - constructor.
  - constructor.
  - inversion HR as [| | | | | |? k HN HM HI]; subst. unfold mongo_cond.
    destruct HN as (p' & f' & HN). destruct (cond_name_any_parent _ _ _ _ p HN) as [f HF]. clear p' f' HN.
    destruct (String.eqb_spec (c_attr c) "jsonpath") as [EA|NA]; cbn [negb]; [|constructor; auto].
    rewrite mongo_field_spec. rewrite (cond_name_fun _ _ _ _ HF).
    destruct (entryb (og_attr (c_orig c)) && (2 <=? d)%nat)%bool eqn:E1.
    { apply andb_true_iff in E1. destruct E1 as [E1 E2]. apply entryb_iff in E1. apply Nat.leb_le in E2. cbn [rbind]. apply rf_array; auto. }
    destruct (has_prefix _ _ && contains _ _)%bool eqn:E2.
    { apply andb_true_iff in E2. destruct E2 as [E2 E3]. apply has_prefix_iff in E2. apply contains_occurs in E3. cbn [rbind]. apply rf_key; auto. }
    cbn [rbind fst snd]. destruct (remove_quotes f) as [g| |] eqn:EQ; cbn [rbind].
    + pose proof (method_query_spec _ _ g (c_value c) HM HI) as HQ. destruct (method_query _ _ _ _) as [q| |]; cbn [rbind]; auto; [|apply rf_list; auto].
      destruct HQ as [HQ HL]. split; [|split].
      * destruct (remove_quotes_text _ _ EQ) as (t & T1 & T2). eapply mi_cond; eauto. exists t. split; auto. split; auto. eapply single_dots; eauto.
      * destruct (entryb (og_attr (c_orig c))) eqn:EB; [apply st_entry; apply entryb_iff; auto|apply st_cond; intro H; apply entryb_iff in H; congruence].
      * intro H. inversion H; subst; auto.
        -- apply andb_false_iff in E1. destruct E1 as [E1|E1]; [|apply Nat.leb_gt in E1; lia].
           match goal with H1 : entry_cond _ _ |- _ => apply entryb_iff in H1; congruence end.
        -- apply andb_false_iff in E2. rewrite (proj2 (has_prefix_iff _ _)), (proj2 (contains_occurs _ _)) in E2 by auto. destruct E2; discriminate.
        -- match goal with H1 : cond_name _ _ _ ?g |- _ => rewrite <- (cond_name_fun _ _ _ _ H1), (cond_name_fun _ _ _ _ HF) in * end.
           apply H4. apply remove_quotes_ok. eauto.
    + apply rf_name with f; auto. intro H. apply remove_quotes_ok in H. destruct H as [g H]. congruence.
    + eapply remove_quotes_no_panic; eauto.
  - inversion HR.
Qed.

(** ** Prepared trees *)
Lemma rmap_ok {A B} (f : A -> B) (r : res A) b : rmap f r = Ok b -> exists a, r = Ok a /\ b = f a.
Proof. destruct r; simpl; intro H; inversion H; eauto. Qed.
Lemma labels_keep c c' : handle_labels L c = Ok c' -> c_method c' = c_method c /\ c_orig c' = c_orig c /\
  (c_attr c' = c_attr c \/ (has_prefix (c_attr c) "jsonpath:" = false /\ In (c_attr c') ["senderLabel"; "receiverLabel"])).
Proof.
  unfold handle_labels. intro H.
  apply rbind_ok in H. destruct H as ([a1 l1] & H1 & H). apply rbind_ok in H. destruct H as ([a2 l2] & H2 & H).
  apply rbind_ok in H. destruct H as ([v3 l3] & H3 & H). injection H as <-. cbn [c_method c_orig c_attr].
  split; auto. split; auto. destruct (has_prefix (c_attr c) "jsonpath:") eqn:EP.
  - destruct (jsonpath_clash _ EP) as (C1 & C2 & _ & _). rewrite C1 in H1. injection H1 as <- <-. rewrite C2 in H2. injection H2 as <- <-. auto.
  - assert (E1 : a1 = c_attr c \/ a1 = "senderLabel").
    { destruct (has_prefix (c_attr c) "senderLabel["); [apply rbind_ok in H1; destruct H1 as (k & _ & H1)|]; injection H1; auto. }
    destruct (has_prefix a1 "receiverLabel["); [apply rbind_ok in H2; destruct H2 as (k & _ & H2)|]; injection H2; intros; subst; simpl; intuition auto.
Qed.
Lemma objects_keep c c' : handle_objects L c = Ok c' -> c_method c' = c_method c /\ c_orig c' = c_orig c /\
  (c_attr c' = c_attr c \/ (has_prefix (c_attr c) "jsonpath:" = false /\ In (c_attr c') ["$sender"; "$receiver"])).
Proof.
  unfold handle_objects. intro H.
  apply rbind_ok in H. destruct H as ([a1 l1] & H1 & H). apply rbind_ok in H. destruct H as ([a2 l2] & H2 & H).
  apply rbind_ok in H. destruct H as ([v3 l3] & H3 & H). injection H as <-. cbn [c_method c_orig c_attr].
  split; auto. split; auto. destruct (has_prefix (c_attr c) "jsonpath:") eqn:EP.
  - destruct (jsonpath_clash _ EP) as (_ & _ & C1 & C2). rewrite C1 in H1. injection H1 as <- <-. rewrite C2 in H2. injection H2 as <- <-. auto.
  - assert (E1 : a1 = c_attr c \/ a1 = "$sender").
    { destruct (has_prefix (c_attr c) "$sender."); [apply rbind_ok in H1; destruct H1 as (k & _ & H1)|]; injection H1; auto. }
    destruct (has_prefix a1 "$receiver."); [apply rbind_ok in H2; destruct H2 as (k & _ & H2)|]; injection H2; intros; subst; simpl; intuition auto.
Qed.
Lemma supported_kind method : In method supported_methods -> exists k, method_is (final_method method) k /\ final_method method <> "IS".
Proof.
  unfold supported_methods. simpl. intro H.
  repeat (destruct H as [<-|H]; [eexists; split; [unfold method_is; simpl; tauto|discriminate]|]). destruct H.
Qed.
Lemma prepared_cond p base c c' : prepare_condition L p c = Ok c' ->
  regular L base (NCond c') /\ (c_attr c' = "jsonpath" <-> starts "jsonpath:" (og_attr (c_orig c'))).
Proof.
  unfold prepare_condition. intro H. apply rbind_ok in H. destruct H as (cr & HR & H).
  apply rbind_ok in H. destruct H as (c1 & HV & H). apply rbind_ok in H. destruct H as (c4 & HC & H).
  apply validate_ok in HV. destruct HV as (E1 & HA & HM & _).
  apply convert_ok in HC. destruct HC as (c2 & c3 & H2 & H3 & H4 & _).
  apply labels_keep in H2. apply objects_keep in H3. cbn [converted c_method c_orig c_attr] in H2.
  assert (EM : c_method c' = c_method c4 /\ c_orig c' = c_orig c4 /\ c_attr c' = c_attr c4).
  { destruct (j_is (c_jp c4)); [apply rbind_ok in H; destruct H as (q & _ & H)|]; injection H as <-; auto. }
  destruct EM as (EM & EO & EA). clear H.
  assert (HS : In (c_method c1) supported_methods).
  { subst c1. cbn [c_method] in *. unfold validate_method in HM. destruct (contains_string supported_methods (c_method cr)) eqn:EC; [|discriminate]. apply is_any_iff. exact EC. }
  assert (HAT : validate_attribute (c_attr c1) (c_method c1) (c_value c1) = Ok tt) by (subst c1; auto).
  clear E1 HA HM HR.
  assert (H5 : c_method c4 = c_method c3 /\ c_orig c4 = c_orig c3 /\
    (has_prefix (c_attr c3) "jsonpath:" = true /\ c_attr c4 = "jsonpath" \/ has_prefix (c_attr c3) "jsonpath:" = false /\ c_attr c4 = c_attr c3)).
  { destruct (has_prefix (c_attr c3) "jsonpath:") eqn:EP.
    - apply handle_jsonpath_ok in H4; auto. destruct H4 as (rel & net & -> & _). cbn. auto.
    - rewrite handle_jsonpath_none in H4 by auto. injection H4 as <-. auto. }
  destruct H2 as (M2 & O2 & A2), H3 as (M3 & O3 & A3), H5 as (M5 & O5 & A5).
  assert (EO' : og_attr (c_orig c') = c_attr c1) by (rewrite EO, O5, O3, O2; auto).
  assert (EM' : c_method c' = final_method (c_method c1)) by congruence.
  destruct (supported_kind _ HS) as (k & HK & HI).
  assert (HATT : validate_attribute (c_attr c1) (c_method c1) (c_value c1) = Ok tt) by exact HAT.
  unfold validate_attribute in HAT. destruct (negb _) eqn:EF in HAT; [discriminate|]. apply negb_false_iff in EF.
  destruct (_ && _) in HAT; [discriminate|]. apply rbind_ok in HAT. destruct HAT as (u & HJ & _).
  assert (HN : exists parent f, cond_name base parent (c_attr c1) f).
  { exists "". remember (c_attr c1) as a. clear - HJ EF.
    destruct (has_prefix a "jsonpath:$RELATIVE") eqn:E1.
    { assert (EP : has_prefix a "jsonpath:" = true) by (apply has_prefix_iff in E1; destruct E1 as [r ->]; apply (has_prefix_app "jsonpath:" ("$RELATIVE" ++ r))).
      rewrite EP in HJ. unfold validate_jsonpath in HJ. destruct (_ && _) in HJ; [discriminate|]. destruct (_ && negb (String.eqb _ _)) eqn:E2 in HJ; [discriminate|].
      apply has_prefix_iff in E1. destruct E1 as [r ->]. destruct (String.eqb_spec ("jsonpath:$RELATIVE" ++ r) "jsonpath:$RELATIVE") as [E3|N3].
      - rewrite E3. eexists. apply (cn_element base "" ""). intro HO. apply contains_occurs in HO. vm_compute in HO. discriminate.
      - cbn [negb] in E2. rewrite andb_true_r in E2. 
        destruct (has_prefix ("jsonpath:$RELATIVE" ++ r) "jsonpath:$RELATIVE.") eqn:E4.
        + apply has_prefix_iff in E4. destruct E4 as [x E4]. rewrite E4. eexists. apply cn_relative.
        + exfalso. unfold slice_has_prefix in E2. cbn [existsb] in E2. rewrite E4 in E2.
          change (has_prefix ("jsonpath:$RELATIVE" ++ r) "jsonpath:$KEY") with false in E2.
          change (has_prefix ("jsonpath:$RELATIVE" ++ r) "jsonpath:$VALUE") with false in E2.
          change (has_prefix ("jsonpath:$RELATIVE" ++ r) "jsonpath:$.") with false in E2.
          change (has_prefix ("jsonpath:$RELATIVE" ++ r) "jsonpath:$") with (has_prefix ("jsonpath:$" ++ ("RELATIVE" ++ r)) "jsonpath:$") in E2.
          rewrite has_prefix_app in E2. discriminate. }
    destruct (has_prefix a "jsonpath:$VALUE") eqn:E2; [apply has_prefix_iff in E2; destruct E2 as [r ->]; eexists; apply cn_value|].
    destruct (has_prefix a "jsonpath:$KEY") eqn:E3; [apply has_prefix_iff in E3; destruct E3 as [r ->]; eexists; apply cn_key|].
    destruct (has_prefix a "jsonpath:$.") eqn:E4.
    { apply has_prefix_iff in E4; destruct E4 as [r ->]. destruct (string_dec base ""); eexists; [apply cn_bare|apply cn_root]; auto. }
    eexists. apply cn_other; intro HX; apply has_prefix_iff in HX; congruence. }
  split.
  - apply rg_cond with k; [rewrite EO'; auto|rewrite EM'; auto|rewrite EM'; auto].
  - rewrite EA, EO'. destruct (has_prefix (c_attr c1) "jsonpath:") eqn:EP.
    + assert (E2 : c_attr c2 = c_attr c1) by (destruct A2 as [A2|[A2 _]]; [exact A2|cbn [converted c_attr] in A2; congruence]).
      assert (E3 : c_attr c3 = c_attr c1) by (destruct A3 as [A3|[A3 _]]; congruence).
      assert (E4 : c_attr c4 = "jsonpath") by (destruct A5 as [[_ A5]|[A5 _]]; congruence).
      rewrite E4. split; auto. intros _. apply has_prefix_iff in EP. exact EP.
    + split; [|intro HX; apply has_prefix_iff in HX; congruence]. intro E4. exfalso.
      assert (NJ : c_attr c1 <> "jsonpath") by (intro E; rewrite E in EF; vm_compute in EF; discriminate).
      cbn [converted c_attr] in A2.
      assert (E2 : has_prefix (c_attr c2) "jsonpath:" = false /\ c_attr c2 <> "jsonpath").
      { destruct A2 as [A2|[_ A2]]; [rewrite A2; auto|]. simpl in A2. destruct A2 as [<-|[<-|[]]]; split; auto; discriminate. }
      assert (E3 : has_prefix (c_attr c3) "jsonpath:" = false /\ c_attr c3 <> "jsonpath").
      { destruct A3 as [A3|[_ A3]]; [rewrite A3; auto|]. simpl in A3. destruct A3 as [<-|[<-|[]]]; split; auto; discriminate. }
      destruct E3 as [E3 E3']. destruct A5 as [[A5 _]|[_ A5]]; congruence.
Qed.

Theorem prepared_regular p base n : forall n', prepare_node L p n = Ok n' -> parents_named L base n' -> regular L base n'.
Proof.
  induction n as [ns IH|ns IH|n IH|q a n IH| | |c|] using node_ind'; intros n' H HP; cbn [prepare_node] in H.
  - apply rmap_ok in H. destruct H as (ns' & H & ->). apply rseq_map_ok in H. inversion HP as [? HF| | | | | |]; subst. constructor. clear HP.
    induction H as [|x y ns ns' HXY HR IHR]; constructor; inversion IH; inversion HF; subst; auto.
  - apply rmap_ok in H. destruct H as (ns' & H & ->). apply rseq_map_ok in H. inversion HP as [|? HF| | | | |]; subst. constructor. clear HP.
    induction H as [|x y ns ns' HXY HR IHR]; constructor; inversion IH; inversion HF; subst; auto.
  - apply rmap_ok in H. destruct H as (n0 & H & ->). inversion HP; subst. constructor; auto.
  - apply rbind_ok in H. destruct H as (m' & H1 & H). apply rbind_ok in H. destruct H as (a' & H2 & H). injection H as <-.
    inversion HP; subst. constructor; auto.
  - injection H as <-. constructor.
  - injection H as <-. constructor.
  - apply rmap_ok in H. destruct H as (c' & H & ->). apply (prepared_cond _ base) in H. tauto.
  - discriminate.
Qed.
End WithLib.

(** ** Rules *)
Lemma rule_query : forall L ord g base s t r n, rs_ready s = true -> rs_prepared s = Some r -> ru_tree r = Some n -> regular L base n ->
  exists o, rule_to_mongo L ord g base s t = (o, s, t) /\
  match o with
  | Ok (Simple q) => ~ reads_entries L n /\ mirrors L base "" n q
  | Ok (Aggregate l) => reads_entries L n /\ exists ps q, l = (ps ++ [BDoc [("$match", q)]])%list /\ ps <> [] /\ steps L base "" n ps /\ mirrors L base "" n q
  | Err => refused L base "" 0 n
  | Panic => False
  end.
Proof.
  intros L ord g base s t r n HR HP HT HG. unfold rule_to_mongo. rewrite HR. cbv beta iota. rewrite HP. eexists. split; [reflexivity|].
  unfold prepared_query. rewrite HT. pose proof (translation_correct L base n HG "" 0) as HC. unfold correct in HC.
  destruct (to_mongo L base "" 0 n) as [[q ps]| |]; cbn [rbind fst snd]; auto. destruct HC as (HM & HS & _).
  pose proof (reads_entries_steps L _ _ _ _ HS) as HE. destruct ps as [|x ps].
  - split; auto. intro H. apply HE in H. auto.
  - split; [apply HE; discriminate|]. exists (x :: ps), q. split; auto. split; [discriminate|]. auto.
Qed.
Lemma no_conditions_query : forall L ord g base s t r, rs_ready s = true -> rs_prepared s = Some r -> ru_tree r = None ->
  rule_to_mongo L ord g base s t = (Ok (Simple (BDoc [])), s, t).
Proof. intros L ord g base s t r HR HP HT. unfold rule_to_mongo. rewrite HR. cbv beta iota. rewrite HP. unfold prepared_query. rewrite HT. auto. Qed.
Lemma first_use : forall L ord g base s t s' t', rs_ready s = false -> set_predefined L ord g s t = (Ok tt, s', t') ->
  rule_to_mongo L ord g base s t = rule_to_mongo L ord g base s' t'.
Proof.
  intros L ord g base s t s' t' HR HS. unfold rule_to_mongo. rewrite HR, HS. cbv beta iota.
  assert (HR' : rs_ready s' = true).
  { unfold set_predefined in HS. destruct (copy_rule L ord (rs_rule s) t) as [[c| |] u]; [|discriminate|discriminate].
    destruct (prepare_rule L g c); inversion HS. reflexivity. }
  rewrite HR'. reflexivity.
Qed.
Lemma unprepared_panics : forall L ord g base s t s' t', rs_ready s = false -> rs_prepared s = None ->
  set_predefined L ord g s t = (Err, s', t') -> fst (fst (rule_to_mongo L ord g base s t)) = Panic.
Proof.
  intros L ord g base s t s' t' HR HP HS. unfold rule_to_mongo. rewrite HR, HS. cbv beta iota.
  assert (HP' : rs_prepared s' = None).
  { unfold set_predefined in HS. destruct (copy_rule L ord (rs_rule s) t) as [[c| |] u]; [| |discriminate]; [|inversion HS; auto].
    destruct (prepare_rule L g c); inversion HS. cbn. auto. }
  rewrite HP'. reflexivity.
Qed.
