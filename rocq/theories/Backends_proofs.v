(** Trees and rules that see no difference between a parsed document and its bytes. *)
From Coq Require Import List String Ascii Bool Arith ZArith Lia Permutation.
From Verif Require Import Base GoStr GoStr_facts GoFloat Types Json StrUtils Validate Prepare Parse Eval Spec_Tree Tree_proofs Tree_laws Spec_Glob Glob_proofs
  Spec_Leaf Number_proofs Leaf_proofs Leaf_laws Spec_Json Json_proofs Print_proofs Spec_Split Split_proofs Spec_MongoMatch MongoMatch_proofs
  Spec_Raw Raw_pieces Raw_proofs Spec_Grammar Grammar_proofs Spec_Meaning Meaning_proofs Spec_Backends.
Import ListNotations.
Open Scope string_scope.

Section WithLib.
Variable L : Lib.

(** ** Plain texts *)
Lemma plain_chars s : plain_string s -> chars s s.
Proof. induction s as [|c s IH]; intro H; [constructor|]. destruct H as [(H1 & H2 & H3 & _) H]. apply cs_plain; auto. lia. Qed.

Section Gap.
Variable gap : string -> Prop.
Hypothesis HG : forall w, gap w -> spaces w.
Lemma plain_texts :
  (forall v s, plain L gap v s -> text L v s) /\
  (forall vs s, plain_elements L gap vs s -> elements L vs s) /\
  (forall kvs s, plain_members L gap kvs s -> members L kvs s).
Proof.
  apply (plain_all_mind L gap (fun v s _ => text L v s) (fun vs s _ => elements L vs s) (fun kvs s _ => members L kvs s)); intros; try (constructor; auto; fail).
  - apply tx_string. apply plain_chars. auto.
  - rewrite <- (object_id kvs) by auto. apply tx_object. auto.
  - apply mb_one; auto. apply plain_chars. auto.
  - apply mb_cons; auto. apply plain_chars. auto.
Qed.

Lemma plain_literal s : plain_string s -> literal s /\ braceless s.
Proof.
  intro H. split; [exact (chars_literal _ _ (plain_chars _ H))|]. eapply all_chars_impl; [|exact H]. intros c (_ & _ & _ & N). auto.
Qed.
Lemma quiet_before t r : all_chars (fun c => c <> dq) t -> braceless_strings r -> braceless_strings (t ++ r).
Proof. intros H HR. induction t as [|c t IH]; auto. destruct H as [H1 H2]. cbn [append]. apply bs_char; auto. Qed.
Lemma spaces_before w r : gap w -> braceless_strings r -> braceless_strings (w ++ r).
Proof. intros H. apply quiet_before. apply spaces_plain. auto. Qed.
Lemma string_before s r : plain_string s -> braceless_strings r -> braceless_strings ((dqs ++ s ++ dqs) ++ r).
Proof.
  intros H HR. destruct (plain_literal s H) as [H1 H2]. rewrite !append_assoc. unfold dqs. cbn [append]. apply bs_string; auto.
Qed.
Lemma char_before c r : c <> dq -> braceless_strings r -> braceless_strings (String c r).
Proof. apply bs_char. Qed.

Lemma plain_braceless :
  (forall v s, plain L gap v s -> forall r, braceless_strings r -> braceless_strings (s ++ r)) /\
  (forall vs s, plain_elements L gap vs s -> forall r, braceless_strings r -> braceless_strings (s ++ r)) /\
  (forall kvs s, plain_members L gap kvs s -> forall r, braceless_strings r -> braceless_strings (s ++ r)).
Proof.
  apply (plain_all_mind L gap (fun v s _ => forall r, braceless_strings r -> braceless_strings (s ++ r))
    (fun v s _ => forall r, braceless_strings r -> braceless_strings (s ++ r)) (fun v s _ => forall r, braceless_strings r -> braceless_strings (s ++ r))).
  - intros r HR. apply quiet_before; auto. repeat split; discriminate.
  - intros r HR. apply quiet_before; auto. repeat split; discriminate.
  - intros r HR. apply quiet_before; auto. repeat split; discriminate.
  - intros s HS r HR. apply string_before; auto.
  - intros f HN _ r HR. apply quiet_before; auto. eapply all_chars_impl; [|exact (number_plain _ HN)]. cbv beta. tauto.
  - intros w HW r HR. rewrite !append_assoc. cbn [append]. apply char_before; [discriminate|]. apply spaces_before; auto. apply char_before; [discriminate|auto].
  - intros vs s _ IH r HR. rewrite !append_assoc. cbn [append]. apply char_before; [discriminate|]. apply IH. apply char_before; [discriminate|auto].
  - intros w HW r HR. rewrite !append_assoc. cbn [append]. apply char_before; [discriminate|]. apply spaces_before; auto. apply char_before; [discriminate|auto].
  - intros kvs s _ IH _ r HR. rewrite !append_assoc. cbn [append]. apply char_before; [discriminate|]. apply IH. apply char_before; [discriminate|auto].
  - intros v s w1 w2 H1 H2 _ IH r HR. rewrite !append_assoc. auto using spaces_before.
  - intros v s w1 w2 vs s' H1 H2 _ IH _ IHE r HR. rewrite !append_assoc. apply spaces_before; auto. apply IH. apply spaces_before; auto. cbn [append]. apply char_before; [discriminate|auto].
  - intros k v s w1 w2 w3 w4 H1 H2 H3 H4 HK _ IH r HR.
    replace ((w1 ++ (dqs ++ k ++ dqs) ++ w2 ++ ":" ++ w3 ++ s ++ w4) ++ r) with (w1 ++ (dqs ++ k ++ dqs) ++ (w2 ++ ":" ++ w3 ++ s ++ w4 ++ r)) by (rewrite !append_assoc; auto).
    apply spaces_before; auto. apply string_before; auto. apply spaces_before; auto. cbn [append]. apply char_before; [discriminate|]. auto using spaces_before.
  - intros k v s w1 w2 w3 w4 kvs s' H1 H2 H3 H4 HK _ IH _ IHM r HR.
    replace ((w1 ++ (dqs ++ k ++ dqs) ++ w2 ++ ":" ++ w3 ++ s ++ w4 ++ "," ++ s') ++ r) with (w1 ++ (dqs ++ k ++ dqs) ++ (w2 ++ ":" ++ w3 ++ s ++ w4 ++ "," ++ s' ++ r)) by (rewrite !append_assoc; auto).
    apply spaces_before; auto. apply string_before; auto. apply spaces_before; auto. cbn [append]. apply char_before; [discriminate|]. apply spaces_before; auto. apply IH.
    apply spaces_before; auto. cbn [append]. apply char_before; [discriminate|auto].
Qed.
Lemma plain_strings v s : plain L gap v s -> braceless_strings s.
Proof. intro H. rewrite <- (append_nil_r s). apply (proj1 plain_braceless _ _ H). constructor. Qed.
Lemma plain_nonempty v s : plain L gap v s -> s <> "".
Proof.
  intros H E. destruct H; try discriminate E. rewrite E in H. destruct (number_start _ H) as (c & r & E2 & _). discriminate E2.
Qed.

(** the objects of an array *)
Lemma plain_objects vs s : plain_elements L gap vs s -> Forall (fun v => exists m, v = GMapS m) vs ->
  exists ts, Forall2 (plain L gap) vs ts /\ objects_in_elements L s ts.
Proof.
  induction 1 as [v s w1 w2 H1 H2 HT|v s w1 w2 vs s' H1 H2 HT HE IH]; intro HF; inversion HF as [|? ? [m ->] HF']; subst.
  - exists [s]. split; auto. apply oe_one; auto. eapply oi_object. apply (proj1 plain_texts). eauto.
  - destruct (IH HF') as (ts & H3 & HO). exists (s :: ts). split; auto.
    apply (oe_cons L s w1 w2 [s] s' ts); auto. eapply oi_object. apply (proj1 plain_texts). eauto.
Qed.
Lemma plain_split l t : plain L gap (GArr l) t -> Forall (fun v => exists m, v = GMapS m) l ->
  exists ts, split_objects t = Some ts /\ Forall2 (plain L gap) l ts.
Proof.
  intros HT HF. pose proof (plain_strings _ _ HT) as HB. pose proof (proj1 plain_texts _ _ HT) as HX.
  assert (S0 : forall os, objects_in L t os -> split_objects t = Some os).
  { intros os HO. pose proof (split_text L (GArr l) "" t "" os I I HX ltac:(discriminate) HO) as H. cbn [append] in H. rewrite append_nil_r in H. auto. }
  inversion HT as [| | | | |w HW|vs s HE| |]; subst.
  - exists []. split; auto. apply S0. apply oi_empty. auto.
  - destruct (plain_objects _ _ HE HF) as (ts & H1 & H2). exists ts. split; auto. apply S0. apply oi_array. auto.
Qed.
End Gap.

Lemma compact_out v s : compact L v s -> laid_out L v s.
Proof.
  revert v s.
  assert (H : (forall v s, plain L (fun w => w = "") v s -> plain L spaces v s) /\ (forall vs s, plain_elements L (fun w => w = "") vs s -> plain_elements L spaces vs s) /\
    (forall kvs s, plain_members L (fun w => w = "") kvs s -> plain_members L spaces kvs s)); [|apply H].
  apply (plain_all_mind L (fun w => w = "") (fun v s _ => plain L spaces v s) (fun vs s _ => plain_elements L spaces vs s) (fun kvs s _ => plain_members L spaces kvs s));
    intros; constructor; auto; subst; exact I.
Qed.
Lemma out_text v s : laid_out L v s -> text L v s.
Proof. apply plain_texts. auto. Qed.
Theorem out_parses v s : laid_out L v s -> json_parse L s = Some v.
Proof. intro H. apply document_parses. exists "", s, "". rewrite append_nil_r. repeat split. apply out_text. auto. Qed.

(** an array of objects without white space *)
Lemma compact_array l t : compact L (GArr l) t -> Forall (fun v => exists m, v = GMapS m) l ->
  (2 <= String.length t)%nat /\ t <> "" /\ t <> "[" /\ ~ starts "[[" t /\ ~ starts "{" t.
Proof.
  intros HT HF. inversion HT as [| | | | |w HW|vs s HE| |]; subst.
  - repeat split; try discriminate; auto; intros [r E]; discriminate E.
  - assert (X : exists r, s = String "{" r).
    { inversion HE as [v s0 w1 w2 E1 E2 HV|v s0 w1 w2 vs s' E1 E2 HV HE']; subst; inversion HF as [|? ? [m ->] HF']; subst; inversion HV; subst; cbn [append]; eauto. }
    destruct X as [r ->]. repeat split; try discriminate; try (intros [r' E]; discriminate E). cbn [append String.length]. lia.
Qed.

(** ** Numbers *)
Lemma number_all (Q : ascii -> Prop) s : (forall c, digit_char c -> Q c) -> Q "-"%char -> Q "."%char -> Q "e"%char -> Q "E"%char -> Q "+"%char ->
  number_text s -> all_chars Q s.
Proof.
  intros HD H1 H2 H3 H4 H5 (sg & i & f & e & HS & [[_ HI] _] & HF & HE & ->).
  assert (D : forall d, all_chars digit_char d -> all_chars Q d) by (intros d H; eapply all_chars_impl; [|exact H]; auto).
  apply all_chars_app. split; [destruct HS as [<-|[<-|[]]]; simpl; auto|]. apply all_chars_app. split; auto. apply all_chars_app. split.
  - destruct HF as [->|(d & [_ Hd] & ->)]; [exact I|]. apply all_chars_app. split; simpl; auto.
  - destruct HE as [->|(a & b & d & Ha & Hb & [_ Hd] & ->)]; [exact I|]. apply all_chars_app. split; [destruct Ha as [<-|[<-|[]]]; simpl; auto|].
    apply all_chars_app. split; auto. destruct Hb as [<-|[<-|[<-|[]]]]; simpl; auto.
Qed.
Lemma char_absent (c : ascii) s a b : all_chars (fun x => x <> c) s -> s <> a ++ String c b.
Proof. intros H ->. apply all_chars_app in H. destruct H as [_ [H _]]. congruence. Qed.
Lemma number_clean s : number_text s -> clean s /\ s <> "<nil>".
Proof.
  intro HN.
  assert (A : forall c, In c [dq; "["; "]"; "<"]%char -> all_chars (fun x => x <> c) s).
  { intros c HC. apply number_all; auto; try (destruct HC as [<-|[<-|[<-|[<-|[]]]]]; intro E; discriminate E).
    intros x HX E. subst c. unfold digit_char in HX. destruct HC as [<-|[<-|[<-|[<-|[]]]]]; vm_compute in HX; lia. }
  destruct (number_start _ HN) as (c0 & r0 & E0 & H0).
  pose proof (A dq ltac:(simpl; auto)) as AQ. pose proof (A "["%char ltac:(simpl; auto)) as AO. pose proof (A "]"%char ltac:(simpl; auto)) as AC.
  split.
  - repeat split.
    + rewrite E0. discriminate.
    + intros ->. destruct AO. congruence.
    + intros a b. apply (char_absent "["%char s a ("[" ++ b)). auto.
    + intros a b. apply (char_absent "]"%char s a ("]" ++ b)). auto.
    + intros a b. apply (char_absent "["%char s a (dqs ++ b)). auto.
    + intros a b. apply (char_absent dq s a ("]" ++ b)). auto.
    + intros [r E]. revert E. apply (char_absent dq s "" r). auto.
    + intros a. apply (char_absent dq s a ""). auto.
  - pose proof (A "<"%char ltac:(simpl; auto)) as AL. intros ->. destruct AL. congruence.
Qed.

(** ** What both kinds of messages show *)
Lemma found_status gap k v x s : plain L gap x s -> agreeable L k v (Some x) ->
  (satisfied L k v (value_status L x) <-> satisfied L k v (status_of s)) /\ (forall t, status_of s = Present t -> same_sort L k v t).
Proof.
  intros HP HA.
  assert (SAME : forall t, value_status L x = Present t -> status_of s = Present t -> same_sort L k v t ->
    (satisfied L k v (value_status L x) <-> satisfied L k v (status_of s)) /\ (forall t, status_of s = Present t -> same_sort L k v t)).
  { intros t E1 E2 HS. rewrite E1, E2. split; [tauto|]. intros t' E. injection E as <-. auto. }
  inversion HA as [|N H S| b S|f S| |u HC N H1 H2 S]; subst; inversion HP; subst.
  - change (value_status L GNil) with Missing. change (status_of "null") with (Present "null"). split.
    + cbn [satisfied]. tauto.
    + intros t E. injection E as <-. auto.
  - apply (SAME "true"); auto.
  - apply (SAME "false"); auto.
  - match goal with H : number_text _ |- _ => destruct (number_clean _ H) as [HC N] end.
    pose proof (clean_status _ HC) as E. apply (SAME (fmt_float L f)); auto.
    unfold value_status. cbn [text_of]. apply String.eqb_neq in N. rewrite N. auto.
  - change (status_of (dqs ++ "" ++ dqs)) with Missing. change (value_status L (GStr "")) with Missing. split; [tauto|discriminate].
  - apply (SAME u); auto; [apply text_status; auto|apply quoted_status; auto].
Qed.

Lemma written_unique inner ks rel query : ks <> [] -> Forall field_name ks -> path_of ("jsonpath:" ++ written_path inner ks) rel query ->
  rel = inner /\ query = "$." ++ dotted ks.
Proof.
  intros HN HF. remember ("jsonpath:" ++ written_path inner ks) as att eqn:EA. intro H. unfold written_path in EA.
  destruct H as [rest [r ->] HC|rest [r ->] HC|rest [r ->] HC| | |]; destruct inner; try discriminate EA; injection EA as EA; subst; auto.
Qed.
Lemma not_entry ks : ~ In ("$." ++ dotted ks) ["$KEY"; "$VALUE"].
Proof. intros [E|[E|[]]]; discriminate E. Qed.

Lemma shows_parsed (inner : bool) ks m d s : ks <> [] -> Forall field_name ks -> m_raw m <> None -> (if inner then m_raw_rel m else m_raw m) = Some d ->
  shows L ("jsonpath:" ++ written_path inner ks) m s ->
  exists q, jp_prepare L ("$." ++ dotted ks) = Some q /\ s = match asks L q d with None => Missing | Some v => value_status L v end.
Proof.
  intros HN HF HM HD (rel & query & HP & HS). destruct (written_unique _ _ _ _ HN HF HP) as [-> ->].
  inversion HS as [q d' H1 H2 H3 H4|k x H1 H2|k x H1 H2|d' H1|d' H1]; subst; try discriminate; try contradiction.
  rewrite HD in H4. injection H4 as <-. eauto.
Qed.
Lemma shows_raw (inner : bool) ks m t s : ks <> [] -> Forall field_name ks -> m_raw m = None -> (if inner then m_json_rel m else m_json m) = Some t ->
  shows L ("jsonpath:" ++ written_path inner ks) m s -> s = match fetch L t ("$." ++ dotted ks) with None => Missing | Some raw => status_of raw end.
Proof.
  intros HN HF HM HD (rel & query & HP & HS). destruct (written_unique _ _ _ _ HN HF HP) as [-> ->].
  inversion HS as [q d' H1 H2 H3 H4|k x H1 H2|k x H1 H2|d' H1 H2 H3 H4|d' H1 H2]; subst; try congruence.
  - rewrite HD in H3. injection H3 as <-. auto.
  - exfalso. revert H2. apply not_entry.
Qed.

(** *** The entries of objects *)
Lemma entry_path q rel query : In q ["$KEY"; "$VALUE"] -> path_of ("jsonpath:" ++ q) rel query -> rel = true /\ query = q.
Proof.
  intros HQ H. remember ("jsonpath:" ++ q) as att eqn:EA.
  destruct H as [rest [r ->] HC|rest [r ->] HC|rest [r ->] HC| | |]; destruct HQ as [<-|[<-|[]]]; try discriminate EA; auto.
Qed.
Lemma entry_parsed m key x : m_raw m <> None -> jp_prepare L "$.*" <> None -> m_raw_rel m = Some (GMapS [(key, x)]) ->
  (forall s, shows L "jsonpath:$KEY" m s <-> s = value_status L (GStr key)) /\ (forall s, shows L "jsonpath:$VALUE" m s <-> s = value_status L x).
Proof.
  intros HM HJ HR. split; intro s; split.
  - intros (rel & query & HP & HS). apply (entry_path "$KEY") in HP; [|left; reflexivity]. destruct HP as [-> ->].
    inversion HS as [q d H1 H2|k y H1 H2 H3 H4|k y H1 H2|d H1|d H1]; subst; try congruence.
    exfalso. apply H2. left. reflexivity.
  - intros ->. exists true, "$KEY". split; [constructor|]. eapply sa_key; eauto.
  - intros (rel & query & HP & HS). apply (entry_path "$VALUE") in HP; [|right; left; reflexivity]. destruct HP as [-> ->].
    inversion HS as [q d H1 H2|k y H1 H2|k y H1 H2 H3 H4|d H1|d H1]; subst; try congruence.
    exfalso. apply H2. right. left. reflexivity.
  - intros ->. exists true, "$VALUE". split; [constructor|]. eapply sa_value; eauto.
Qed.
Lemma entry_raw m key x t : m_raw m = None -> m_json_rel m = Some t -> t <> "" -> json_parse L t = Some (GMapS [(key, x)]) ->
  (forall s, shows L "jsonpath:$KEY" m s <-> s = status_of key) /\
  (forall u s, json_marshal L x = Some u -> (shows L "jsonpath:$VALUE" m s <-> s = status_of u)).
Proof.
  intros HM HR HT HJ.
  assert (X : forall q s, In q ["$KEY"; "$VALUE"] -> shows L ("jsonpath:" ++ q) m s <-> s = match entry_text L t q with None => Missing | Some raw => status_of raw end).
  { intros q s HQ. split.
    - intros (rel & query & HP & HS). apply (entry_path q) in HP; auto. destruct HP as [-> ->].
      inversion HS as [q' d H1 H2|k y H1 H2 H3 H4|k y H1 H2|d H1 H2|d H1 H2 H3]; subst; try contradiction.
      rewrite HR in H3. injection H3 as <-. reflexivity.
    - intros ->. exists true, q. split; [destruct HQ as [<-|[<-|[]]]; constructor|]. apply sa_raw_entry; auto. }
  split.
  - intro s. rewrite (X "$KEY" s (or_introl eq_refl)). unfold entry_text. rewrite HJ. reflexivity.
  - intros u s HU. rewrite (X "$VALUE" s (or_intror (or_introl eq_refl))). unfold entry_text. rewrite HJ. cbn [String.eqb Ascii.eqb Bool.eqb]. rewrite HU. reflexivity.
Qed.

(** printing by encoding/json *)
Lemma escape_same s : plain_string s -> no_html s -> json_escape s = s.
Proof.
  induction s as [|c s IH]; [auto|]. intros [((H1 & _) & H2 & H3 & _) HP] [H4 HN]. cbn [json_escape]. rewrite IH by auto.
  assert (E : json_escape_char c = String c ""); [|rewrite E; reflexivity]. unfold json_escape_char.
  apply Ascii.eqb_neq in H2, H3. rewrite H2, H3.
  replace (nat_of_ascii c =? 10)%nat with false by (symmetry; apply Nat.eqb_neq; lia).
  replace (nat_of_ascii c =? 13)%nat with false by (symmetry; apply Nat.eqb_neq; lia).
  replace (nat_of_ascii c =? 9)%nat with false by (symmetry; apply Nat.eqb_neq; lia).
  replace (nat_of_ascii c <? 32)%nat with false by (symmetry; apply Nat.ltb_ge; lia).
  assert (N : forall x, In x ["<"; ">"; "&"]%char -> Ascii.eqb c x = false) by (intros x HX; apply Ascii.eqb_neq; intros ->; auto).
  rewrite !N by (simpl; tauto). reflexivity.
Qed.
Lemma sorted_same {A B} (l : list (string * A)) (l' : list (string * B)) : map fst l' = map fst l -> sorted_keys l -> sorted_keys l'.
Proof.
  intros E H. revert l' E. induction H as [|e|a b l HL H IH]; intros l' E.
  - destruct l'; [constructor|discriminate E].
  - destruct l' as [|e' [|? ?]]; try discriminate E. constructor.
  - destruct l' as [|a' [|b' l']]; try discriminate E. cbn [map] in E. injection E as E1 E2 E3. constructor; [congruence|]. apply IH. cbn [map]. congruence.
Qed.
Notation none := (fun w : string => w = "").
Lemma printed_all gap :
  (forall v s, plain L gap v s -> as_printed L v -> exists t, json_marshal L v = Some t /\ compact L v t) /\
  (forall vs s, plain_elements L gap vs s -> Forall (as_printed L) vs ->
     exists ts, all_some (map (json_marshal L) vs) = Some ts /\ plain_elements L none vs (join "," ts)) /\
  (forall kvs s, plain_members L gap kvs s -> Forall (fun kx => no_html (fst kx) /\ as_printed L (snd kx)) kvs ->
     exists xs, all_some (map (fun kv => option_map (pair (fst kv)) (json_marshal L (snd kv))) kvs) = Some xs /\ map fst xs = map fst kvs /\
       plain_members L none kvs (join "," (map (fun kv => json_string (fst kv) ++ ":" ++ snd kv) xs))).
Proof.
  apply (plain_all_mind L gap (fun v s _ => as_printed L v -> exists t, json_marshal L v = Some t /\ compact L v t)
    (fun vs s _ => Forall (as_printed L) vs -> exists ts, all_some (map (json_marshal L) vs) = Some ts /\ plain_elements L none vs (join "," ts))
    (fun kvs s _ => Forall (fun kx => no_html (fst kx) /\ as_printed L (snd kx)) kvs -> exists xs, all_some (map (fun kv => option_map (pair (fst kv)) (json_marshal L (snd kv))) kvs) = Some xs /\ map fst xs = map fst kvs /\
       plain_members L none kvs (join "," (map (fun kv => json_string (fst kv) ++ ":" ++ snd kv) xs)))).
  - intros _. eexists. split; [reflexivity|constructor].
  - intros _. eexists. split; [reflexivity|constructor].
  - intros _. eexists. split; [reflexivity|constructor].
  - intros s HS HA. inversion HA; subst. exists (dqs ++ s ++ dqs). split; [|constructor; auto]. cbn [json_marshal]. unfold json_string. rewrite escape_same; auto.
  - intros f HN HP HA. inversion HA; subst. exists (fmt_float L f). split; [auto|constructor; auto].
  - intros w _ _. exists "[]". split; [reflexivity|]. apply (pl_empty_array L none ""). reflexivity.
  - intros vs s _ IH HA. inversion HA; subst. destruct (IH ltac:(auto)) as (ts & E & HE). exists ("[" ++ join "," ts ++ "]"). cbn [json_marshal]. rewrite E.
    split; [reflexivity|]. apply pl_array. auto.
  - intros w _ _. exists "{}". split; [reflexivity|]. apply (pl_empty_object L none ""). reflexivity.
  - intros kvs s _ IH HD HA. inversion HA as [| | | | |o HO HS]; subst. destruct (IH HO) as (xs & E & EF & HE). eexists. cbn [json_marshal]. rewrite E. cbn [option_map].
    split; [reflexivity|]. rewrite sorted_sort by (eapply sorted_same; eauto). apply pl_object; auto.
  - intros v s w1 w2 _ _ _ IH HF. inversion HF; subst. destruct IH as (t & E & HT); auto. exists [t]. cbn [map all_some]. rewrite E. split; [reflexivity|].
    cbn [join]. pose proof (pe_one L none v t "" "" eq_refl eq_refl HT) as X. cbn [append] in X. rewrite append_nil_r in X. exact X.
  - intros v s w1 w2 vs s' _ _ _ IH HE IH' HF. inversion HF; subst. destruct IH as (t & E & HT); auto. destruct IH' as (ts & E' & HT'); auto.
    exists (t :: ts). cbn [map all_some]. rewrite E, E'. split; [reflexivity|].
    destruct ts as [|t1 ts]; [exfalso; destruct vs as [|v1 vs]; [inversion HE|]; cbn [map all_some] in E'; destruct (json_marshal L v1); [|discriminate E']; destruct (all_some (map (json_marshal L) vs)); discriminate E'|].
    change (join "," (t :: t1 :: ts)) with (t ++ "," ++ join "," (t1 :: ts)).
    exact (pe_cons L none v t "" "" vs _ eq_refl eq_refl HT HT').
  - intros k v s w1 w2 w3 w4 _ _ _ _ HK _ IH HF. inversion HF as [|? ? [H1 H2] _]; subst. cbn [fst snd] in *. destruct (IH H2) as (t & E & HT). exists [(k, t)]. cbn [map all_some fst snd]. rewrite E.
    split; [reflexivity|]. split; [reflexivity|]. cbn [join]. unfold json_string. rewrite escape_same by auto.
    pose proof (pm_one L none k v t "" "" "" "" eq_refl eq_refl eq_refl eq_refl HK HT) as X. rewrite append_nil_r in X. exact X.
  - intros k v s w1 w2 w3 w4 kvs s' _ _ _ _ HK _ IH HE IH' HF. inversion HF as [|? ? [H1 H2] HF']; subst. cbn [fst snd] in *. destruct (IH H2) as (t & E & HT). destruct (IH' HF') as (xs & E' & EF & HT').
    exists ((k, t) :: xs). cbn [map all_some fst snd]. rewrite E. cbn [option_map]. rewrite E'. split; [reflexivity|]. split; [cbn [map fst]; congruence|].
    destruct xs as [|x1 xs]; [destruct kvs; [inversion HE|discriminate EF]|].
    change (join "," ((json_string k ++ ":" ++ t) :: map (fun kv => json_string (fst kv) ++ ":" ++ snd kv) (x1 :: xs)))
      with ((json_string k ++ ":" ++ t) ++ "," ++ join "," (map (fun kv => json_string (fst kv) ++ ":" ++ snd kv) (x1 :: xs))).
    unfold json_string at 1. rewrite escape_same by auto.
    pose proof (pm_cons L none k v t "" "" "" "" kvs _ eq_refl eq_refl eq_refl eq_refl HK HT HT') as X. cbn [append] in X |- *. rewrite !append_assoc in *. exact X.
Qed.
Lemma printed gap v s : plain L gap v s -> as_printed L v -> exists t, json_marshal L v = Some t /\ compact L v t.
Proof. intro H. exact (proj1 (printed_all gap) v s H). Qed.
Lemma member_plain gap o s k x : plain L gap (GMapS o) s -> In (k, x) o -> plain_string k /\ exists u, plain L gap x u.
Proof.
  intros H HI. inversion H as [| | | | | | |w HW|kvs s' HM HD]; subst; [destruct HI|]. clear H HD. induction HM as [k0 v s w1 w2 w3 w4|k0 v s w1 w2 w3 w4 kvs s' _ _ _ _ HK HV HM IH].
  - destruct HI as [E|[]]. injection E as <- <-. eauto.
  - destruct HI as [E|HI]; [injection E as <- <-; eauto|auto].
Qed.
(** one entry as an object of its own *)
Lemma entry_printed gap o s k x : plain L gap (GMapS o) s -> In (k, x) o -> no_html k -> as_printed L x -> exists t, json_marshal L (GMapS [(k, x)]) = Some t /\ compact L (GMapS [(k, x)]) t.
Proof.
  intros H HI HK HX. destruct (member_plain _ _ _ _ _ H HI) as (PK & u & HU). destruct (printed gap x u HU HX) as (t & E & HT).
  apply (printed none (GMapS [(k, x)]) ("{" ++ ((dqs ++ k ++ dqs) ++ ":" ++ t ++ "") ++ "}")).
  - apply pl_object; [|constructor; [intros []|constructor]]. apply (pm_one L none k x t "" "" "" ""); auto.
  - apply as_object; [constructor; [auto|constructor]|constructor].
Qed.
Lemma object_distinct gap o s : plain L gap (GMapS o) s -> NoDup (map fst o).
Proof. intro H. inversion H; subst; [constructor|auto]. Qed.

(** ** Conditions *)
Section WithPredef.
Variable p : predef.
Hypothesis HPath : PathSpec L.
Hypothesis HText : TextSpec L.
Hypothesis HAcc : PathsAccepted L.
Hypothesis HEnt : EntriesSpec L.

Lemma says_path att method value m P : starts "jsonpath:" att -> condition_says L p att method value m P ->
  (exists k v s, method_is method k /\ replaced p method value v /\ plain_value v /\ shows L att m s /\ P = satisfied L k v s) \/
  (exists rel query, path_of att rel query /\ nothing_to_read rel m /\ P = False).
Proof.
  intros [r EA] HS. destruct HS as [k v s HK HR HV HS|rel query HO HN|field k v HF HK HR HV|key k v E|key k v E|key key' k E|sd rc k x y HX HY E|k v E|k v E|k v a E|HA|HA];
    try (exfalso; rewrite EA in *; discriminate); eauto 10.
  - exfalso. rewrite EA in HF. simpl in HF. repeat (destruct HF as [HF|HF]; [discriminate HF|]). destruct HF.
  - exfalso. rewrite EA in HA. simpl in HA. repeat (destruct HA as [HA|HA]; [discriminate HA|]). destruct HA.
  - exfalso. rewrite EA in HA. simpl in HA. repeat (destruct HA as [HA|HA]; [discriminate HA|]). destruct HA.
Qed.

Lemma says_field att method value m m' P : ~ starts "jsonpath:" att -> without_document m = without_document m' ->
  condition_says L p att method value m P -> condition_says L p att method value m' P.
Proof.
  intros N E HS.
  pose proof (f_equal m_useragent E) as E1. pose proof (f_equal m_enc_type E) as E2. pose proof (f_equal m_domain E) as E3.
  pose proof (f_equal m_source_namespace E) as E4. pose proof (f_equal m_source_cluster E) as E5. pose proof (f_equal m_dest_namespace E) as E6.
  pose proof (f_equal m_dest_cluster E) as E7. pose proof (f_equal m_source_labels E) as E8. pose proof (f_equal m_dest_labels E) as E9.
  pose proof (f_equal m_size E) as E10. pose proof (f_equal m_t_hours E) as E11. pose proof (f_equal m_enc_version E) as E12. clear E.
  cbn [without_document m_useragent m_enc_type m_domain m_source_namespace m_source_cluster m_dest_namespace m_dest_cluster m_source_labels m_dest_labels m_size m_t_hours m_enc_version] in *.
  destruct HS as [k v s HK HR HV HS|rel query HO HN|field k v HF HK HR HV|key k v -> HK HM HR HV|key k v -> HK HM HR|key key' k -> HK HK' HM N1 N2 HR
    |sd rc k x y HX HY -> HM N1 N2 HR|k v -> HM HR HI|k v -> HM HR HI|k v a -> HM HR HV HI|HA|HA].
  - exfalso. apply N. destruct HS as (rel & query & HP & _). eapply path_jsonpath; eauto.
  - exfalso. apply N. eapply path_jsonpath; eauto.
  - replace (field m) with (field m'); [apply cn_text; auto|]. simpl in HF. repeat (destruct HF as [HF|HF]; [injection HF as _ <-; congruence|]). destruct HF.
  - rewrite E8. apply cn_sender_label; auto.
  - rewrite E9. apply cn_receiver_label; auto.
  - rewrite E8, E9. eapply cn_label_pair; eauto.
  - replace (sd m) with (sd m'); [replace (rc m) with (rc m'); [eapply cn_object_pair; eauto|]|].
    + simpl in HY. destruct HY as [HY|[HY|[]]]; injection HY as _ <-; congruence.
    + simpl in HX. destruct HX as [HX|[HX|[]]]; injection HX as _ <-; congruence.
  - rewrite E10. apply cn_size; auto.
  - rewrite E11. apply cn_hours; auto.
  - eapply cn_version; eauto. congruence.
  - apply cn_true. auto.
  - apply cn_false. auto.
Qed.

Lemma twin_document (inner : bool) m m' d : twins L m m' -> (if inner then m_raw_rel m else m_raw m) = Some d ->
  exists t, (if inner then m_json_rel m' else m_json m') = Some t /\ laid_out L d t.
Proof.
  intros (_ & _ & (d0 & t0 & A1 & A2 & A3) & HR) HD. destruct inner.
  - destruct HR as [[B1 B2]|(e & t & B1 & B2 & B3)]; [congruence|]. exists t. split; auto. congruence.
  - exists t0. split; auto. congruence.
Qed.

(** what a path shows in both *)
Lemma twin_status (inner : bool) ks k v d w m m' : ks <> [] -> Forall field_name ks -> twins L m m' ->
  (if inner then m_raw_rel m else m_raw m) = Some d -> at_path ks d w -> agreeable L k v w ->
  exists s s', shows L ("jsonpath:" ++ written_path inner ks) m s /\ shows L ("jsonpath:" ++ written_path inner ks) m' s' /\
    (satisfied L k v s <-> satisfied L k v s') /\ (forall t, s' = Present t -> same_sort L k v t).
Proof.
  intros HN HF HT HD HA HG. destruct (twin_document _ _ _ _ HT HD) as (t & HD' & HO).
  assert (RW : m_raw m <> None) by (destruct HT as (_ & _ & (d0 & t0 & A1 & _) & _); congruence).
  assert (RW' : m_raw m' = None) by apply HT.
  pose proof (HAcc ks "" HN HF ltac:(left; reflexivity)) as HJ. rewrite append_nil_r in HJ. destruct (jp_prepare L ("$." ++ dotted ks)) as [q|] eqn:EQ; [|congruence].
  pose proof (proj1 HPath ks q d w HN HF EQ HA) as H1. pose proof (proj1 HText ks d t w HN HF HO HA) as H2.
  pose proof (written_path_of inner ks HN HF) as PO.
  assert (S1 : shows L ("jsonpath:" ++ written_path inner ks) m (match asks L q d with None => Missing | Some v => value_status L v end)).
  { exists inner, ("$." ++ dotted ks). split; auto. apply sa_parsed; auto. apply not_entry. }
  assert (S2 : shows L ("jsonpath:" ++ written_path inner ks) m' (match fetch L t ("$." ++ dotted ks) with None => Missing | Some raw => status_of raw end)).
  { exists inner, ("$." ++ dotted ks). split; auto. apply sa_raw; auto; [apply not_entry|]. eapply plain_nonempty. exact HO. }
  eexists _, _. split; [exact S1|]. split; [exact S2|]. destruct w as [x|].
  - destruct H2 as (s & E & HX). rewrite H1, E. eapply found_status; eauto.
  - replace (match asks L q d with None => Missing | Some v => value_status L v end) with Missing by (destruct H1 as [->| ->]; reflexivity).
    replace (match fetch L t ("$." ++ dotted ks) with None => Missing | Some raw => status_of raw end) with Missing by (destruct H2 as [->| ->]; reflexivity).
    split; [tauto|discriminate].
Qed.
Lemma shows_same (inner : bool) ks m d s s' : ks <> [] -> Forall field_name ks ->
  (if m_raw m then (if inner then m_raw_rel m <> None else True) else (if inner then m_json_rel m else m_json m) = Some d) ->
  shows L ("jsonpath:" ++ written_path inner ks) m s -> shows L ("jsonpath:" ++ written_path inner ks) m s' -> s = s'.
Proof.
  intros HN HF HD H1 H2. destruct (m_raw m) as [x|] eqn:EM.
  - assert (EX : exists e, (if inner then m_raw_rel m else m_raw m) = Some e).
    { destruct inner; [destruct (m_raw_rel m); [eauto|congruence]|eauto]. }
    destruct EX as [e HE]. assert (RW : m_raw m <> None) by congruence.
    destruct (shows_parsed inner ks m e s HN HF RW HE H1) as (q & E1 & ->). destruct (shows_parsed inner ks m e s' HN HF RW HE H2) as (q' & E2 & ->).
    rewrite E1 in E2. injection E2 as <-. auto.
  - rewrite (shows_raw inner ks m d s HN HF EM HD H1), (shows_raw inner ks m d s' HN HF EM HD H2). auto.
Qed.

Notation says c m P := (condition_says L p (c_attr c) (c_method c) (c_value c) m P).
Lemma path_means c (inner : bool) ks k v m s : c_attr c = "jsonpath:" ++ written_path inner ks -> ks <> [] -> Forall field_name ks ->
  method_is (c_method c) k -> replaced p (c_method c) (c_value c) v -> plain_value v ->
  (forall s', shows L (c_attr c) m s' -> s' = s) -> ~ nothing_to_read inner m -> shows L (c_attr c) m s ->
  (means L p (NCond c) m <-> satisfied L k v s).
Proof.
  intros EA HN HF HK HR HV HU HX HS. cbn [means]. split.
  - intros (P & HC & H). apply says_path in HC; [|rewrite EA; eexists; reflexivity].
    destruct HC as [(k' & v' & s' & HK' & HR' & _ & HS' & ->)|(rel & query & HP & HE & ->)]; [|destruct H].
    rewrite (HU _ HS'), (method_kind _ _ _ HK HK'), (replaced_unique _ _ _ _ _ HR HR') in H. auto.
  - intro H. exists (satisfied L k v s). split; auto. apply cn_path; auto.
Qed.

(** a condition on a path of which it is known what is shown *)
Lemma shown_means c k v y z : starts "jsonpath:" (c_attr c) -> method_is (c_method c) k -> replaced p (c_method c) (c_value c) v -> plain_value v ->
  (forall z', shows L (c_attr c) y z' <-> z' = z) -> (means L p (NCond c) y <-> satisfied L k v z).
Proof.
  intros HJ HK HR HV HZ. cbn [means]. split.
  - intros (P & HC & H). apply says_path in HC; auto. destruct HC as [(k' & v' & z' & HK' & HR' & _ & HS' & ->)|(rel & query & _ & _ & ->)]; [|destruct H].
    apply HZ in HS'. subst z'. rewrite (method_kind _ _ _ HK HK'), (replaced_unique _ _ _ _ _ HR HR') in H. auto.
  - intro H. exists (satisfied L k v z). split; auto. apply cn_path; auto. apply HZ. auto.
Qed.
Lemma shown_twins c k v m m' s s' : starts "jsonpath:" (c_attr c) -> method_is (c_method c) k -> replaced p (c_method c) (c_value c) v -> plain_value v ->
  m_raw m <> None -> m_raw m' = None -> m_json m' <> None -> m_json_rel m' <> None ->
  (forall z, shows L (c_attr c) m z <-> z = s) -> (forall z, shows L (c_attr c) m' z <-> z = s') ->
  (satisfied L k v s <-> satisfied L k v s') -> (forall t, s' = Present t -> same_sort L k v t) ->
  covered L p (NCond c) m /\ covered L p (NCond c) m' /\ (means L p (NCond c) m <-> means L p (NCond c) m').
Proof.
  intros HJ HK HR HV RW RW' J1 J2 S1 S2 HE HS.
  split; [|split].
  - split; [|intro E; congruence]. exists (satisfied L k v s). apply cn_path; auto. apply S1. auto.
  - split; [exists (satisfied L k v s'); apply cn_path; auto; apply S2; auto|]. intros _ _. split; [|auto].
    intros k' v' u y HK' HI' HR' HNN HSH. rewrite (method_kind _ _ _ HK HK') in HI'. rewrite (replaced_unique _ _ _ _ _ HR HR') in HNN.
    apply S2 in HSH. symmetry in HSH. apply (HS u HSH HI' HNN).
  - rewrite (shown_means c k v m s), (shown_means c k v m' s'); auto.
Qed.

Lemma condition_twins c m m' : indifferent L p (NCond c) m -> twins L m m' ->
  covered L p (NCond c) m /\ covered L p (NCond c) m' /\ (means L p (NCond c) m <-> means L p (NCond c) m').
Proof.
  intros HI HT.
  assert (RW : m_raw m <> None) by (destruct HT as (_ & _ & (d0 & t0 & A1 & _) & _); congruence).
  assert (RW' : m_raw m' = None) by apply HT.
  assert (RJ : m_json m' <> None) by (destruct HT as (_ & _ & (d0 & t0 & _ & A2 & _) & _); congruence).
  assert (RR : m_raw_rel m = None <-> m_json_rel m' = None).
  { destruct HT as (_ & _ & _ & [[B1 B2]|(e & t & B1 & B2 & _)]); rewrite B1, B2; [tauto|]. split; discriminate. }
  assert (AN : answerable L p c m) by (intros E; congruence).
  assert (HW : without_document m = without_document m') by apply HT. assert (HW' : without_document m' = without_document m) by auto.
  assert (RT : returns_found L c m -> forall rets name path, r_orig (c_ret c) = Some rets -> In (name, path) rets ->
     (starts "jsonpath:$RELATIVE" path -> m_json_rel m' <> None) /\ (~ starts "jsonpath:$RELATIVE" path -> m_json m' <> None)).
  { intros HF rets name path E1 E2. split; auto. intros HS E. eapply HF; eauto. tauto. }
  inversion HI as [c0 m0 P N HS|c0 m0 inner ks k v d w EA HN HF HK HR HV HD HA HG HRF|c0 m0 ks EA HN HF HD HRF| | | | | | | 
    |c0 m0 key x k v EA HK HR HV HD HG|c0 m0 key x k v EA HK HR HV HD HX HG| | ]; subst.
  - cbn [covered means]. split; [|split].
    + split; eauto.
    + split; [|intros _ HJ; contradiction]. exists P. eapply says_field; eauto.
    + split; intros (Q & HQ & H); exists Q; (split; [eapply says_field; eauto|auto]).
  - destruct (twin_status inner ks k v d w m m' HN HF HT HD HA HG) as (s & s' & S1 & S2 & HE & HSS). rewrite <- EA in S1, S2.
    destruct (twin_document _ _ _ _ HT HD) as (t & HD' & HO).
    assert (U1 : forall s0, shows L (c_attr c) m s0 -> s0 = s).
    { intros s0 H. rewrite EA in *. apply (shows_same inner ks m "" s0 s HN HF); auto. destruct (m_raw m); [|congruence]. destruct inner; [congruence|exact I]. }
    assert (U2 : forall s0, shows L (c_attr c) m' s0 -> s0 = s').
    { intros s0 H. rewrite EA in *. apply (shows_same inner ks m' t s0 s' HN HF); auto. rewrite RW'. auto. }
    assert (N1 : ~ nothing_to_read inner m).
    { unfold nothing_to_read. destruct inner; [intros [H _]; rewrite H in HD by auto; discriminate|intros [H _]; congruence]. }
    assert (N2 : ~ nothing_to_read inner m').
    { assert (NE : t <> "") by (eapply plain_nonempty; exact HO).
      unfold nothing_to_read. destruct inner; [intros [_ H]; destruct (H RW'); congruence|intros [_ H]; destruct H; congruence]. }
    split; [|split].
    + split; auto. exists (satisfied L k v s). apply cn_path; auto.
    + split; [exists (satisfied L k v s'); apply cn_path; auto|]. intros _ _. split; [|exact (RT HRF)].
      intros k' v' u y HK' HI' HR' HNN HSH. rewrite (method_kind _ _ _ HK HK') in HI'. rewrite (replaced_unique _ _ _ _ _ HR HR') in HNN.
      apply U2 in HSH. symmetry in HSH. apply (HSS u HSH HI' HNN).
    + rewrite (path_means c inner ks k v m s), (path_means c inner ks k v m' s'); auto.
  - pose proof (written_path_of true ks HN HF) as PO. rewrite <- EA in PO.
    assert (Z1 : nothing_to_read true m) by (split; [auto|congruence]).
    assert (Z2 : nothing_to_read true m') by (split; [congruence|left; tauto]).
    assert (NM : forall x, nothing_to_read true x -> (m_raw x <> None -> m_raw_rel x = None) -> means L p (NCond c) x -> False).
    { intros x HX _ (P & HC & H). apply says_path in HC; [|rewrite EA; eexists; reflexivity].
      destruct HC as [(k' & v' & s' & HK' & HR' & _ & (rel & query & HP & HS) & _)|(rel & query & HP & HE & ->)]; [|auto].
      rewrite EA in HP. destruct (written_unique _ _ _ _ HN HF HP) as [-> ->]. destruct HX as [X1 X2].
      inversion HS as [q d' H1 H2 H3 H4|k x' H1 H2|k x' H1 H2|d' H1 H2 H3 H4|d' H1 H2]; subst; try discriminate.
      - rewrite X1 in H4 by auto. discriminate H4.
      - destruct (X2 H1); congruence.
      - revert H2. apply not_entry. }
    split; [|split].
    + split; auto. exists False. eapply cn_nothing; eauto.
    + split; [exists False; eapply cn_nothing; eauto|]. intros _ _. split; [|exact (RT HRF)].
      intros k' v' u y _ _ _ _ (rel & query & HP & HS). exfalso. rewrite EA in HP. destruct (written_unique _ _ _ _ HN HF HP) as [-> ->].
      inversion HS as [q d' H1 H2 H3 H4|k x' H1 H2|k x' H1 H2|d' H1 H2 H3 H4|d' H1 H2]; subst; try congruence; try discriminate.
      * destruct Z2 as [_ Z2]. destruct (Z2 RW'); congruence.
      * revert H2. apply not_entry.
    + split; intro H; exfalso; [eapply (NM m)|eapply (NM m')]; eauto; congruence.
  - destruct (twin_document true _ _ _ HT HD) as (t & HD' & HO).
    destruct (entry_parsed m key x RW (proj1 HEnt) HD) as [S1 _].
    destruct (entry_raw m' key x t RW' HD' (plain_nonempty _ _ _ HO) (out_parses _ _ HO)) as [S2 _].
    apply (shown_twins c k v m m' (value_status L (GStr key)) (status_of key)); auto; try (rewrite EA; auto; fail).
    + rewrite EA. eexists. reflexivity.
    + congruence.
    + inversion HG; subst; [tauto|]. unfold value_status. cbn [text_of]. rewrite (proj2 (String.eqb_neq _ _)) by auto. tauto.
    + inversion HG; subst; [discriminate|]. rewrite clean_status by auto. intros t' E. injection E as <-. auto.
  - destruct (twin_document true _ _ _ HT HD) as (t & HD' & HO).
    destruct (member_plain _ _ _ key x HO (or_introl eq_refl)) as (_ & u0 & HU0). destruct (printed _ _ _ HU0 HX) as (u & EU & HU).
    destruct (entry_parsed m key x RW (proj1 HEnt) HD) as [_ S1].
    destruct (entry_raw m' key x t RW' HD' (plain_nonempty _ _ _ HO) (out_parses _ _ HO)) as [_ S2].
    destruct (found_status _ k v x u HU HG) as [F1 F2].
    apply (shown_twins c k v m m' (value_status L x) (status_of u)); auto; try (rewrite EA; auto; fail).
    + rewrite EA. eexists. reflexivity.
    + congruence.
Qed.

(** ** Elements *)
Lemma refers_inner inner ks mark : refers_to_element (written_path inner ks ++ mark) <-> inner = true.
Proof.
  unfold written_path, refers_to_element. rewrite append_assoc. destruct inner; split; intro H; auto; try discriminate.
  - left. eexists. reflexivity.
  - exfalso. destruct H as [[r E]|[E|[[r E]|[r E]]]]; discriminate E.
Qed.
Lemma no_comma inner ks mark : Forall field_name ks -> In mark marks -> split_char "," (written_path inner ks ++ mark) = [written_path inner ks ++ mark].
Proof.
  intros HF [<-|HM]; apply split_no_comma.
  - rewrite append_nil_r. unfold written_path. apply all_chars_app. split; [destruct inner; simpl; repeat split; discriminate|].
    apply path_no; [not_char|apply dotted_chars; auto].
  - apply parent_no_comma; auto.
Qed.
Lemma mark_free mark : In mark marks -> all_chars (fun c => c <> "$"%char) mark.
Proof. intros [<-|[<-|[<-|[]]]]; simpl; repeat split; discriminate. Qed.
Lemma rest_free ks mark : Forall field_name ks -> In mark marks -> all_chars (fun c => c <> "$"%char) ("." ++ dotted ks ++ mark).
Proof.
  intros HF HM. simpl. split; [discriminate|]. apply all_chars_app. split; [apply path_no_dollar; apply dotted_chars; auto|apply mark_free; auto].
Qed.
Lemma quant_query inner ks mark : Forall field_name ks -> In mark marks ->
  prepare_query L (written_path inner ks ++ mark) = match jp_prepare L ("$." ++ dotted ks ++ mark) with Some q => Ok (Some q) | None => Err end.
Proof.
  intros HF HM. assert (HS : starts "." ("." ++ dotted ks ++ mark)) by (eexists; reflexivity).
  pose proof (rest_free ks mark HF HM) as HC. destruct inner; unfold written_path; rewrite append_assoc.
  - change ("$RELATIVE." ++ dotted ks ++ mark) with ("$RELATIVE" ++ ("." ++ dotted ks ++ mark)). rewrite prepared_relative by auto. apply prepared_plain; auto.
  - change ("$." ++ dotted ks ++ mark) with ("$" ++ ("." ++ dotted ks ++ mark)). apply prepared_plain; auto.
Qed.

Lemma arranged_objects l part : Forall (fun e => exists o : list (string * iface), e = GMapS o) l -> (arranged (GArr l) part <-> part = l).
Proof.
  intro HO.
  assert (NL : forall ls, l = map GArr ls -> l = []).
  { intros [|x ls] ->; auto. inversion HO as [|? ? [o E] _]. discriminate E. }
  split.
  - intro H. inversion H as [| |ls E|l' N]; subst; auto. specialize (NL ls eq_refl). destruct ls; [reflexivity|discriminate NL].
  - intros ->. destruct l as [|x l]; [apply (ar_nested [])|]. apply ar_flat. intros (ls & E). discriminate (NL ls E).
Qed.

(** what is selected from the parsed document *)
Definition the_elements (w : option iface) (l : list iface) : Prop := w = Some (GArr l) /\ Forall (fun e => exists o, e = GMapS o) l.
Lemma query_value ks d v : ks <> [] -> Forall field_name ks -> at_path ks d (Some v) ->
  forall q, jp_prepare L ("$." ++ dotted ks ++ "") = Some q -> fst (jp_query L q d) = v.
Proof.
  intros HN HF HA q HJ. rewrite append_nil_r in HJ. pose proof (proj1 HPath ks q d _ HN HF HJ HA) as H. cbn in H. unfold asks in H.
  destruct (jp_query L q d) as [x [e|]]; [destruct (contains e _); [|discriminate H]|]; injection H as ->; reflexivity.
Qed.
Lemma query_elements ks mark d l q : ks <> [] -> Forall field_name ks -> In mark marks -> jp_prepare L ("$." ++ dotted ks ++ mark) = Some q ->
  at_path ks d (Some (GArr l)) -> fst (jp_query L q d) = GArr l.
Proof.
  intros HN HF [<-|HM] HJ HA.
  - exact (query_value ks d (GArr l) HN HF HA q HJ).
  - exact (proj2 HPath ks mark q d _ HN HF HM HJ HA).
Qed.
Lemma query_nothing ks mark d : ks <> [] -> Forall field_name ks -> In mark marks -> at_path ks d None ->
  forall q, jp_prepare L ("$." ++ dotted ks ++ mark) = Some q -> fst (jp_query L q d) = GNil.
Proof.
  intros HN HF [<-|HM] HA q HJ; [rewrite append_nil_r in HJ; apply (proj2 HEnt ks); auto|exact (proj2 HPath ks mark q d None HN HF HM HJ HA)].
Qed.
Lemma parsed_general a (inner : bool) ks mark m d v : a_parent a = written_path inner ks ++ mark -> Forall field_name ks -> In mark marks ->
  m_raw m <> None -> (if inner then m_raw_rel m else m_raw m) = Some d ->
  (forall q, jp_prepare L ("$." ++ dotted ks ++ mark) = Some q -> fst (jp_query L q d) = v) -> jp_prepare L ("$." ++ dotted ks ++ mark) <> None ->
  (forall r, ranges_over L a m r -> exists part, arranged v part /\ r = Some (map (fun e => set_raw_rel m (Some e)) part)) /\
  (forall part, arranged v part -> ranges_over L a m (Some (map (fun e => set_raw_rel m (Some e)) part))).
Proof.
  intros EP HF HM RW HD HQ HJ.
  assert (NS : a_parent a <> "$RELATIVE*").
  { rewrite EP. unfold written_path. rewrite append_assoc. destruct inner; discriminate. }
  destruct (jp_prepare L ("$." ++ dotted ks ++ mark)) as [q|] eqn:EQ; [|congruence]. specialize (HQ q eq_refl).
  assert (QF : forall q', query_for L (a_parent a) (Some q') <-> q' = q).
  { intro q'. rewrite query_for_iff, EP, quant_query by auto. rewrite EQ. split; [intro E; injection E; auto|intros ->; auto]. }
  assert (IT : forall items, comma_items (a_parent a) items <-> items = [a_parent a]).
  { intro items. rewrite comma_items_iff, EP, no_comma by auto. tauto. }
  pose proof (refers_inner inner ks mark) as RI. rewrite <- EP in RI.
  assert (PE : forall vs, parsed_elements L a m vs <-> arranged v vs).
  { intro vs. unfold parsed_elements. split.
    - intros [[E _]|(_ & doc & items & parts & D1 & D2 & HI & H2 & ->)]; [contradiction|]. apply IT in HI. subst items.
      assert (doc = d).
      { destruct inner; [specialize (D1 (proj2 RI eq_refl))|specialize (D2 (fun H => Bool.diff_false_true (proj1 RI H)))]; congruence. }
      subst doc. inversion H2 as [|? part ? parts' (q' & HQ' & HA) H2']; subst. inversion H2'; subst. apply QF in HQ'. subst q'.
      cbn [List.concat]. rewrite app_nil_r. exact HA.
    - intro HV. right. split; auto. exists d, [a_parent a], [vs]. split; [|split; [|split; [|split]]].
      + intro H. apply RI in H. rewrite H in HD. auto.
      + intro H. destruct inner; auto. exfalso. apply H. apply RI. auto.
      + apply IT. auto.
      + constructor; [|constructor]. exists q. split; [apply QF; auto|]. rewrite HQ. auto.
      + cbn [List.concat]. symmetry. apply app_nil_r. }
  split.
  - intros r [(_ & vs & HV & ->)|(E & _)]; [|congruence]. apply PE in HV. eauto.
  - intros part HP. left. split; auto. exists part. split; auto. apply PE. auto.
Qed.
Lemma parsed_range a (inner : bool) ks mark m d v l : a_parent a = written_path inner ks ++ mark -> Forall field_name ks -> In mark marks ->
  m_raw m <> None -> (if inner then m_raw_rel m else m_raw m) = Some d ->
  (forall q, jp_prepare L ("$." ++ dotted ks ++ mark) = Some q -> fst (jp_query L q d) = v) -> jp_prepare L ("$." ++ dotted ks ++ mark) <> None ->
  (forall part, arranged v part <-> part = l) ->
  forall r, ranges_over L a m r <-> r = Some (map (fun e => set_raw_rel m (Some e)) l).
Proof.
  intros EP HF HM RW HD HQ HJ HL r. destruct (parsed_general a inner ks mark m d v EP HF HM RW HD HQ HJ) as [R1 R2]. split.
  - intro H. apply R1 in H. destruct H as (part & HP & ->). apply HL in HP. subst. auto.
  - intros ->. apply R2. apply HL. auto.
Qed.

(** what is selected from the bytes *)
Lemma asked_bytes (inner : bool) ks mark m t : Forall field_name ks -> In mark marks -> (if inner then m_json_rel m else m_json m) = Some t ->
  forall d q, raw_asked m (written_path inner ks ++ mark) (Some d) q <-> d = t /\ q = "$." ++ dotted ks ++ mark.
Proof.
  intros HF HM HD d q. pose proof (refers_inner inner ks mark) as RI.
  assert (HS : starts "." ("." ++ dotted ks ++ mark)) by (eexists; reflexivity).
  pose proof (rest_free ks mark HF HM) as HC. unfold raw_asked. destruct inner.
  - assert (RP : forall q, raw_path (written_path true ks ++ mark) q <-> q = "$." ++ dotted ks ++ mark).
    { assert (X : raw_path (written_path true ks ++ mark) ("$." ++ dotted ks ++ mark)).
      { exists ("$." ++ dotted ks ++ mark), ("$." ++ dotted ks ++ mark), ("$." ++ dotted ks ++ mark). split; [|split; [|split]].
        - unfold written_path. rewrite append_assoc. apply (fs_first "$RELATIVE." "$." _ "" (dotted ks ++ mark)); [reflexivity|]. intros. simpl. lia.
        - apply fs_absent. intros (a & b & E). revert E. apply (dollar_once ("." ++ dotted ks ++ mark) "K"%char "EY."); auto. discriminate.
        - apply fs_absent. intros (a & b & E). revert E. apply (dollar_once ("." ++ dotted ks ++ mark) "V"%char "ALUE."); auto. discriminate.
        - right. split; auto. discriminate. }
      intro q'. split; [|intros ->; auto]. intro H. apply raw_path_iff in H, X. congruence. }
    split.
    + intros [(_ & E & H)|(H & _)]; [|exfalso; apply H, RI; auto]. apply RP in H. split; congruence.
    + intros [-> ->]. left. split; [apply RI; auto|]. split; auto. apply RP. auto.
  - split.
    + intros [(H & _)|(_ & E & ->)]; [apply RI in H; discriminate H|]. split; [congruence|]. unfold written_path. rewrite append_assoc. auto.
    + intros [-> ->]. right. split; [intro H; apply RI in H; discriminate H|]. split; [auto|unfold written_path; rewrite append_assoc; reflexivity].
Qed.
Lemma found_bytes a (inner : bool) ks mark m t : a_parent a = written_path inner ks ++ mark -> Forall field_name ks -> In mark marks ->
  (if inner then m_json_rel m else m_json m) = Some t -> forall rs, raw_found L a m rs <-> rs = [fetch L t ("$." ++ dotted ks ++ mark)].
Proof.
  intros EP HF HM HD rs. unfold raw_found.
  assert (IT : forall items, comma_items (a_parent a) items <-> items = [a_parent a]).
  { intro items. rewrite comma_items_iff, EP, no_comma by auto. tauto. }
  split.
  - intros (items & HI & H2). apply IT in HI. subst items. inversion H2 as [|? r ? rs' (d & q & HA & ->) H2']; subst. inversion H2'; subst.
    rewrite EP in HA. apply (asked_bytes inner ks mark m t HF HM HD) in HA. destruct HA as [-> ->]. auto.
  - intros ->. exists [a_parent a]. split; [apply IT; auto|]. constructor; [|constructor]. exists t, ("$." ++ dotted ks ++ mark). split; auto.
    rewrite EP. apply (asked_bytes inner ks mark m t HF HM HD). auto.
Qed.

Lemma raw_range a (inner : bool) ks mark m d t l : a_parent a = written_path inner ks ++ mark -> ks <> [] -> Forall field_name ks -> In mark marks ->
  m_raw m = None -> (if inner then m_json_rel m else m_json m) = Some t -> laid_out L d t -> at_path ks d (Some (GArr l)) -> Forall (fun e => exists o, e = GMapS o) l ->
  exists ts, Forall2 (compact L) l ts /\ forall r, ranges_over L a m r <-> r = Some (map (fun t => set_json_rel m (Some t)) ts).
Proof.
  intros EP HN HF HM RW HD HO HA HL.
  destruct (proj1 (proj2 HText) ks mark d t _ HN HF HM HO HA) as (s & EF & HS).
  pose proof (proj2 (proj2 HText) _ _ HS) as HU. destruct (compact_array _ _ HU HL) as (Len & U1 & U2 & U3 & U4).
  assert (SC : forall w : string, w = "" -> spaces w) by (intros ? ->; exact I).
  destruct (plain_split (fun w => w = "") SC l _ HU HL) as (ts & ES & H2).
  exists ts. split; auto. pose proof (found_bytes a inner ks mark m t EP HF HM HD) as FB. rewrite EF in FB.
  assert (JO : joined [Some s] = s).
  { unfold joined. cbn [flat_map app filter]. pose proof (plain_nonempty _ _ _ HS) as NE. apply String.eqb_neq in NE. rewrite NE. reflexivity. }
  assert (L2 : (2 <= String.length s)%nat).
  { inversion HS; subst; cbn [append String.length]; rewrite length_append; simpl; lia. }
  assert (OP : forall u, opened L s u <-> u = Some (ugly L s)).
  { intro u. assert (X : opened L s (Some (ugly L s))) by (apply op_flat; auto). split; [|intros ->; auto].
    intro H. apply unnest_iff in H, X. congruence. }
  assert (PC : forall os, pieces (ugly L s) os <-> os = ts).
  { intro os. split.
    - intro H. assert (E : split_objects (ugly L s) = Some os) by (apply split_pieces; auto). congruence.
    - intros ->. apply split_pieces in ES. apply ES. }
  assert (RE : forall r, raw_elements L a m r <-> r = Some ts).
  { intro r. split.
    - intro H. destruct H as [rs F E|rs u F E O|rs u0 u os F E O S P|rs u0 u obj es us F E O S|rs u0 u obj es e F E O S|rs u0 u F E O S]; apply FB in F; subst rs; cbn [last] in E; try discriminate E;
        rewrite JO in O; apply OP in O; try discriminate O; injection O as ->; try contradiction.
      apply PC in P. congruence.
    - intros ->. eapply (rw_pieces L a m [Some s] s (ugly L s)); auto; [apply FB; auto|rewrite JO; apply OP; auto|apply PC; auto]. }
  intro r. unfold ranges_over. split.
  - intros [(E & _)|(_ & x & HX & ->)]; [congruence|]. apply RE in HX. subst x. reflexivity.
  - intros ->. right. split; auto. exists (Some ts). split; [apply RE; auto|reflexivity].
Qed.
Lemma raw_range_nothing a (inner : bool) ks mark m d t : a_parent a = written_path inner ks ++ mark -> ks <> [] -> Forall field_name ks -> In mark marks ->
  m_raw m = None -> (if inner then m_json_rel m else m_json m) = Some t -> laid_out L d t -> at_path ks d None ->
  exists r, (r = None \/ r = Some []) /\ forall r', ranges_over L a m r' <-> r' = r.
Proof.
  intros EP HN HF HM RW HD HO HA. pose proof (found_bytes a inner ks mark m t EP HF HM HD) as FB.
  destruct (proj1 (proj2 HText) ks mark d t _ HN HF HM HO HA) as [EF|EF]; rewrite EF in FB.
  - exists None. split; auto. intro r'. unfold ranges_over. split.
    + intros [(E & _)|(_ & x & HX & ->)]; [congruence|].
      destruct HX as [rs F E|rs u F E|rs u0 u os F E|rs u0 u obj es us F E|rs u0 u obj es e F E|rs u0 u F E]; apply FB in F; subst rs; cbn [last] in E; try discriminate E. reflexivity.
    + intros ->. right. split; auto. exists None. split; auto. eapply rw_missing; [apply FB; reflexivity|reflexivity].
  - exists (Some []). split; auto.
    assert (OP : forall u, opened L "" u <-> u = Some "").
    { intro u. assert (X : opened L "" (Some "")) by (apply op_short; simpl; lia). split; [|intros ->; auto].
      intro H. apply unnest_iff in H, X. congruence. }
    assert (PC : forall os, pieces "" os <-> os = []).
    { assert (E : split_objects "" = Some []) by reflexivity. intro os. split.
      - intro H. assert (E2 : split_objects "" = Some os) by (apply split_pieces; split; auto; intros [r H0]; discriminate H0). congruence.
      - intros ->. apply split_pieces in E. apply E. }
    intro r'. unfold ranges_over. split.
    + intros [(E & _)|(_ & x & HX & ->)]; [congruence|].
      destruct HX as [rs F E|rs u F E O|rs u0 u os F E O S P|rs u0 u obj es us F E O S|rs u0 u obj es e F E O S|rs u0 u F E O S]; apply FB in F; subst rs; cbn [last] in E; try discriminate E;
        change (joined [Some ""]) with "" in O; apply OP in O; try discriminate O; injection O as ->; try (destruct S as [? S]; discriminate S).
      apply PC in P. subst os. reflexivity.
    + intros ->. right. split; auto. exists (Some []). split; auto.
      eapply (rw_pieces L a m [Some ""] "" ""); auto; [apply FB; auto|apply OP; auto|intros [? S]; discriminate S|apply PC; auto].
Qed.

(** ** Trees *)
Lemma element_twins m m' e t : twins L m m' -> compact L e t -> twins L (set_raw_rel m (Some e)) (set_json_rel m' (Some t)).
Proof.
  intros (A & B & C & _) HE. split; [exact A|]. split; [exact B|]. split; [exact C|]. right. exists e, t. split; auto. split; auto. apply compact_out. auto.
Qed.

(** what ANY and ALL range over, up to the order *)
Definition ranges (a : aanode L) (m : message) (l : list message) : Prop :=
  (exists ms, ranges_over L a m (Some ms)) /\ forall r, ranges_over L a m r -> exists ms, r = Some ms /\ forall x, In x ms <-> In x l.
Lemma ranges_exactly a m l : (forall r, ranges_over L a m r <-> r = Some l) -> ranges a m l.
Proof. intro H. split; [exists l; apply H; auto|]. intros r HR. exists l. split; [apply H; auto|tauto]. Qed.
Lemma ranges_any a m l n : ranges a m l -> (means L p (NQuant QAny a n) m <-> Exists (means L p n) l).
Proof.
  intros [(ms & HM) H]. cbn [means]. rewrite Exists_exists. split.
  - intros (ms' & x & HR & HX & HN). destruct (H _ HR) as (ms0 & E & HE). injection E as <-. exists x. split; auto. apply HE. auto.
  - intros (x & HX & HN). destruct (H _ HM) as (ms0 & E & HE). injection E as <-. exists ms, x. split; auto. split; auto. apply HE. auto.
Qed.
Lemma ranges_all a m l n : ranges a m l -> (means L p (NQuant QAll a n) m <-> Forall (means L p n) l).
Proof.
  intros [(ms & HM) H]. cbn [means]. rewrite Forall_forall. split.
  - intros [_ HA] x HX. apply (HA ms); auto. destruct (H _ HM) as (ms0 & E & HE). injection E as <-. apply HE. auto.
  - intro HA. split; [eauto|]. intros ms' x HR HX. destruct (H _ HR) as (ms0 & E & HE). injection E as <-. apply HA, HE. auto.
Qed.
Lemma ranges_covered q a m l n : ranges a m l -> Forall (covered L p n) l -> covered L p (NQuant q a n) m.
Proof.
  intros [(ms & HM) H] HC. rewrite Forall_forall in HC. cbn [covered]. split; [eauto|]. intros ms' x HR HX.
  destruct (H _ HR) as (ms0 & E & HE). injection E as <-. apply HC, HE. auto.
Qed.
Lemma ranges_agree q a m m' l l' n : ranges a m l -> ranges a m' l' ->
  Forall2 (fun x x' => covered L p n x /\ covered L p n x' /\ (means L p n x <-> means L p n x')) l l' ->
  covered L p (NQuant q a n) m /\ covered L p (NQuant q a n) m' /\ (means L p (NQuant q a n) m <-> means L p (NQuant q a n) m').
Proof.
  intros R1 R2 H. split; [|split].
  - eapply ranges_covered; eauto. clear - H. induction H; constructor; tauto.
  - eapply ranges_covered; eauto. clear - H. induction H; constructor; tauto.
  - destruct q.
    + rewrite (ranges_any _ _ _ _ R1), (ranges_any _ _ _ _ R2). clear - H.
      induction H as [|x x' l l' (_ & _ & H) _ IH]; [split; intro H; inversion H|]. rewrite !Exists_cons. tauto.
    + rewrite (ranges_all _ _ _ _ R1), (ranges_all _ _ _ _ R2). clear - H.
      induction H as [|x x' l l' (_ & _ & H) _ IH]; [split; constructor|]. rewrite !Forall_cons_iff. tauto.
Qed.

(** the entries of an object *)
Lemma entries_in o es : NoDup (map fst o) -> entries o es -> forall e, In e es <-> exists kx, In kx o /\ e = GMapS [kx].
Proof.
  intros HD (ks & HP & H2) e. split.
  - intro HI. destruct (Check_proofs.Forall2_in_r _ _ _ _ H2 HI) as (k & HK & v & HA & ->). exists (k, v). split; auto. apply Lifecycle_proofs.assoc_in. auto.
  - intros ([k x] & HI & ->). assert (HK : In k ks).
    { eapply Permutation_in; [apply Permutation_sym; exact HP|]. apply (in_map fst) in HI. exact HI. }
    destruct (Check_proofs.Forall2_in_l _ _ _ _ H2 HK) as (e & HE & v & HA & ->).
    rewrite (Lifecycle_proofs.in_assoc _ _ _ HD HI) in HA. injection HA as <-. auto.
Qed.
Lemma entries_some o : NoDup (map fst o) -> entries o (map (fun kx => GMapS [kx]) o).
Proof.
  intro HD. exists (map fst o). split; [auto|].
  assert (X : forall l, incl l o -> Forall2 (fun k e => exists v, assoc k o = Some v /\ e = GMapS [(k, v)]) (map fst l) (map (fun kx => GMapS [kx]) l)).
  { induction l as [|[k x] l IH]; intro HI; constructor; [|apply IH; intros y HY; apply HI; right; auto].
    exists x. split; auto. apply Lifecycle_proofs.in_assoc; auto. apply HI. left. auto. }
  apply X. apply incl_refl.
Qed.
Definition entry_bytes (kx : string * iface) : string := match json_marshal L (GMapS [kx]) with Some t => t | None => "" end.

Lemma parsed_entries a (inner : bool) ks m d o : a_parent a = written_path inner ks -> ks <> [] -> Forall field_name ks -> m_raw m <> None ->
  (if inner then m_raw_rel m else m_raw m) = Some d -> at_path ks d (Some (GMapS o)) -> NoDup (map fst o) ->
  ranges a m (map (fun kx => set_raw_rel m (Some (GMapS [kx]))) o).
Proof.
  intros EP HN HF RW HD HA ND.
  assert (EP' : a_parent a = written_path inner ks ++ "") by (rewrite append_nil_r; auto).
  assert (HM : In "" marks) by (left; reflexivity).
  destruct (parsed_general a inner ks "" m d (GMapS o) EP' HF HM RW HD (query_value ks d _ HN HF HA) (HAcc ks "" HN HF HM)) as [R1 R2].
  split.
  - eexists. apply R2. apply (ar_object o). apply entries_some. auto.
  - intros r HR. apply R1 in HR. destruct HR as (part & HP & ->). exists (map (fun e => set_raw_rel m (Some e)) part). split; auto.
    intro x. rewrite !in_map_iff. inversion HP as [o' es HE| | |]; subst. pose proof (entries_in _ _ ND HE) as EI. split.
    + intros (e & <- & HI). apply EI in HI. destruct HI as (kx & HI & ->). eauto.
    + intros (kx & <- & HI). exists (GMapS [kx]). split; auto. apply EI. eauto.
Qed.
Lemma raw_entries a (inner : bool) ks m d t o : a_parent a = written_path inner ks -> ks <> [] -> Forall field_name ks -> m_raw m = None ->
  (if inner then m_json_rel m else m_json m) = Some t -> laid_out L d t -> at_path ks d (Some (GMapS o)) ->
  Forall (fun kx => no_html (fst kx) /\ as_printed L (snd kx)) o ->
  ranges a m (map (fun kx => set_json_rel m (Some (entry_bytes kx))) o).
Proof.
  intros EP HN HF RW HD HO HA HP.
  assert (EP' : a_parent a = written_path inner ks ++ "") by (rewrite append_nil_r; auto).
  assert (HM : In "" marks) by (left; reflexivity).
  pose proof (found_bytes a inner ks "" m t EP' HF HM HD) as FB. rewrite append_nil_r in FB.
  destruct (proj1 HText ks d t _ HN HF HO HA) as (s & EF & HS). rewrite EF in FB.
  pose proof (proj2 (proj2 HText) _ _ HS) as HU. pose proof (object_distinct _ _ _ HU) as ND.
  assert (PR : forall kx, In kx o -> json_marshal L (GMapS [kx]) = Some (entry_bytes kx)).
  { intros [k x] HI. rewrite Forall_forall in HP. destruct (HP _ HI) as [H1 H2]. destruct (entry_printed _ _ _ _ _ HU HI H1 H2) as (u & E & _). unfold entry_bytes. rewrite E. auto. }
  assert (JO : joined [Some s] = s).
  { unfold joined. cbn [flat_map app filter]. pose proof (plain_nonempty _ _ _ HS) as NE. apply String.eqb_neq in NE. rewrite NE. reflexivity. }
  assert (L2 : (2 <= String.length s)%nat).
  { inversion HS; subst; cbn [append String.length]; rewrite length_append; simpl; lia. }
  assert (UB : exists r, ugly L s = "{" ++ r) by (inversion HU; subst; eexists; reflexivity).
  assert (OP : forall u, opened L s u <-> u = Some (ugly L s)).
  { intro u. assert (X : opened L s (Some (ugly L s))) by (destruct UB as [r ER]; apply op_flat; rewrite ?ER; auto; try discriminate; intros [r' E]; discriminate E).
    split; [|intros ->; auto]. intro H. apply unnest_iff in H, X. congruence. }
  pose proof (out_parses _ _ (compact_out _ _ HU)) as HJ.
  split.
  - eexists. right. split; auto. exists (Some (map entry_bytes o)). split; [|reflexivity].
    eapply (rw_entries L a m [Some s] s (ugly L s) o (map (fun kx => GMapS [kx]) o)); auto; [apply FB; auto|rewrite JO; apply OP; auto|apply entries_some; auto|].
    clear - PR. induction o as [|kx o IH]; constructor; [apply PR; left; auto|apply IH; intros; apply PR; right; auto].
  - intros r [(E & _)|(_ & x & HX & ->)]; [congruence|].
    destruct HX as [rs F E|rs u F E O|rs u0 u os F E O S P|rs u0 u obj es us F E O S HJ' HE H2|rs u0 u obj es e F E O S HJ' HE HI HB|rs u0 u F E O S HJ']; apply FB in F; subst rs; cbn [last] in E; try discriminate E;
      rewrite JO in O; apply OP in O; try discriminate O; injection O as ->.
    + exfalso. apply S. exact UB.
    + rewrite HJ in HJ'. injection HJ' as <-. eexists. split; [reflexivity|]. pose proof (entries_in _ _ ND HE) as EI. intro x. rewrite !in_map_iff. split.
      * intros (u & <- & HI). destruct (Check_proofs.Forall2_in_r _ _ _ _ H2 HI) as (e & HIe & HB). apply EI in HIe. destruct HIe as (kx & HK & ->).
        rewrite (PR kx HK) in HB. injection HB as <-. eauto.
      * intros (kx & <- & HI). assert (HIe : In (GMapS [kx]) es) by (apply EI; eauto). destruct (Check_proofs.Forall2_in_l _ _ _ _ H2 HIe) as (u & HIu & HB).
        rewrite (PR kx HI) in HB. injection HB as <-. eauto.
    + exfalso. rewrite HJ in HJ'. injection HJ' as <-. apply (entries_in _ _ ND HE) in HI. destruct HI as (kx & HK & ->). rewrite (PR kx HK) in HB. discriminate HB.
    + exfalso. eapply HJ'. eauto.
Qed.
(** null *)
Lemma raw_null a (inner : bool) ks m d t : a_parent a = written_path inner ks -> ks <> [] -> Forall field_name ks -> m_raw m = None ->
  (if inner then m_json_rel m else m_json m) = Some t -> laid_out L d t -> at_path ks d (Some GNil) -> forall r, ranges_over L a m r <-> r = Some [].
Proof.
  intros EP HN HF RW HD HO HA.
  assert (EP' : a_parent a = written_path inner ks ++ "") by (rewrite append_nil_r; auto).
  assert (HM : In "" marks) by (left; reflexivity).
  pose proof (found_bytes a inner ks "" m t EP' HF HM HD) as FB. rewrite append_nil_r in FB.
  destruct (proj1 HText ks d t _ HN HF HO HA) as (s & EF & HS). rewrite EF in FB. pose proof (proj2 (proj2 HText) _ _ HS) as HU.
  assert (s = "null") as -> by (inversion HS; auto). assert (EU : ugly L "null" = "null") by (inversion HU; auto).
  assert (OP : forall u, opened L "null" u <-> u = Some "null").
  { intro u. assert (X : opened L "null" (Some (ugly L "null"))) by (apply op_flat; rewrite ?EU; [simpl; lia|discriminate|discriminate|intros [r E]; discriminate E]). rewrite EU in X.
    split; [|intros ->; auto]. intro H. apply unnest_iff in H, X. congruence. }
  assert (PC : forall os, pieces "null" os <-> os = []).
  { assert (E : split_objects "null" = Some []) by reflexivity. intro os. split.
    - intro H. assert (E2 : split_objects "null" = Some os) by (apply split_pieces; split; auto; intros [r H0]; discriminate H0). congruence.
    - intros ->. apply split_pieces in E. apply E. }
  intro r. unfold ranges_over. split.
  - intros [(E & _)|(_ & x & HX & ->)]; [congruence|].
    destruct HX as [rs F E|rs u F E O|rs u0 u os F E O S P|rs u0 u obj es us F E O S|rs u0 u obj es e F E O S|rs u0 u F E O S]; apply FB in F; subst rs; cbn [last] in E; try discriminate E;
      change (joined [Some "null"]) with "null" in O; apply OP in O; try discriminate O; injection O as ->; try (destruct S as [? S]; discriminate S).
    apply PC in P. subst os. reflexivity.
  - intros ->. right. split; auto. exists (Some []). split; auto.
    eapply (rw_pieces L a m [Some "null"] "null" "null"); auto; [apply FB; auto|apply OP; auto|intros [? S]; discriminate S|apply PC; auto].
Qed.

Theorem twins_agree n : forall m m', indifferent L p n m -> twins L m m' ->
  covered L p n m /\ covered L p n m' /\ (means L p n m <-> means L p n m').
Proof.
  induction n as [ns IH|ns IH|n IH|q a n IH| | |c|] using node_ind'; intros m m' HI HT.
  - inversion HI as [| | | |ns' m0 HF| | | | | | | | |]; subst. clear HI. cbn [covered means]. induction IH as [|n ns IHn IH IHns]; [cbn; tauto|]. inversion HF as [|? ? F1 F2]; subst.
    destruct (IHn m m' F1 HT) as (A1 & A2 & A3). destruct (IHns F2) as (B1 & B2 & B3). cbn [fold_right]. tauto.
  - inversion HI as [| | | | |ns' m0 HF| | | | | | | |]; subst. clear HI. cbn [covered means]. induction IH as [|n ns IHn IH IHns]; [cbn; tauto|]. inversion HF as [|? ? F1 F2]; subst.
    destruct (IHn m m' F1 HT) as (A1 & A2 & A3). destruct (IHns F2) as (B1 & B2 & B3). cbn [fold_right]. tauto.
  - inversion HI; subst. destruct (IH m m') as (H1 & H2 & H3); auto. cbn [covered means]. tauto.
  - assert (RW : m_raw m <> None) by (destruct HT as (_ & _ & (d0 & t0 & A1 & _) & _); congruence).
    assert (RW' : m_raw m' = None) by apply HT.
    assert (M0 : In "" marks) by (left; reflexivity).
    assert (AN : forall part, arranged GNil part <-> part = []) by (intro part; split; [intro H; inversion H; auto|intros ->; constructor]).
    inversion HI as [| | | | | | | |q0 a0 n0 m0 inner ks mark d l EP HN HF HM HD HA HL HE|a0 n0 m0 inner ks mark d EP HN HF HM HD HA| |
      |q0 a0 n0 m0 inner ks d o EP HN HF HD HA HP HE|q0 a0 n0 m0 inner ks d EP HN HF HD HA]; subst;
      destruct (twin_document _ _ _ _ HT HD) as (t & HD' & HO).
    + pose proof (parsed_range a inner ks mark m d (GArr l) l EP HF HM RW HD (fun q' HJ => query_elements ks mark d l q' HN HF HM HJ HA) (HAcc ks mark HN HF HM) (fun part => arranged_objects l part HL)) as R1.
      destruct (raw_range a inner ks mark m' d t l EP HN HF HM RW' HD' HO HA HL) as (ts & H2 & R2).
      apply (ranges_agree q a m m' _ _ n (ranges_exactly _ _ _ R1) (ranges_exactly _ _ _ R2)).
      clear - HE H2 IH HT HPath HText HAcc HEnt. induction H2 as [|e u l ts HC H2 IH2]; constructor; inversion HE; subst; auto. apply IH; auto. apply element_twins; auto.
    + pose proof (parsed_range a inner ks mark m d GNil [] EP HF HM RW HD (query_nothing ks mark d HN HF HM HA) (HAcc ks mark HN HF HM) AN) as R1.
      destruct (raw_range_nothing a inner ks mark m' d t EP HN HF HM RW' HD' HO HA) as (r & HR & R2).
      assert (N2 : forall ms, ranges_over L a m' (Some ms) -> ms = []) by (intros ms H; apply R2 in H; destruct HR; congruence).
      cbn [covered means]. split; [|split].
      * split; [eexists; apply R1; reflexivity|]. intros ms x H HX. apply R1 in H. injection H as ->. destruct HX.
      * split; [eexists; apply R2; reflexivity|]. intros ms x H HX. rewrite (N2 _ H) in HX. destruct HX.
      * split; intros (ms & x & H & HX & _); exfalso; [apply R1 in H; injection H as ->; destruct HX|rewrite (N2 _ H) in HX; destruct HX].
    + destruct (proj1 HText ks d t _ HN HF HO HA) as (s & _ & HS). pose proof (object_distinct _ _ _ HS) as ND.
      apply (ranges_agree q a m m' _ _ n (parsed_entries a inner ks m d o EP HN HF RW HD HA ND) (raw_entries a inner ks m' d t o EP HN HF RW' HD' HO HA HP)).
      assert (X : forall o', incl o' o -> Forall2 (fun x x' => covered L p n x /\ covered L p n x' /\ (means L p n x <-> means L p n x'))
        (map (fun kx => set_raw_rel m (Some (GMapS [kx]))) o') (map (fun kx => set_json_rel m' (Some (entry_bytes kx))) o')).
      { rewrite Forall_forall in HE, HP. induction o' as [|[k x] o' IHo]; intro HIn; constructor; [|apply IHo; intros y HY; apply HIn; right; auto].
        assert (HK : In (k, x) o) by (apply HIn; left; auto). apply IH; [apply HE; auto|]. apply element_twins; auto.
        destruct (HP _ HK) as [P1 P2]. destruct (entry_printed _ _ _ _ _ HS HK P1 P2) as (u & E & HC). unfold entry_bytes. rewrite E. auto. }
      apply X. apply incl_refl.
    + pose proof (parsed_range a inner ks "" m d GNil [] ltac:(rewrite append_nil_r; auto) HF M0 RW HD (query_value ks d _ HN HF HA) (HAcc ks "" HN HF M0) AN) as R1.
      apply (ranges_agree q a m m' _ _ n (ranges_exactly _ _ _ R1) (ranges_exactly _ _ [] (raw_null a inner ks m' d t EP HN HF RW' HD' HO HA))). constructor.
  - cbn [covered means]. tauto.
  - cbn [covered means]. tauto.
  - apply condition_twins; auto.
  - inversion HI.
Qed.

End WithPredef.
End WithLib.
