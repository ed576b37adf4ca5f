(** Mongo queries select the documents the engine accepts. *)
From Coq Require Import List String Ascii Bool Arith ZArith Floats.SpecFloat Permutation Lia.
From Verif Require Import Base GoStr GoStr_facts GoFloat Types Json StrUtils Validate Prepare Eval Mongo Spec_Glob Spec_Tree Spec_Leaf Spec_Names Spec_Mongo
  Tree_proofs Tree_truth Tree_laws Glob_proofs Number_proofs Validate_proofs Match_proofs Leaf_proofs Leaf_laws Prepare_proofs MongoNames_proofs Mongo_proofs Parse Lifecycle Check Spec_Load Load_proofs Spec_MongoMatch.
Import ListNotations.
Open Scope string_scope.

(** ** Paths in documents *)
Lemma at_path_fun ks d w w' : at_path ks d w -> at_path ks d w' -> w = w'.
Proof.
  intro H. revert w'. induction H as [v|k ks o x w HA H IH|k ks o HA|k ks v N1 N2]; intros w' H'; inversion H' as [|? ? ? x' ? HA' H''|? ? ? HA'|? ? ? N1' N2']; subst; auto; try congruence.
  - apply IH. congruence.
  - exfalso. eapply N1'; eauto.
  - exfalso. eapply N1; eauto.
Qed.
Lemma at_path_app ks ks' d v w : at_path ks d (Some v) -> at_path ks' v w -> at_path (ks ++ ks')%list d w.
Proof.
  intro H. remember (Some v) as s. revert Heqs. induction H; intros E H'; simpl; try discriminate.
  - injection E as <-. auto.
  - eapply ap_member; eauto.
Qed.
Lemma reach_at ks d w : at_path ks d w -> reach ks d = match w with Some v => [v] | None => [] end.
Proof.
  induction 1; cbn [reach]; auto.
  - cbn [under member]. rewrite H. cbn [map List.concat]. rewrite app_nil_r. auto.
  - cbn [under member]. rewrite H. auto.
  - destruct v; auto; [destruct (H0 l); auto|destruct (H m); auto].
Qed.

(** ** Names *)
Definition path_char (c : ascii) : Prop := name_char c \/ c = "."%char.
Lemma dotted_cons k j ks : dotted (k :: j :: ks) = k ++ "." ++ dotted (j :: ks).
Proof. reflexivity. Qed.
Lemma dotted_app bs ks : bs <> [] -> ks <> [] -> dotted (bs ++ ks)%list = dotted bs ++ "." ++ dotted ks.
Proof.
  intros HB HK. induction bs as [|b bs IH]; [congruence|]. destruct bs as [|b' bs].
  - destruct ks; [congruence|]. reflexivity.
  - change ((b :: b' :: bs) ++ ks)%list with (b :: b' :: (bs ++ ks))%list. rewrite !dotted_cons.
    change (b' :: (bs ++ ks))%list with ((b' :: bs) ++ ks)%list. rewrite IH by discriminate. rewrite !append_assoc. auto.
Qed.
Lemma dotted_chars ks : Forall field_name ks -> all_chars path_char (dotted ks).
Proof.
  induction 1 as [|k ks [_ HK] HF IH]; [simpl; auto|]. destruct ks as [|j ks].
  - unfold dotted. simpl. eapply all_chars_impl; [|exact HK]. intros. left. auto.
  - rewrite dotted_cons. apply all_chars_app. split; [eapply all_chars_impl; [|exact HK]; intros; left; auto|].
    simpl. split; [right; auto|auto].
Qed.
Lemma name_no c : ~ name_char c -> forall s, all_chars name_char s -> all_chars (fun x => x <> c) s.
Proof. intros H s HS. eapply all_chars_impl; [|exact HS]. intros x HX E. subst. auto. Qed.
Lemma path_no c : ~ path_char c -> forall s, all_chars path_char s -> all_chars (fun x => x <> c) s.
Proof. intros H s HS. eapply all_chars_impl; [|exact HS]. intros x HX E. subst. auto. Qed.
Ltac not_char := unfold path_char, name_char; cbv zeta; repeat match goal with |- context [nat_of_ascii ?c] => let n := eval vm_compute in (nat_of_ascii c) in change (nat_of_ascii c) with n end; intuition (lia || discriminate).
Lemma split_app s r : all_chars (fun c => c <> "."%char) s -> split_char "." (s ++ "." ++ r) = s :: split_char "." r.
Proof.
  induction s as [|c s IH]; [reflexivity|]. intros [HC HS]. cbn [append split_char]. rewrite (proj2 (Ascii.eqb_neq c ".") HC). 
  change (s ++ String "." r) with (s ++ "." ++ r). rewrite IH by auto. auto.
Qed.
Lemma split_one s : all_chars (fun c => c <> "."%char) s -> split_char "." s = [s].
Proof. induction s as [|c s IH]; [reflexivity|]. intros [HC HS]. cbn [split_char]. rewrite (proj2 (Ascii.eqb_neq c ".") HC), IH by auto. auto. Qed.
Lemma split_dotted ks : ks <> [] -> Forall field_name ks -> split_char "." (dotted ks) = ks.
Proof.
  intros HN HF. induction HF as [|k ks [_ HK] HF IH]; [congruence|]. assert (HD : all_chars (fun c => c <> "."%char) k) by (apply name_no; auto; not_char).
  destruct ks as [|j ks]; [apply split_one; auto|]. rewrite dotted_cons, split_app by auto. rewrite IH by discriminate. auto.
Qed.
Lemma dotted_nonempty ks : ks <> [] -> Forall field_name ks -> dotted ks <> "" /\ ~ starts "." (dotted ks).
Proof.
  intros HN HF. destruct ks as [|k ks]; [congruence|]. inversion HF as [|? ? [H1 H2] HF']; subst. destruct k as [|c k]; [congruence|].
  destruct H2 as [HC _]. assert (c <> "."%char) by (intros ->; revert HC; not_char).
  destruct ks; unfold dotted; simpl; (split; [discriminate|intros [r E]; simpl in E; injection E; intros; congruence]).
Qed.
Lemma dots_apart k r : all_chars name_char k -> occurs ".." (k ++ r) -> occurs ".." r.
Proof.
  induction k as [|c k IH]; intros HK HO; [exact HO|]. destruct HK as [HC HK]. apply occurs_cons in HO. destruct HO as [[b E]|HO]; [|auto].
  simpl in E. injection E as E1 E2. subst c. exfalso. revert HC. not_char.
Qed.
Lemma dotted_single ks : Forall field_name ks -> ~ occurs ".." (dotted ks).
Proof.
  induction 1 as [|k ks [HN HK] HF IH]; [intros (a & b & E); destruct a; discriminate|]. destruct ks as [|j ks].
  - unfold dotted. simpl. intro HO. rewrite <- (append_nil_r k) in HO. apply dots_apart in HO; auto.
  - rewrite dotted_cons. intro HO. apply dots_apart in HO; auto. apply (occurs_cons ".." "."%char) in HO. destruct HO as [[b E]|HO]; [|auto].
    simpl in E. injection E as E. apply (dotted_nonempty (j :: ks)); [discriminate|auto|]. exists b. auto.
Qed.

Lemma plain_dotted ks : Forall field_name ks -> remove_quotes (dotted ks) = Ok (dotted ks).
Proof.
  intro HF. apply plain_field; [|apply dotted_single; auto]. pose proof (dotted_chars ks HF) as HC. induction (dotted ks) as [|c s IH]; [constructor|].
  destruct HC as [HC HS]. apply ft_keep; auto; intro E; subst; revert HC; [|not_char|not_char]. destruct E as [->| ->]; not_char.
Qed.
Lemma unmarked s mark : all_chars path_char s -> In mark ["[:]"; "[*]"] -> without_marks (s ++ mark) s.
Proof.
  intros HS HM. induction s as [|c s IH].
  - destruct HM as [<-|[<-|[]]]; [apply (wm_colon "" ""); constructor|apply (wm_star "" ""); constructor].
  - destruct HS as [HC HS]. cbn [append]. apply wm_keep; auto. intros ->. exfalso. revert HC. not_char.
Qed.
Lemma no_dollar s w : all_chars (fun c => c <> "$"%char) s -> ~ occurs ("jsonpath:$" ++ w) s.
Proof.
  intros HS (a & b & ->). apply all_chars_app in HS. destruct HS as [_ HS]. simpl in HS. intuition congruence.
Qed.
Lemma mark_no_dollar mark : In mark ["[:]"; "[*]"] -> all_chars (fun c => c <> "$"%char) mark.
Proof. intros [<-|[<-|[]]]; simpl; repeat split; discriminate. Qed.
Lemma path_no_dollar s : all_chars path_char s -> all_chars (fun c => c <> "$"%char) s.
Proof. apply path_no. not_char. Qed.

Definition field_of (inner : bool) (bs ks : list string) : list string := if inner then ks else (bs ++ ks)%list.
Lemma field_of_names inner bs ks : ks <> [] -> Forall field_name bs -> Forall field_name ks -> field_of inner bs ks <> [] /\ Forall field_name (field_of inner bs ks).
Proof.
  intros H1 H2 H3. destruct inner; simpl; auto. split; [intro E; apply app_eq_nil in E; tauto|apply Forall_app; auto].
Qed.
Lemma quant_field inner bs ks mark : inner = true \/ bs <> [] -> ks <> [] -> Forall field_name bs -> Forall field_name ks -> In mark ["[:]"; "[*]"] ->
  parent_field (dotted bs) ("jsonpath:" ++ written_path inner ks ++ mark) = dotted (field_of inner bs ks).
Proof.
  intros HI HK HB HF HM. apply parent_name_fun. pose proof (dotted_chars ks HF) as C1. pose proof (dotted_chars bs HB) as C2. destruct inner; unfold written_path, field_of.
  - apply (pn_relative (dotted bs) (dotted ks ++ mark)); [|apply unmarked; auto].
    apply (no_dollar _ ""). apply all_chars_app. split; [apply path_no_dollar; auto|apply mark_no_dollar; auto].
  - destruct HI as [HI|HI]; [discriminate|]. rewrite dotted_app by auto. change ("jsonpath:" ++ ("$." ++ dotted ks) ++ mark) with ("jsonpath:$." ++ (dotted ks ++ mark)).
    apply pn_root.
    + apply (no_dollar _ ""). apply all_chars_app. split; [apply path_no_dollar; auto|]. simpl. split; [discriminate|]. apply all_chars_app. split; [apply path_no_dollar; auto|apply mark_no_dollar; auto].
    + replace (dotted bs ++ "." ++ dotted ks ++ mark) with ((dotted bs ++ "." ++ dotted ks) ++ mark) by (rewrite !append_assoc; auto).
      apply unmarked; auto. apply all_chars_app. split; auto. simpl. split; auto. right. auto.
Qed.
Lemma cond_field inner bs ks parent depth : ks <> [] -> Forall field_name bs -> Forall field_name ks ->
  mongo_field (dotted bs) parent depth ("jsonpath:" ++ written_path inner ks) = Ok (dotted (field_of inner bs ks), []).
Proof.
  intros HK HB HF. rewrite mongo_field_spec.
  assert (HE : entryb ("jsonpath:" ++ written_path inner ks) = false /\ has_prefix ("jsonpath:" ++ written_path inner ks) "jsonpath:$KEY" = false).
  { unfold entryb, written_path. destruct inner; split; reflexivity. }
  destruct HE as [-> ->]. cbn [andb]. f_equal. f_equal. apply cond_name_fun. destruct inner; unfold written_path, field_of.
  - apply cn_relative.
  - destruct bs as [|b bs].
    + apply cn_bare. reflexivity.
    + rewrite dotted_app by (auto; discriminate). apply cn_root. apply dotted_nonempty; [discriminate|auto].
Qed.

(** ** Queries of conditions *)
Section WithLib.
Variable L : Lib.
Notation cond := (cond L).
Notation node := (node L).
Local Notation holds_at := (truth L (leaf_truth L) (contexts L)).

Definition query_kind (k : kind) : kind := match k with KIn => KRe | KNin => KNre | _ => k end.
Definition query_value (k : kind) (v : string) : string := match k with KIn | KNin => list_to_alternatives v | _ => v end.
Lemma final_kind method k : method_is method k -> method_is (final_method method) (query_kind k) /\ final_method method <> "IS" /\
  (~ In method ["in"; "nin"] -> ~ In (final_method method) ["IN"; "NIN"; "in"; "nin"]) /\ forall v, final_value method v = query_value k v.
Proof.
  intro H. unfold method_is, method_words in H. simpl in H.
  repeat (destruct H as [H|H]; [injection H; intros; subst; clear H; (split; [unfold method_is, method_words; simpl; tauto|split; [discriminate|split; [|reflexivity]]]);
     simpl; intuition discriminate|]). destruct H.
Qed.

Lemma orig_attr p att method value ret c : prepares L p att method value ret c -> og_attr (c_orig c) = att.
Proof.
  intros (c0 & HV & H). apply validate_ok in HV. destruct HV as (-> & _).
  unfold prepare_condition in H. apply rbind_ok in H. destruct H as (cr & HR & H). apply replaced_ok in HR. destruct HR as (v & _ & ->).
  apply rbind_ok in H. destruct H as (c1 & HV & H). apply rbind_ok in H. destruct H as (c4 & HC & H).
  apply validate_ok in HV. destruct HV as (-> & _). apply convert_ok in HC. destruct HC as (c2 & c3 & H2 & H3 & H4 & _).
  apply labels_keep in H2. apply objects_keep in H3. destruct H2 as (_ & O2 & _), H3 as (_ & O3 & _).
  assert (EO : c_orig c = c_orig c4) by (destruct (j_is (c_jp c4)); [apply rbind_ok in H; destruct H as (q & _ & H)|]; injection H as <-; auto).
  assert (E4 : c_orig c4 = c_orig c3).
  { destruct (has_prefix (c_attr c3) "jsonpath:") eqn:EP; [apply handle_jsonpath_ok in H4; auto; destruct H4 as (rel & net & -> & _); auto|].
    rewrite handle_jsonpath_none in H4 by auto. injection H4 as <-. auto. }
  rewrite EO, E4, O3, O2. auto.
Qed.

Lemma written_path_of inner ks : ks <> [] -> Forall field_name ks -> path_of ("jsonpath:" ++ written_path inner ks) inner ("$." ++ dotted ks).
Proof.
  intros HN HF. pose proof (dotted_chars ks HF) as HC.
  assert (HP : path_chars ("." ++ dotted ks)).
  { split.
    - simpl. split; [intros [E|[E|[E|[]]]]; discriminate|]. eapply all_chars_impl; [|exact HC]. intros c H [E|[E|[E|[]]]]; subst; revert H; not_char.
    - intros a b E. assert (HA : all_chars path_char ("." ++ dotted ks)) by (simpl; split; [right; auto|auto]). rewrite E in HA.
      apply all_chars_app in HA. destruct HA as [_ (_ & HA & _)]. revert HA. not_char. }
  destruct inner; unfold written_path.
  - apply (po_relative ("." ++ dotted ks)); auto. exists (dotted ks). auto.
  - apply (po_absolute ("." ++ dotted ks)); auto. exists (dotted ks). auto.
Qed.

Lemma cond_query p bs inner ks method value ret c : ks <> [] -> Forall field_name bs -> Forall field_name ks -> ~ In method ["in"; "nin"] ->
  prepares L p ("jsonpath:" ++ written_path inner ks) method value ret c ->
  exists q, (forall parent depth, mongo_cond L (dotted bs) parent depth c = Ok (q, [])) /\
    forall v k, replaced p method value v -> plain_value v -> method_is method k -> operation L (dotted (field_of inner bs ks)) (query_value k v) (query_kind k) q.
Proof.
  intros HK HB HF HM HP. pose proof (written_path_of inner ks HK HF) as HW. destruct (prepared_path_condition L _ _ _ _ _ _ _ _ HP HW) as (EA & _ & EM & _).
  pose proof (orig_attr _ _ _ _ _ _ HP) as EO.
  assert (HK' : exists k, method_is method k).
  { destruct HP as (c0 & HV & _). apply validate_ok in HV. destruct HV as (_ & _ & HV & _). unfold validate_method in HV. cbn [written c_method c_attr c_value] in HV.
    destruct (contains_string supported_methods method) eqn:EC; [|discriminate]. apply is_any_iff in EC. clear - EC. unfold supported_methods in EC. simpl in EC.
    repeat (destruct EC as [<-|EC]; [eexists; unfold method_is, method_words; simpl; tauto|]). destruct EC. }
  destruct HK' as (k0 & HK0). destruct (final_kind _ _ HK0) as (F1 & F2 & F3 & F4).
  pose proof (method_query_spec L _ _ (dotted (field_of inner bs ks)) (c_value c) F1 F2) as HQ.
  destruct (method_query L (final_method method) (dotted (field_of inner bs ks)) (c_value c)) as [q| |] eqn:EQ; [|destruct (F3 HM HQ)|destruct HQ].
  exists q. split.
  - intros parent depth. unfold mongo_cond. rewrite EA, EO. cbn [String.eqb negb Ascii.eqb Bool.eqb].
    change (negb (String.eqb "jsonpath" "jsonpath")) with false. rewrite cond_field by auto. cbn [rbind fst snd].
    rewrite plain_dotted by (apply field_of_names; auto). cbn [rbind]. rewrite EM, EQ. reflexivity.
  - intros v k HR HV HM'. destruct (final_kind _ _ HM') as (_ & _ & _ & F5).
    assert (EK : k = k0).
    { clear - HM' HK0. unfold method_is, method_words in *. simpl in *.
      repeat (destruct HM' as [HM'|HM']; [injection HM'; intros; subst; repeat (destruct HK0 as [HK0|HK0]; [injection HK0; intros; subst; try reflexivity; discriminate|]); destruct HK0|]). destruct HM'. }
    subst k0. destruct HQ as [HQ _].
    assert (HS : starts "jsonpath:" ("jsonpath:" ++ written_path inner ks)) by (exists (written_path inner ks); auto).
    destruct (prepared_jsonpath L _ _ _ _ _ _ _ _ HP HS HR HV HM') as ((_ & _ & method' & M1 & M2 & M3 & _) & _).
    destruct (final_kind _ _ M1) as (_ & _ & _ & F6). rewrite F6 in M3. rewrite <- M3. exact HQ.
Qed.

(** ** Matching of one field *)
Lemma field_query ks D b : ks <> [] -> Forall field_name ks -> matches L (BDoc [(dotted ks, b)]) (Document D) = matches L b (Field (reach ks D)).
Proof.
  intros HK HF. cbn [matches]. pose proof (dotted_chars ks HF) as HC.
  assert (HN : forall w, String.eqb (dotted ks) (String "$" w) = false).
  { intro w. apply String.eqb_neq. intro E. rewrite E in HC. destruct HC as [HC _]. revert HC. not_char. }
  rewrite !HN, split_dotted by auto. apply andb_true_r.
Qed.
Definition values_of (w : option iface) : list iface := match w with Some v => [v] | None => [] end.
Definition status_at_path (w : option iface) : status := match w with Some u => value_status L u | None => Missing end.

(** the meaning of a query on the values of its field *)
Definition selects (k : kind) (v : string) (vs : list iface) : Prop :=
  let some := fun f => existsb f (with_elements vs) = true in let b := mongo_value L v in
  match k with
  | KEq => some (same_value b)
  | KNeq | KNe => ~ some (same_value b)
  | KGt => some (fun u => more_than u b)
  | KGe => some (fun u => more_than u b || same_value b u)
  | KLt => some (fun u => less_than u b)
  | KLe => some (fun u => less_than u b || same_value b u)
  | KEx => vs <> []
  | KNex => vs = []
  | KRe => exists re, re_compile L v = Some re /\ some (fun u => match u with GStr t => re_match L re t | _ => false end)
  | KNre => vs <> [] /\ forall re, re_compile L v = Some re -> ~ some (fun u => match u with GStr t => re_match L re t | _ => false end)
  | _ => False
  end.
Lemma compared_value v b : compared L v b -> b = mongo_value L v.
Proof. unfold mongo_value. intros [x E|E]; rewrite E; auto. Qed.
Lemma operation_selects ks D v k q : ks <> [] -> Forall field_name ks -> operation L (dotted ks) v k q ->
  (matches L q (Document D) = true <-> selects k v (reach ks D)).
Proof.
  intros HK HF H. destruct H as [k o b HI HC| | | |].
  - rewrite field_query by auto. apply compared_value in HC. subst b. simpl in HI.
    repeat (destruct HI as [HI|HI]; [injection HI; intros; subst k o; cbn [matches]; rewrite andb_true_r; unfold operator, selects; cbn [String.eqb Ascii.eqb Bool.eqb];
      try reflexivity; rewrite negb_true_iff; rewrite <- not_true_iff_false; reflexivity|]). destruct HI.
  - rewrite field_query by auto. cbn [matches]. rewrite andb_true_r. unfold operator, selects. cbn [String.eqb Ascii.eqb Bool.eqb]. destruct (reach ks D); simpl; split; congruence.
  - rewrite field_query by auto. cbn [matches]. rewrite andb_true_r. unfold operator, selects. cbn [String.eqb Ascii.eqb Bool.eqb]. destruct (reach ks D); simpl; split; congruence.
  - rewrite field_query by auto. cbn [matches]. rewrite andb_true_r. unfold operator, selects. cbn [String.eqb Ascii.eqb Bool.eqb].
    destruct (re_compile L v) as [re|]; split; [eauto|intros (re' & E & H); injection E as <-; exact H|discriminate|intros (re' & E & H); discriminate].
  - set (q1 := BDoc [(dotted ks, BDoc [("$not", BDoc [("$regex", BStr v)])])]). set (q2 := BDoc [(dotted ks, BDoc [("$exists", BBool true)])]).
    assert (E : matches L (BDoc [("$and", BArr [q1; q2])]) (Document D) = (matches L q1 (Document D) && (matches L q2 (Document D) && true)) && true) by reflexivity.
    rewrite E, !andb_true_r, andb_true_iff. unfold q1, q2. rewrite !field_query by auto. cbn [matches]. rewrite !andb_true_r. unfold operator, selects. cbn [String.eqb Ascii.eqb Bool.eqb].
    destruct (reach ks D) as [|u us]; [split; [intros [_ H]; discriminate|intros [H _]; congruence]|]. cbn [negb Bool.eqb]. rewrite negb_true_iff, <- not_true_iff_false.
    destruct (re_compile L v) as [re|]; (split; [intros [H _]; (split; [discriminate|]); intros re' E'; (discriminate || (injection E' as <-; exact H))|intros [_ H]; split; auto]).
Qed.

(** ** Agreement on one value *)
Lemma compare_swap x y : SFcompare y x = option_map CompOpp (SFcompare x y).
Proof.
  destruct x as [s|s| |s m e], y as [s'|s'| |s' m' e']; try destruct s; try destruct s'; try reflexivity; cbn [SFcompare option_map];
    rewrite (Z.compare_antisym e e'); change (Pos.compare_cont Eq m' m) with (Pos.compare m' m); change (Pos.compare_cont Eq m m') with (Pos.compare m m'); rewrite (Pos.compare_antisym m m'); destruct (Z.compare e e'), (Pos.compare m m'); reflexivity.
Qed.
Lemma eq_swap x y : feqb x y = feqb y x.
Proof. unfold feqb, SFeqb. rewrite (compare_swap x y). destruct (SFcompare x y) as [[]|]; reflexivity. Qed.
Lemma le_split x y : fleb x y = fltb x y || feqb x y.
Proof. unfold fleb, fltb, feqb, SFleb, SFltb, SFeqb. destruct (SFcompare x y) as [[]|]; reflexivity. Qed.

Lemma null_same v : same_value (mongo_value L v) GNil = false /\ less_than GNil (mongo_value L v) = false /\ more_than GNil (mongo_value L v) = false.
Proof. unfold mongo_value. destruct (parse_float L v); auto. Qed.
Lemma number_kinds_numeric k : In k number_kinds <-> numeric_kind k.
Proof. reflexivity. Qed.

Lemma comparable_agree v k w : comparable L v k w -> (In k [KRe; KNre; KIn; KNin] -> re_compile L (query_value k v) <> None) ->
  (satisfied L k v (status_at_path w) <-> selects (query_kind k) (query_value k v) (values_of w)).
Proof.
  intros H HRE. destruct H as [k HK|k HK|k f x (P1 & P2 & P3) (V1 & V2 & V3) HK|k f (P1 & P2 & P3) (V1 & V2) HK|k t x HC HN NT (V1 & V2 & V3) HK|k t HC HN (V1 & V2) HK|k t HC HN HK|k u t HS HT HK].
  - cbn [status_at_path satisfied values_of]. destruct k; cbn [query_kind selects with_elements map List.concat existsb]; try (exfalso; apply HK; simpl; tauto);
      split; intro HH; try discriminate; try congruence; try (destruct HH as (re & _ & E); discriminate); try (destruct HH as [E _]; congruence).
  - change (status_at_path (Some GNil)) with Missing. cbn [satisfied]. destruct (null_same v) as (N1 & N2 & N3). simpl in HK.
    repeat (destruct HK as [<-|HK]; [cbn [query_kind query_value values_of selects with_elements map List.concat existsb app]; rewrite ?N1, ?N2, ?N3;
      split; intro HH; try discriminate; destruct HH as (re & _ & HH); discriminate|]). destruct HK.
  - cbn [status_at_path]. rewrite P1. cbn [satisfied]. rewrite (holds_both L k v _ x f) by auto.
    assert (EV : mongo_value L v = BNum x) by (unfold mongo_value; rewrite V1; auto).
    assert (ES : same_value (BNum x) (GFloat f) = feqb f x) by (cbn [same_value number_of]; destruct x; try congruence; apply orb_false_r).
    simpl in HK. repeat (destruct HK as [<-|HK]; [cbn [query_kind query_value values_of selects with_elements map List.concat existsb app]; rewrite EV, ?ES; cbn [more_than less_than number_of num_op];
      rewrite ?le_split, ?orb_false_r, ?(eq_swap x f), ?negb_true_iff, <- ?not_true_iff_false; reflexivity|]). destruct HK.
  - cbn [status_at_path]. rewrite P1. cbn [satisfied].
    assert (NK : numeric_kind k) by (unfold numeric_kind; simpl in *; tauto). rewrite (holds_text L k v _) by auto.
    assert (EV : mongo_value L v = BStr v) by (unfold mongo_value; rewrite V1; auto).
    assert (NE : fmt_float L f <> v) by (intro E; rewrite E in P2; eapply V2; eauto).
    simpl in HK. repeat (destruct HK as [<-|HK]; [cbn [query_kind query_value values_of selects with_elements map List.concat existsb app]; rewrite EV; cbn [more_than less_than same_value number_of orb];
      split; intro HH; try discriminate; auto; destruct HH as [[]|[]]; congruence|]). destruct HK.
  - cbn [status_at_path]. rewrite text_status by auto. cbn [satisfied].
    assert (NK : numeric_kind k) by (unfold numeric_kind; simpl in *; tauto). rewrite (holds_rule_only L k v t x) by auto.
    assert (EV : mongo_value L v = BNum x) by (unfold mongo_value; rewrite V1; auto).
    simpl in HK. repeat (destruct HK as [<-|HK]; [cbn [query_kind query_value values_of selects with_elements map List.concat existsb app]; rewrite EV; cbn [more_than less_than same_value number_of orb];
      split; intro HH; try discriminate; auto|]). destruct HK.
  - cbn [status_at_path]. rewrite text_status by auto. cbn [satisfied].
    assert (NK : numeric_kind k) by (unfold numeric_kind; simpl in *; tauto). rewrite (holds_text L k v _) by auto.
    assert (EV : mongo_value L v = BStr v) by (unfold mongo_value; rewrite V1; auto).
    simpl in HK. repeat (destruct HK as [<-|HK]; [cbn [query_kind query_value values_of selects with_elements map List.concat existsb app]; rewrite EV; cbn [same_value]; rewrite orb_false_r;
      rewrite ?not_true_iff_false, ?String.eqb_eq, ?String.eqb_neq; (split; [intros [[]|[]]; congruence|auto])|]). destruct HK.
  - cbn [status_at_path]. rewrite text_status by auto. cbn [satisfied]. assert (HR := HRE HK). simpl in HK.
    repeat (destruct HK as [<-|HK]; [cbn [query_kind query_value values_of selects with_elements map List.concat existsb app holds] in *|]); [| | | |destruct HK].
    + split; intros (re & E & H); exists re; (split; [auto|]); rewrite ?orb_false_r in *; auto.
    + split; [intros (re & E & H); split; [discriminate|intros re' E']; rewrite E in E'; injection E' as <-; rewrite orb_false_r; congruence|].
      intros [_ H]. destruct (re_compile L v) as [re|]; [|congruence]. exists re. split; auto. specialize (H re eq_refl). rewrite orb_false_r in H. apply not_true_iff_false in H. auto.
    + split; intros (re & E & H); exists re; (split; [auto|]); rewrite ?orb_false_r in *; auto.
    + split; [intros (re & E & H); split; [discriminate|intros re' E']; rewrite E in E'; injection E' as <-; rewrite orb_false_r; congruence|].
      intros [_ H]. destruct (re_compile L (list_to_alternatives v)) as [re|]; [|congruence]. exists re. split; auto. specialize (H re eq_refl). rewrite orb_false_r in H. apply not_true_iff_false in H. auto.
  - cbn [status_at_path]. rewrite HS. cbn [satisfied]. simpl in HK. destruct HK as [<-|[<-|[]]]; cbn [query_kind query_value values_of selects holds]; split; congruence.
Qed.

(** ** Trees *)
Section TreeInd.
Variable P : tree -> Prop.
Hypothesis HC : forall ks method value, P (TCond ks method value).
Hypothesis HA : forall ts, Forall P ts -> P (TAnd ts).
Hypothesis HO : forall ts, Forall P ts -> P (TOr ts).
Hypothesis HN : forall t, P t -> P (TNot t).
Hypothesis HQ : forall q ks mark t, P t -> P (TQuant q ks mark t).
Fixpoint tree_ind' (t : tree) : P t :=
  let all := fix all (ts : list tree) : Forall P ts :=
    match ts with [] => Forall_nil P | t :: ts' => Forall_cons t (tree_ind' t) (all ts') end in
  match t with
  | TCond ks method value => HC ks method value
  | TAnd ts => HA ts (all ts)
  | TOr ts => HO ts (all ts)
  | TNot t => HN t (tree_ind' t)
  | TQuant q ks mark t => HQ q ks mark t (tree_ind' t)
  end.
End TreeInd.

(** ** The loaded form of a tree *)
Inductive loaded_as (based : bool) : bool -> tree -> node -> Prop :=
| la_cond inner ks method value ret c : ks <> [] -> Forall field_name ks -> ~ In method ["in"; "nin"] ->
    validate_condition L (written L ("jsonpath:" ++ written_path inner ks) method value ret) = Ok c ->
    loaded_as based inner (TCond ks method value) (NCond c)
| la_and inner ts ns : ts <> [] -> Forall2 (loaded_as based inner) ts ns -> loaded_as based inner (TAnd ts) (NAnd ns)
| la_or inner ts ns : ts <> [] -> Forall2 (loaded_as based inner) ts ns -> loaded_as based inner (TOr ts) (NOr ns)
| la_not inner t n : loaded_as based inner t n -> loaded_as based inner (TNot t) (NNot n)
| la_quant inner q ks mark t a n : inner = true \/ based = true -> ks <> [] -> Forall field_name ks -> In mark ["[:]"; "[*]"] ->
    a_orig a = "jsonpath:" ++ written_path inner ks ++ mark -> a_parent a = written_path inner ks ++ mark -> a_prep a = [] ->
    loaded_as based true t n -> loaded_as based inner (TQuant q ks mark t) (NQuant q a n).

Section Agreement.
Variable p : predef.
Variable bs : list string.
Hypothesis HP : PathSpec L.
Hypothesis HNum : NumberSpec L.
Hypothesis HB : Forall field_name bs.

Definition placed (inner : bool) (d D : iface) : Prop := if inner then D = d else at_path bs D (Some d).
Definition reading (inner : bool) (m : message) (d : iface) : Prop := m_raw m <> None /\ (if inner then m_raw_rel m else m_raw m) = Some d.
Definition good (inner : bool) (t : tree) (n : node) (q : bson) : Prop :=
  (forall parent depth, to_mongo L (dotted bs) parent depth n = Ok (q, [])) /\
  forall d D m b, suits L p t d -> placed inner d D -> reading inner m d -> holds_at n m b -> (b = true <-> matches L q (Document D) = true).

Lemma placed_path inner d D ks w : placed inner d D -> at_path ks d w -> at_path (field_of inner bs ks) D w.
Proof. unfold placed, field_of. destruct inner; [intros ->; auto|]. intros H1 H2. eapply at_path_app; eauto. Qed.

Lemma good_cond inner ks method value ret c c' : ks <> [] -> Forall field_name ks -> ~ In method ["in"; "nin"] ->
  validate_condition L (written L ("jsonpath:" ++ written_path inner ks) method value ret) = Ok c -> prepare_condition L p c = Ok c' ->
  exists q, good inner (TCond ks method value) (NCond c') q.
Proof.
  intros HK HF HM HV HC. assert (HPR : prepares L p ("jsonpath:" ++ written_path inner ks) method value ret c') by (exists c; auto).
  destruct (cond_query p bs inner ks method value ret c' HK HB HF HM HPR) as (q & HQ & HO). exists q. split; [exact HQ|].
  intros d D m b HS HD HR HT. inversion HS as [? ? ? v k ? w HRP HPV HMI HW HCB| | | |]; subst.
  specialize (HO v k HRP HPV HMI). pose proof (placed_path _ _ _ _ _ HD HW) as HW'.
  destruct (field_of_names inner bs ks HK HB HF) as [FN FF].
  rewrite (operation_selects _ D _ _ _ FN FF HO). rewrite (reach_at _ _ _ HW'). change (match w with Some v => [v] | None => [] end) with (values_of w).
  pose proof (written_path_of inner ks HK HF) as HWP.
  destruct (prepared_path_condition L _ _ _ _ _ _ _ _ HPR HWP) as (_ & _ & EM & _ & ER & EQ & HPQ).
  assert (HNK : ~ In ("$." ++ dotted ks) ["$KEY"; "$VALUE"]) by (intros [E|[E|[]]]; discriminate).
  destruct (query_prepared L _ _ _ _ HWP HNK HPQ) as [EP NP]. rewrite EP in NP.
  destruct (jp_prepare L ("$." ++ dotted ks)) as [jq|] eqn:EJ; [|congruence].
  assert (HSH : shows L ("jsonpath:" ++ written_path inner ks) m (status_at_path w)).
  { exists inner, ("$." ++ dotted ks). split; auto. destruct HR as [HR1 HR2].
    replace (status_at_path w) with (match asks L jq d with None => Missing | Some v => value_status L v end); [eapply sa_parsed; eauto|].
    pose proof (proj1 HP ks jq d w HK HF EJ HW) as HA. destruct w as [u|]; cbn [status_at_path]; [rewrite HA; auto|]. destruct HA as [-> | ->]; auto. }
  assert (HMR : may_return L (NCond c') m b).
  { destruct HT as (x & ord & t & s & HFO & HE). exists ord, t, x, s. auto. }
  rewrite (condition_iff L _ _ _ _ _ _ _ _ _ _ _ HNum HPR HRP HPV HMI HSH HMR).
  apply comparable_agree; auto. intro HI.
  assert (HST : starts "jsonpath:" ("jsonpath:" ++ written_path inner ks)) by (exists (written_path inner ks); auto).
  destruct (prepared_jsonpath L _ _ _ _ _ _ _ _ HPR HST HRP HPV HMI) as ((_ & _ & method' & M1 & M2 & M3 & _ & M4 & M5 & _) & _).
  destruct (final_kind _ _ M1) as (_ & _ & _ & F6). rewrite <- F6. auto.
Qed.

(** children *)
Inductive all_good (inner : bool) : list tree -> list node -> list bson -> Prop :=
| ag_nil : all_good inner [] [] []
| ag_cons t ts n ns q qs : good inner t n q -> all_good inner ts ns qs -> all_good inner (t :: ts) (n :: ns) (q :: qs).
Lemma children_query inner ts ns qs : all_good inner ts ns qs -> forall depth, rseq (map (to_mongo L (dotted bs) "" depth) ns) = Ok (map (fun q => (q, [])) qs).
Proof. induction 1 as [|t ts n ns q qs [H1 _] _ IH]; intro depth; [reflexivity|]. cbn [map rseq]. rewrite H1. cbn [rbind]. rewrite IH. reflexivity. Qed.
Lemma no_steps {A} (qs : list A) : List.concat (map snd (map (fun q => (q, @nil bson)) qs)) = [].
Proof. induction qs; auto. Qed.
Lemma all_first {A} (qs : list A) : map fst (map (fun q => (q, @nil bson)) qs) = qs.
Proof. induction qs; simpl; congruence. Qed.

Section Children.
Variables (inner : bool) (d D : iface) (m : message).
Hypothesis HD : placed inner d D.
Hypothesis HR : reading inner m d.
Lemma children_and ts ns qs : all_good inner ts ns qs -> Forall (fun t => suits L p t d) ts ->
  (fold_right (fun n r => holds_at n m true /\ r) True ns -> forallb (fun q => matches L q (Document D)) qs = true) /\
  (fold_right (fun n r => holds_at n m false \/ r) False ns -> forallb (fun q => matches L q (Document D)) qs = false).
Proof.
  induction 1 as [|t ts n ns q qs [_ H1] _ IH]; intro HS; cbn [fold_right forallb]; [tauto|]. inversion HS as [|? ? S1 S2]; subst. destruct (IH S2) as [I1 I2]. split.
  - intros [HT HF]. apply andb_true_iff. split; [apply (H1 d D m true); auto|auto].
  - intros [HT|HF]; apply andb_false_iff; [left|right; auto]. apply not_true_iff_false. intro E. apply (H1 d D m false) in E; auto. discriminate.
Qed.
Lemma children_or ts ns qs : all_good inner ts ns qs -> Forall (fun t => suits L p t d) ts ->
  (fold_right (fun n r => holds_at n m true \/ r) False ns -> existsb (fun q => matches L q (Document D)) qs = true) /\
  (fold_right (fun n r => holds_at n m false /\ r) True ns -> existsb (fun q => matches L q (Document D)) qs = false).
Proof.
  induction 1 as [|t ts n ns q qs [_ H1] _ IH]; intro HS; cbn [fold_right existsb]; [tauto|]. inversion HS as [|? ? S1 S2]; subst. destruct (IH S2) as [I1 I2]. split.
  - intros [HT|HF]; apply orb_true_iff; [left; apply (H1 d D m true); auto|right; auto].
  - intros [HT HF]. apply orb_false_iff. split; [|auto]. apply not_true_iff_false. intro E. apply (H1 d D m false) in E; auto. discriminate.
Qed.
End Children.

(** *** ANY and ALL *)
Lemma split_no_comma s : all_chars (fun c => c <> ","%char) s -> split_char "," s = [s].
Proof. induction s as [|c s IH]; [reflexivity|]. intros [HC HS]. cbn [split_char]. rewrite (proj2 (Ascii.eqb_neq c ",") HC), IH by auto. auto. Qed.
Lemma mark_no_comma mark : In mark ["[:]"; "[*]"] -> all_chars (fun c => c <> ","%char) mark.
Proof. intros [<-|[<-|[]]]; simpl; repeat split; discriminate. Qed.
Lemma parent_no_comma inner ks mark : Forall field_name ks -> In mark ["[:]"; "[*]"] -> all_chars (fun c => c <> ","%char) (written_path inner ks ++ mark).
Proof.
  intros HF HM. unfold written_path. rewrite append_assoc. apply all_chars_app. split; [destruct inner; simpl; repeat split; discriminate|].
  apply all_chars_app. split; [|apply mark_no_comma; auto]. apply path_no; [not_char|apply dotted_chars; auto].
Qed.
Lemma dollar_once rest c w : starts "." rest -> all_chars (fun c => c <> "$"%char) rest -> c <> "."%char -> absent (String "$" (String c w)) ("$" ++ rest).
Proof.
  intros HS HC N. apply absent_first; [apply absent_char; auto|]. destruct (String.prefix _ _) eqn:EP; auto. exfalso. apply prefix_iff in EP. destruct EP as [r E].
  simpl in E. injection E; intros E'. destruct HS as [x ->]. injection E'; intros; congruence.
Qed.
Lemma prepared_plain rest : starts "." rest -> all_chars (fun c => c <> "$"%char) rest ->
  prepare_query L ("$" ++ rest) = match jp_prepare L ("$" ++ rest) with Some q => Ok (Some q) | None => Err end.
Proof.
  intros HS HC. unfold prepare_query. rewrite (replace_absent "$RELATIVE") by (apply dollar_once; auto; discriminate).
  destruct (String.eqb ("$" ++ rest) "$*") eqn:EQ.
  { apply String.eqb_eq in EQ. simpl in EQ. destruct HS as [x ->]; discriminate. }
  rewrite (contains_absent "$KEY"), (contains_absent "$VALUE"); try discriminate; try (apply dollar_once; auto; discriminate). auto.
Qed.
Lemma prepared_relative rest : starts "." rest -> all_chars (fun c => c <> "$"%char) rest -> prepare_query L ("$RELATIVE" ++ rest) = prepare_query L ("$" ++ rest).
Proof.
  intros HS HC. unfold prepare_query. rewrite (replace_absent "$RELATIVE" _ ("$" ++ rest)) by (apply dollar_once; auto; discriminate).
  replace (replace_all ("$RELATIVE" ++ rest) "$RELATIVE" "$") with ("$" ++ rest); [reflexivity|]. symmetry.
  unfold replace_all. cbn [append replace_all_from]. replace (String.prefix _ _) with true by (symmetry; apply prefix_iff; exists rest; auto).
  cbn [String.length Nat.sub pred replace_all_from append]. f_equal. apply (replace_absent "$RELATIVE"). apply absent_char. auto.
Qed.
Lemma parent_query inner ks mark : ks <> [] -> Forall field_name ks -> In mark ["[:]"; "[*]"] ->
  prepare_query L (written_path inner ks ++ mark) = match jp_prepare L ("$." ++ dotted ks ++ mark) with Some q => Ok (Some q) | None => Err end.
Proof.
  intros HN HF HM. assert (HS : starts "." ("." ++ dotted ks ++ mark)) by (eexists; reflexivity).
  assert (HC : all_chars (fun c => c <> "$"%char) ("." ++ dotted ks ++ mark)).
  { simpl. split; [discriminate|]. apply all_chars_app. split; [apply path_no_dollar; apply dotted_chars; auto|apply mark_no_dollar; auto]. }
  destruct inner; unfold written_path; rewrite append_assoc.
  - change ("$RELATIVE." ++ dotted ks ++ mark) with ("$RELATIVE" ++ ("." ++ dotted ks ++ mark)). rewrite prepared_relative by auto. apply prepared_plain; auto.
  - change ("$." ++ dotted ks ++ mark) with ("$" ++ ("." ++ dotted ks ++ mark)). apply prepared_plain; auto.
Qed.

(** the elements the engine ranges over *)
Lemma engine_elements inner ks mark a d m l w vs f : ks <> [] -> Forall field_name ks -> In mark ["[:]"; "[*]"] ->
  a_parent a = written_path inner ks ++ mark -> a_prep a = [Some f] -> jp_prepare L ("$." ++ dotted ks ++ mark) = Some f ->
  reading inner m d -> at_path ks d w -> elements_at w l -> selected L a m vs -> vs = l.
Proof.
  intros HN HF HM EP EF HJ [HR1 HR2] HW HE HS. unfold selected in HS.
  replace (String.eqb (a_parent a) "$RELATIVE*") with false in HS.
  2: { symmetry. apply String.eqb_neq. rewrite EP. unfold written_path. destruct inner; discriminate. }
  destruct HS as (doc & parts & HD & HF2 & ->). rewrite EF in *. inversion HF2 as [|x part xs parts' (f' & E1 & HA) HF2']; subst. inversion HF2'; subst. injection E1 as <-.
  destruct (HD ltac:(discriminate)) as [D1 D2].
  assert (ED : doc = d).
  { destruct inner.
    - assert (HRE : refers_to_element (a_parent a)) by (left; rewrite EP; unfold written_path; rewrite append_assoc; eexists; reflexivity). specialize (D1 HRE). congruence.
    - assert (HRE : ~ refers_to_element (a_parent a)).
      { rewrite EP. unfold written_path. rewrite append_assoc. intros [[r E]|[E|[[r E]|[r E]]]]; discriminate. }
      specialize (D2 HRE). congruence. }
  subst doc. pose proof (proj2 HP ks mark f d w HN HF HM HJ HW) as HQ. cbn [List.concat]. rewrite app_nil_r. inversion HE as [l' HO| |]; subst.
  - rewrite HQ in HA. inversion HA as [| |ls E|l'' N]; subst; auto. destruct ls as [|x ls]; [reflexivity|]. simpl in HO. inversion HO as [|? ? [o E] _]. discriminate.
  - rewrite HQ in HA. inversion HA. auto.
  - rewrite HQ in HA. inversion HA. auto.
Qed.

Lemma good_quant based inner q ks mark t a n a' n' : (based = true -> bs <> []) -> inner = true \/ based = true -> ks <> [] -> Forall field_name ks -> In mark ["[:]"; "[*]"] ->
  a_orig a = "jsonpath:" ++ written_path inner ks ++ mark -> a_parent a = written_path inner ks ++ mark -> a_prep a = [] -> prepare_aa L a = Ok a' ->
  (exists q', good true t n' q') -> prepare_node L p n = Ok n' -> exists qq, good inner (TQuant q ks mark t) (NQuant q a' n') qq.
Proof.
  intros HBB HI HN HF HM EO EP EE HA (qi & HG1 & HG2) HPN. unfold prepare_aa in HA. rewrite EP, split_no_comma in HA by (apply parent_no_comma; auto).
  cbn [rmapM] in HA. rewrite parent_query in HA by auto. destruct (jp_prepare L ("$." ++ dotted ks ++ mark)) as [f|] eqn:EJ; [|discriminate].
  cbn [rbind] in HA. injection HA as <-. rewrite EE. cbn [app].
  assert (ED : has_prefix (a_orig a) "jsonpath:$.." = false).
  { rewrite EO. apply starts_false. intros [r E]. unfold written_path in E. destruct inner; [discriminate|]. rewrite append_assoc in E.
    destruct (dotted_nonempty ks HN HF) as [D1 D2]. destruct (dotted ks) as [|c s]; [congruence|]. simpl in E. injection E as E1 E2. subst c. apply D2. exists s. auto. }
  assert (EF : parent_field (dotted bs) (a_orig a) = dotted (field_of inner bs ks)) by (rewrite EO; apply quant_field; auto; destruct HI; auto).
  destruct (field_of_names inner bs ks HN HB HF) as [FN FF].
  set (a1 := mkAA _ _ _ _ _).
  assert (HCX : forall d m r, at_path ks d r -> forall l, elements_at r l -> reading inner m d -> forall cs, contexts L a1 m cs ->
    cs = Some (map (fun v => set_raw_rel m (Some v)) l)).
  { intros d m r HW l HE HR cs HC. apply parsed_contexts in HC; [|destruct HR; auto|discriminate]. destruct HC as (vs & HS & ->).
    rewrite (engine_elements inner ks mark a1 d m l r vs f); auto. }
  assert (HEL : forall d D m l r (neg : bool), suits L p (TQuant q ks mark t) d -> placed inner d D -> reading inner m d -> at_path ks d r -> elements_at r l ->
    matches L (BDoc [(dotted (field_of inner bs ks), BDoc [("$elemMatch", if neg then BDoc [("$nor", BArr [qi])] else qi)])]) (Document D) =
    existsb (fun e => xorb neg (matches L qi (Document e))) l).
  { intros d D m l r neg HS HD HR HW HE. rewrite field_query by auto. rewrite (reach_at _ _ _ (placed_path _ _ _ _ _ HD HW)).
    assert (EN : forall e, matches L (if neg then BDoc [("$nor", BArr [qi])] else qi) (Document e) = xorb neg (matches L qi (Document e))).
    { intro e. destruct neg; cbn [xorb]; [|destruct (matches L qi (Document e)); auto].
      change (negb (matches L qi (Document e) || false) && true = negb (matches L qi (Document e))). rewrite andb_true_r, orb_false_r. auto. }
    set (qn := if neg then _ else _) in *. cbn [matches]. rewrite andb_true_r. cbn [String.eqb Ascii.eqb Bool.eqb].
    inversion HE as [l' HO| |]; subst; cbn [existsb]; auto. rewrite orb_false_r.
    clear - EN HO. induction HO as [|e l [o ->] HO IH]; [reflexivity|]. cbn [existsb as_document]. rewrite EN, IH. auto. }
  assert (HIN : forall d m l r b, suits L p (TQuant q ks mark t) d -> reading inner m d -> at_path ks d r -> elements_at r l ->
    forall e, In e l -> holds_at n' (set_raw_rel m (Some e)) b -> (b = true <-> matches L qi (Document e) = true)).
  { intros d m l r b HS HR HW HE e HIe HT. inversion HS as [| | | |? ? ? ? ? w l' HW' HE' HFo]; subst. rewrite (at_path_fun _ _ _ _ HW' HW) in HE'.
    assert (l' = l) by (inversion HE'; subst; inversion HE; subst; auto; congruence). subst l'. rewrite Forall_forall in HFo.
    apply (HG2 e e (set_raw_rel m (Some e)) b); auto. reflexivity. split; [destruct HR as [HR _]; destruct m; exact HR|destruct m; reflexivity]. }
  destruct q.
  - exists (BDoc [(dotted (field_of inner bs ks), BDoc [("$elemMatch", qi)])]). split.
    + intros parent depth. cbn [to_mongo a_orig a1]. rewrite ED. cbn [a_orig] in *. fold (a_orig a). rewrite EF, HG1. reflexivity.
    + intros d D m b HS HD HR HT. inversion HS as [| | | |? ? ? ? ? w l HW HE HFo]; subst.
      rewrite (HEL d D m l w false HS HD HR HW HE). cbn [truth] in HT.
      destruct HT as [(ms & HC & HX)|[HC ->]]; [|specialize (HCX _ _ _ HW _ HE HR _ HC); discriminate].
      specialize (HCX _ _ _ HW _ HE HR _ HC). injection HCX as ->. destruct b.
      * split; auto. intros _. apply Exists_exists in HX. destruct HX as (m' & HM' & HT). apply in_map_iff in HM'. destruct HM' as (e & <- & He).
        apply existsb_exists. exists e. split; auto. cbn [xorb]. destruct (matches L qi (Document e)) eqn:EM; auto. apply (HIN d m l w true HS HR HW HE e He) in HT. rewrite <- EM. apply HT. auto.
      * split; [discriminate|]. intro E. exfalso. apply existsb_exists in E. destruct E as (e & He & E). cbn [xorb] in E. rewrite Forall_forall in HX.
        specialize (HX (set_raw_rel m (Some e))). assert (holds_at n' (set_raw_rel m (Some e)) false) as HT by (apply HX; apply in_map_iff; eauto).
        apply (HIN d m l w false HS HR HW HE e He) in HT. destruct (matches L qi (Document e)); [|discriminate]. destruct HT as [_ HT]. discriminate (HT eq_refl).
  - exists (BDoc [("$nor", BArr [BDoc [(dotted (field_of inner bs ks), BDoc [("$elemMatch", BDoc [("$nor", BArr [qi])])])]])]). split.
    + intros parent depth. cbn [to_mongo a_orig a1]. rewrite ED. fold (a_orig a). rewrite EF, HG1. reflexivity.
    + intros d D m b HS HD HR HT. inversion HS as [| | | |? ? ? ? ? w l HW HE HFo]; subst.
      set (qe := BDoc [(dotted (field_of inner bs ks), _)]).
      assert (EM : matches L (BDoc [("$nor", BArr [qe])]) (Document D) = negb (matches L qe (Document D) || false) && true) by reflexivity.
      rewrite EM, andb_true_r, orb_false_r. unfold qe. rewrite (HEL d D m l w true HS HD HR HW HE). cbn [truth] in HT.
      destruct HT as [(ms & HC & HX)|[HC ->]]; [|specialize (HCX _ _ _ HW _ HE HR _ HC); discriminate].
      specialize (HCX _ _ _ HW _ HE HR _ HC). injection HCX as ->. destruct b.
      * split; auto. intros _. apply negb_true_iff. apply not_true_iff_false. intro E. apply existsb_exists in E. destruct E as (e & He & E). rewrite Forall_forall in HX.
        assert (holds_at n' (set_raw_rel m (Some e)) true) as HT by (apply HX; apply in_map_iff; eauto).
        apply (HIN d m l w true HS HR HW HE e He) in HT. destruct HT as [HT _]. rewrite (HT eq_refl) in E. discriminate.
      * split; [discriminate|]. intro E. exfalso. apply negb_true_iff in E. apply not_true_iff_false in E. apply E. apply Exists_exists in HX. destruct HX as (m' & HM' & HT).
        apply in_map_iff in HM'. destruct HM' as (e & <- & He). apply existsb_exists. exists e. split; auto. apply (HIN d m l w false HS HR HW HE e He) in HT.
        destruct (matches L qi (Document e)); [|reflexivity]. destruct HT as [_ HT]. discriminate (HT eq_refl).
Qed.

Theorem tree_agree based : (based = true -> bs <> []) -> forall t inner n, loaded_as based inner t n -> forall n', prepare_node L p n = Ok n' -> exists q, good inner t n' q.
Proof.
  intro HBB. assert (HCH : forall ts, Forall (fun t => forall inner n, loaded_as based inner t n -> forall n', prepare_node L p n = Ok n' -> exists q, good inner t n' q) ts ->
    forall inner ns, Forall2 (loaded_as based inner) ts ns -> forall ns', Forall2 (fun n n' => prepare_node L p n = Ok n') ns ns' -> exists qs, all_good inner ts ns' qs).
  { induction ts as [|t ts IH]; intros HT inner ns H1 ns' H2; inversion H1 as [|? n ? ns0 HL H1']; subst; inversion H2 as [|? n' ? ns0' HPR H2']; subst.
    - exists []. constructor.
    - inversion HT as [|? ? HT1 HT2]; subst. destruct (HT1 _ _ HL _ HPR) as (q & HG). destruct (IH HT2 _ _ H1' _ H2') as (qs & HGS). exists (q :: qs). constructor; auto. }
  induction t as [ks method value|ts IH|ts IH|t IH|q ks mark t IH] using tree_ind'; intros inner n HL n' HPR; inversion HL; subst; cbn [prepare_node] in HPR.
  - apply rmap_ok in HPR. destruct HPR as (c' & HC & ->). eapply good_cond; eauto.
  - apply rmap_ok in HPR. destruct HPR as (ns' & HS & ->). apply rseq_map_ok in HS. destruct (HCH ts IH inner ns ltac:(assumption) ns' HS) as (qs & HG).
    exists (BDoc [("$and", BArr qs)]). split.
    + intros parent depth. cbn [to_mongo]. rewrite (children_query _ _ _ _ HG). cbn [rbind]. rewrite all_first, no_steps. reflexivity.
    + intros d D m b HSU HD HR HT. inversion HSU; subst.
      assert (EM : matches L (BDoc [("$and", BArr qs)]) (Document D) = forallb (fun q => matches L q (Document D)) qs && true) by reflexivity.
      rewrite EM, andb_true_r. destruct (children_and inner d D m HD HR ts ns' qs HG ltac:(assumption)) as [C1 C2]. cbn [truth] in HT.
      destruct b; [rewrite (C1 HT); tauto|rewrite (C2 HT); split; discriminate].
  - apply rmap_ok in HPR. destruct HPR as (ns' & HS & ->). apply rseq_map_ok in HS. destruct (HCH ts IH inner ns ltac:(assumption) ns' HS) as (qs & HG).
    exists (BDoc [("$or", BArr qs)]). split.
    + intros parent depth. cbn [to_mongo]. rewrite (children_query _ _ _ _ HG). cbn [rbind]. rewrite all_first, no_steps. reflexivity.
    + intros d D m b HSU HD HR HT. inversion HSU; subst.
      assert (EM : matches L (BDoc [("$or", BArr qs)]) (Document D) = existsb (fun q => matches L q (Document D)) qs && true) by reflexivity.
      rewrite EM, andb_true_r. destruct (children_or inner d D m HD HR ts ns' qs HG ltac:(assumption)) as [C1 C2]. cbn [truth] in HT.
      destruct b; [rewrite (C1 HT); tauto|rewrite (C2 HT); split; discriminate].
  - apply rmap_ok in HPR. destruct HPR as (n1 & HS & ->). destruct (IH _ _ ltac:(eassumption) _ HS) as (q & HG1 & HG2).
    exists (BDoc [("$nor", BArr [q])]). split.
    + intros parent depth. cbn [to_mongo]. rewrite HG1. reflexivity.
    + intros d D m b HSU HD HR HT. inversion HSU; subst.
      assert (EM : matches L (BDoc [("$nor", BArr [q])]) (Document D) = negb (matches L q (Document D) || false) && true) by reflexivity.
      rewrite EM, andb_true_r, orb_false_r. cbn [truth] in HT. apply (HG2 d D m (negb b)) in HT; auto. destruct b, (matches L q (Document D)); cbn [negb] in *; intuition discriminate.
  - apply rbind_ok in HPR. destruct HPR as (n1 & HS & HPR). apply rbind_ok in HPR. destruct HPR as (a' & HA & HPR). injection HPR as <-.
    eapply good_quant; eauto.
Qed.
End Agreement.

(** ** Loading *)
Section Loading.
Variable ord : order.
Hypothesis HO : fair ord.

Lemma two_keys (a b : string) ks : Permutation ks [a; b] -> ks = [a; b] \/ ks = [b; a].
Proof. intro H. apply Permutation_sym in H. apply Permutation_length_2_inv in H. tauto. Qed.

Lemma absent_colon s mark : all_chars (fun c => c <> ":"%char) s -> In mark ["[:]"; "[*]"] -> absent "jsonpath:" (s ++ mark).
Proof.
  intros HS HM. assert (HA : absent "h:" (s ++ mark)).
  { induction s as [|c s IH]; cbn [append].
    - destruct HM as [<-|[<-|[]]].
      + apply absent_first; [|reflexivity]. apply absent_first; [|reflexivity]. apply absent_char. simpl. repeat split; discriminate.
      + apply absent_char. simpl. repeat split; discriminate.
    - destruct HS as [_ HS]. apply absent_first; auto. apply not_true_iff_false. intro E. apply prefix_iff in E. destruct E as [r E]. injection E as _ E.
      destruct s as [|c' s]; [destruct HM as [<-|[<-|[]]]; discriminate|]. destruct HS as [HS _]. injection E; intros; congruence. }
  intros a b E. apply (HA (a ++ "jsonpat") b). rewrite E, !append_assoc. reflexivity.
Qed.
Lemma path_no_colon inner ks : Forall field_name ks -> all_chars (fun c => c <> ":"%char) (written_path inner ks).
Proof.
  intro HF. unfold written_path. apply all_chars_app. split; [destruct inner; simpl; repeat split; discriminate|].
  pose proof (dotted_chars ks HF) as HC. revert HC. apply all_chars_impl. intros c HC ->. revert HC. not_char.
Qed.
Lemma parent_text inner ks mark : Forall field_name ks -> In mark ["[:]"; "[*]"] ->
  replace_all ("jsonpath:" ++ written_path inner ks ++ mark) "jsonpath:" "" = written_path inner ks ++ mark.
Proof.
  intros HF HM. unfold replace_all. cbn [append replace_all_from]. replace (String.prefix _ _) with true by (symmetry; apply prefix_iff; eexists; reflexivity).
  cbn [String.length Nat.sub pred replace_all_from append]. apply (replace_absent "jsonpath:"). apply absent_colon; auto. apply path_no_colon; auto.
Qed.
Lemma parent_valid inner ks mark : ks <> [] -> valid_parent ("jsonpath:" ++ written_path inner ks ++ mark) = true.
Proof. intros HN. unfold valid_parent. destruct inner.
  - replace (has_prefix _ "jsonpath:$RELATIVE") with true; [rewrite orb_true_r; auto|]. symmetry. apply starts_iff. unfold written_path. rewrite append_assoc. eexists. reflexivity.
  - replace (has_prefix _ "jsonpath:$.") with true; [rewrite orb_true_r; auto|]. symmetry. apply starts_iff. unfold written_path. rewrite append_assoc. eexists. reflexivity.
Qed.

Lemma quant_loaded based inner q ks mark t u n u' : in_fragment based inner (TQuant q ks mark t) ->
  (forall n u u', interpret L ord (spelled true t) "condition" u = (Ok n, u') -> loaded_as based true t n) ->
  interpret L ord (GMapS [("parentJsonpathAttribute", GStr ("jsonpath:" ++ written_path inner ks ++ mark)); ("condition", spelled true t)])
    (match q with QAny => "ANY" | QAll => "ALL" end) u = (Ok n, u') -> loaded_as based inner (TQuant q ks mark t) n.
Proof.
  intros HF IH H. inversion HF as [| | | |? ? ? ? ? HI HN HK HM HT]; subst.
  set (e1 := GStr _) in H. set (e2 := spelled true t) in H.
  assert (HH : any_all_node L ord q [("parentJsonpathAttribute", (e1, interpret L ord e1)); ("condition", (e2, interpret L ord e2))] u = (Ok n, u')) by (destruct q; exact H).
  clear H. unfold any_all_node in HH. cbn [List.length Nat.eqb orb negb] in HH.
  replace (contains_string _ _) with true in HH by reflexivity. cbn [negb] in HH. apply pbind_ok in HH. destruct HH as (kl & u1 & HK1 & HH). unfold prange in HK1. injection HK1 as <- <-.
  apply pbind_ok in HH. destruct HH as ([a inner'] & u2 & HL & HH). destruct (String.eqb (a_parent a) "") eqn:EA; [discriminate|]. injection HH as <- <-.
  pose proof (HO u ["parentJsonpathAttribute"; "condition"]) as HP. cbn [keys map fst] in HL. apply two_keys in HP.
  assert (HG : a = mkAA (written_path inner ks ++ mark) [] ("jsonpath:" ++ written_path inner ks ++ mark) no_ret [] /\ exists v v', interpret L ord e2 "condition" v = (Ok inner', v')).
  { unfold keys in HL. cbn [map fst] in HL. destruct HP as [HP|HP]; rewrite HP in HL; cbn [aa_loop assoc String.eqb Ascii.eqb Bool.eqb] in HL.
    - change (as_string e1) with (Ok ("jsonpath:" ++ written_path inner ks ++ mark)) in HL. unfold pbind at 1, pret at 1 in HL. rewrite parent_valid, parent_text in HL by auto.
      apply pbind_ok in HL. destruct HL as (n1 & v & HL & HE). unfold pret in HE. injection HE as <- <- <-. split; eauto.
    - apply pbind_ok in HL. destruct HL as (n1 & v & HL & HE). change (as_string e1) with (Ok ("jsonpath:" ++ written_path inner ks ++ mark)) in HE.
      unfold pbind, pret in HE. rewrite parent_valid, parent_text in HE by auto. injection HE as <- <- <-. split; eauto. }
  destruct HG as (-> & v & v' & HG). apply la_quant; auto. eauto.
Qed.

Lemma children_loaded based inner ts l : Forall (fun t => forall inner n p u u', in_fragment based inner t -> In p [""; "condition"; "NOT"] ->
    interpret L ord (spelled inner t) p u = (Ok n, u') ->
    if String.eqb p "NOT" then exists n1, n = NNot n1 /\ loaded_as based inner t n1 else loaded_as based inner t n) ts ->
  Forall (in_fragment based inner) ts -> Forall2 (loads L ord) (map (spelled inner) ts) l -> Forall2 (loaded_as based inner) ts l.
Proof.
  intro HT. revert l. induction HT as [|t ts HT HTS IH]; intros l HF HL; inversion HL as [|? n ? ns HN HNS]; subst; constructor; inversion HF; subst; auto.
  destruct HN as (u & u' & HN). apply (HT inner n "" u u'); simpl; auto.
Qed.

Lemma tree_loads based t : forall inner n p u u', in_fragment based inner t -> In p [""; "condition"; "NOT"] ->
  interpret L ord (spelled inner t) p u = (Ok n, u') ->
  if String.eqb p "NOT" then exists n1, n = NNot n1 /\ loaded_as based inner t n1 else loaded_as based inner t n.
Proof.
  assert (HSINGLE : forall k e p u n u', In k ["AND"; "OR"; "NOT"; "ANY"; "ALL"] -> In p [""; "condition"; "NOT"] ->
    handle_map L ord [(k, e)] p u = (Ok n, u') -> if String.eqb p "NOT" then exists n1, n = NNot n1 /\ snd e k u = (Ok n1, u') else snd e k u = (Ok n, u')).
  { intros k [x e] p u n u' HK HP H. assert (HC : is_condition_node [(k, (x, e))] = false) by (repeat (destruct HK as [<-|HK]; [reflexivity|]); destruct HK).
    unfold handle_map in H. rewrite HC in H. destruct HP as [<-|[<-|[<-|[]]]]; [exact H|exact H|].
    cbn [String.eqb Ascii.eqb Bool.eqb]. apply pbind_ok in H. destruct H as (n1 & u1 & HW & H2). unfold pret in H2. injection H2 as <- <-. eauto. }
  assert (HKEY : forall k v p u n u', In k ["AND"; "OR"; "NOT"; "ANY"; "ALL"] -> In p [""; "condition"; "NOT"] ->
    interpret L ord (GMapS [(k, v)]) p u = (Ok n, u') -> forall R : node -> Prop, (forall n1 w w', interpret L ord v k w = (Ok n1, w') -> R n1) ->
    if String.eqb p "NOT" then exists n1, n = NNot n1 /\ R n1 else R n).
  { intros k v p u n u' HK HP H R HR. cbn [interpret map fst snd] in H. apply HSINGLE in H; auto. cbn [snd] in H. destruct (String.eqb p "NOT"); [|eauto].
    destruct H as (n1 & -> & H). eauto. }
  induction t as [ks method value|ts IH|ts IH|t IH|q ks mark t IH] using tree_ind'; intros inner n p u u' HF HP H.
  - inversion HF; subst. cbn [spelled interpret map fst snd] in H. unfold handle_map in H.
    match type of H with (if ?x then _ else _) _ = _ => replace x with true in H by reflexivity end.
    unfold pret in H. injection H as H _. unfold node_condition, plain in H. cbn [map fst snd read_condition as_string rbind] in H.
    change (rbind (validate_condition L (written L ("jsonpath:" ++ written_path inner ks) method value no_ret)) (fun c => if is_any p [""; "condition"; "conditionsTree"] then Ok (NCond c) else node_by_parent L p [NCond c]) = Ok n) in H.
    apply rbind_ok in H. destruct H as (c & HC & H). assert (HL : loaded_as based inner (TCond ks method value) (NCond c)) by (eapply la_cond; eauto).
    destruct HP as [<-|[<-|[<-|[]]]]; injection H as <-; cbn [String.eqb Ascii.eqb Bool.eqb]; eauto.
  - inversion HF as [|? ? HNE HFR|? ? HNE HFR|? ? HFR|]; subst. cbn [spelled] in H. eapply HKEY; [| |exact H|]; [simpl; auto|auto|]. intros n1 w w' HW.
    assert (HA : interpret L ord (GMapS [("AND", GArr (map (spelled inner) ts))]) "" w = (Ok n1, w')) by exact HW.
    apply array_of in HA; [|simpl; auto|simpl; auto]. destruct HA as (ns & HA & ->). constructor; auto. eapply children_loaded; eauto.
  - inversion HF as [|? ? HNE HFR|? ? HNE HFR|? ? HFR|]; subst. cbn [spelled] in H. eapply HKEY; [| |exact H|]; [simpl; auto|auto|]. intros n1 w w' HW.
    assert (HA : interpret L ord (GMapS [("OR", GArr (map (spelled inner) ts))]) "" w = (Ok n1, w')) by exact HW.
    apply array_of in HA; [|simpl; auto|simpl; auto]. destruct HA as (ns & HA & ->). constructor; auto. eapply children_loaded; eauto.
  - inversion HF as [|? ? HNE HFR|? ? HNE HFR|? ? HFR|]; subst. cbn [spelled] in H. eapply HKEY; [| |exact H|]; [simpl; auto|auto|]. intros n1 w w' HW.
    apply IH in HW; [|exact HFR|simpl; auto]. cbn [String.eqb Ascii.eqb Bool.eqb] in HW. destruct HW as (n2 & -> & HW). constructor. auto.
  - cbn [spelled] in H. refine (HKEY _ _ p u n u' _ HP H (loaded_as based inner (TQuant q ks mark t)) _); [destruct q; simpl; tauto|]. intros n1 w w' HW. eapply quant_loaded; [exact HF| |exact HW].
    inversion HF; subst. intros n2 v v' H2. apply (IH true n2 "condition" v v'); simpl; auto.
Qed.
End Loading.

Theorem query_agrees ord u u' p based bs t n n' : PathSpec L -> NumberSpec L -> fair ord -> Forall field_name bs -> (based = true -> bs <> []) ->
  in_fragment based false t -> parse_conditions_tree L ord (spelled false t) u = (Ok n, u') -> prepare_node L p n = Ok n' ->
  exists q, to_mongo L (dotted bs) "" 0 n' = Ok (q, []) /\
    forall d D m b, suits L p t d -> at_path bs D (Some d) -> m_raw m = Some d -> may_return L n' m b -> (b = true <-> matches L q (Document D) = true).
Proof.
  intros HP HN HO HB HBB HF HL HPR. apply (tree_loads ord HO based) in HL; [|auto|simpl; auto]. cbn [String.eqb] in HL.
  destruct (tree_agree p bs HP HN HB based HBB t false n HL n' HPR) as (q & HG1 & HG2). exists q. split; [auto|].
  intros d D m b HS HD HR HM. apply (HG2 d D m b); auto; [split; [congruence|auto]|apply may_return_holds; auto].
Qed.
Theorem rule_agrees ord g p based bs t n n' u u' s k r : PathSpec L -> NumberSpec L -> fair ord -> Forall field_name bs -> (based = true -> bs <> []) ->
  in_fragment based false t -> parse_conditions_tree L ord (spelled false t) u = (Ok n, u') -> prepare_node L p n = Ok n' ->
  rs_ready s = true -> rs_prepared s = Some r -> ru_tree r = Some n' ->
  exists q, rule_to_mongo L ord g (dotted bs) s k = (Ok (Simple q), s, k) /\
    forall d D m e b x s' e', suits L p t d -> at_path bs D (Some d) -> m_raw m = Some d -> test_conditions L ord g s (mkEst m e) = (Some ((b, x), s'), e') ->
      (b = true <-> matches L q (Document D) = true).
Proof.
  intros HP HN HO HB HBB HF HL HPR H1 H2 H3. destruct (query_agrees ord u u' p based bs t n n' HP HN HO HB HBB HF HL HPR) as (q & HQ & HA).
  exists q. split.
  - unfold rule_to_mongo. rewrite H1, H2. unfold prepared_query. rewrite H3, HQ. reflexivity.
  - intros d D m e b x s' e' HS HD HR HT. apply (HA d D m b); auto. unfold test_conditions, ensure_prepared, mbind in HT. rewrite H1 in HT. cbn in HT. rewrite H2, H3 in HT.
    destruct (eval L ord n' (mkEst m e)) as [[[b' x']|] e''] eqn:EV; [|discriminate]. cbn in HT. injection HT as <- <- <- <-. exists ord, e, x', e''. auto.
Qed.
End WithLib.
