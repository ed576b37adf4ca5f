(** C66: rules and dictionaries are read from YAML documents as they are written. *)
From Coq Require Import List String Ascii Bool Arith ZArith Permutation Floats.SpecFloat.
From Verif Require Import Base GoStr GoFloat Types Json StrUtils GoStr_facts Validate Prepare Parse Marshal Lifecycle Eval Check Yaml
  Spec_Tree Spec_Decision Spec_Regex Spec_Match Spec_Leaf Spec_Load Load_proofs Spec_Copy Spec_Grammar Grammar_proofs Grammar_tree Grammar_loads Spec_Lifecycle Spec_Crash Crash_proofs Spec_Meaning Spec_Accept Accept_rules
  Spec_Fields Spec_Yaml Yaml_proofs Yaml_rules Yaml_more Yaml_keys RefLib RefLib_facts RefLib_numbers Samples Props_Load Props_Meaning Props_Accept.
Import ListNotations.
Open Scope string_scope.

(** ** C66 *)
(** [clean]: keys are scalars and no two keys of a mapping have the same text or value.  [rules_text] (Spec_Yaml): the rules a document says.
    [re_text] is (Regexp).UnmarshalText, if the version of Go has it. *)
Theorem C66_sound : forall L ord re_text y t rs t', fair ord -> clean y -> read_rules L ord re_text y t = (Ok rs, t') ->
  rules_text L y rs /\ (plain_rules y -> Forall (underived L) rs).
Proof. intros L ord re_text y t rs t' HF. exact (rules_sound L ord re_text HF y t rs t'). Qed.
Print Assumptions C66_sound.

(** every document that says rules is read, in every order of visiting maps *)
Theorem C66_accepts : forall L ord re_text y rs t, fair ord -> clean y -> plain_rules y -> rules_text L y rs -> exists rs' t', read_rules L ord re_text y t = (Ok rs', t').
Proof. intros L ord re_text y rs t HF. exact (rules_accepted L ord re_text HF y rs t). Qed.
Print Assumptions C66_accepts.

(** and the result is exactly what it says, unless an ANY or ALL has two inner conditions *)
Theorem C66_exact : forall L ord re_text y t rs, fair ord -> clean y -> plain_rules y -> single_conditions y ->
  (exists t', read_rules L ord re_text y t = (Ok rs, t')) <-> rules_text L y rs /\ Forall (underived L) rs.
Proof. exact rules_exact. Qed.
Print Assumptions C66_exact.

(** reading panics only where loading the conditions does *)
Theorem C66_panics : forall L ord re_text y t, fair ord -> clean y -> (forall c v, conditions_in y c -> value c v -> ~ crashes L "" v) ->
  fst (read_rules L ord re_text y t) <> Panic.
Proof. exact rules_no_panic. Qed.
Print Assumptions C66_panics.

(** files are read like texts, except that a repeated key is an error *)
Theorem C66_file : forall L ord re_text p y t,
  (clean y -> read_rules_file L ord re_text (Some y) t = read_rules L ord re_text y t /\ read_rules_file_with L ord re_text p (Some y) t = read_rules_with L ord re_text p y t) /\
  (repeats y -> read_rules_file L ord re_text (Some y) t = (Err, t) /\ read_rules_file_with L ord re_text p (Some y) t = (Err, t)).
Proof.
  intros L ord re_text p y t. unfold read_rules_file, read_rules_file_with. split; intro H.
  - rewrite (clean_tested y H). auto.
  - rewrite (repeats_refused y H). auto.
Qed.
Print Assumptions C66_file.

(** What only the engine should set is taken from the document: an expression under operationRegex that (Regexp).UnmarshalText accepts (any
    other text is an error), and the flag under "-".  [engine_fields] (Yaml_keys) *)
Theorem C66_engine : forall L ord re_text m l t rs t', clean (YMap m) -> at_key m "rules" (YSeq l) -> read_rules L ord re_text (YMap m) t = (Ok rs, t') ->
  Forall2 (fun y r => forall m', y = YMap m' -> engine_fields L re_text m' r) l rs.
Proof. exact rules_engine. Qed.
Print Assumptions C66_engine.

(** where repeated keys are not refused, the last entry counts.  [last_entry] (Yaml_keys): no later entry of the mapping has the key *)
Theorem C66_last : forall m es k v, decode_any (YMap m) = Some (GMapI es) -> In (GStr k, v) es <-> exists y, last_entry m k y /\ decode_any y = Some v.
Proof. exact last_counts. Qed.
Print Assumptions C66_last.

(** ** Dictionaries.  [bad_list], [resolved_form] (Spec_Lifecycle) *)
Theorem C66_dictionary : forall y strings lists t, clean y -> dictionary_text y strings lists -> (forall m, y = YMap m -> no_key m "-") ->
  (bad_list (mkPredef strings lists []) -> exists t', read_predef y t = (Err, t')) /\
  (~ bad_list (mkPredef strings lists []) -> exists p t', read_predef y t = (Ok p, t') /\ resolved_form (mkPredef strings lists []) p).
Proof. exact dictionary_read. Qed.
Print Assumptions C66_dictionary.
(** resolved lists written in the document (under the key "-") are never used *)
Theorem C66_dictionary_sound : forall y t p t', clean y -> read_predef y t = (Ok p, t') ->
  exists strings lists, dictionary_text y strings lists /\ resolved_form (mkPredef strings lists []) p.
Proof. exact dictionary_sound. Qed.
Print Assumptions C66_dictionary_sound.

(** ** From the document to the decision *)
Theorem C66_check : forall L p ord ord' g re_text y m t u, RegexSpec L -> CidrSpec L -> NumberSpec L -> jp_prepare L "$.*" <> None ->
  (forall rest, jp_prepare L ("$RELATIVE" ++ rest) = None) -> fair ord -> fair ord' -> ascii_message m ->
  clean y -> plain_rules y -> (exists rs, rules_text L y rs) ->
  (forall rs, rules_text L y rs -> Forall (underived L) rs -> Forall (ordinary L p) rs /\ Forall (preparable_rule L p) rs /\ Forall (fun r => rule_covered L p r m) rs) ->
  exists rs ss t' o e, rules_text L y rs /\ read_rules_with L ord' re_text p y u = (Ok ss, t') /\ check L ord g ss (mkEst m t) = (Some o, e) /\
    Forall2 (fun r d => verdict L p r m d) rs (out_results o) /\ decision_is_strictest (out_results o) (out_decision o).
Proof. exact documents_check. Qed.
Print Assumptions C66_check.

(** ** Concrete documents *)
Definition ys (s : string) : yaml := YScalar s (GStr s).
Definition ynum (s : string) (z : Z) : yaml := YScalar s (GInt z).
Definition ym (l : list (string * yaml)) : yaml := YMap (map (fun e => (ys (fst e), snd e)) l).

Definition str_key (y : yaml) : option string := match y with YScalar t (GStr v) => if String.eqb t v then Some t else None | _ => None end.
Fixpoint nodupb (l : list string) : bool := match l with [] => true | x :: l' => negb (existsb (String.eqb x) l') && nodupb l' end.
Fixpoint cleanb (y : yaml) : bool :=
  match y with
  | YScalar _ v => negb (is_collection v)
  | YSeq l => forallb cleanb l
  | YMap m => forallb (fun e => cleanb (snd e)) m && match all_some (map (fun e => str_key (fst e)) m) with Some ks => nodupb ks | None => false end
  end.
Lemma nodupb_ok l : nodupb l = true -> NoDup l.
Proof.
  induction l as [|x l IH]; intro H; constructor; cbn in H; apply andb_true_iff in H; destruct H as [H1 H2]; auto. intro HI. apply negb_true_iff in H1.
  apply not_true_iff_false in H1. apply H1. apply existsb_exists. exists x. rewrite String.eqb_refl. auto.
Qed.
Lemma not_collection_scalar v : negb (is_collection v) = true -> scalar_value v.
Proof. destruct v; cbn; intro H; try discriminate H; exact I. Qed.
Lemma str_key_ok y k : str_key y = Some k -> y = ys k.
Proof.
  destruct y as [t v|l|m]; cbn; try discriminate. destruct v; try discriminate. destruct (String.eqb_spec t s); [|discriminate]. intro H. injection H as <-. subst. reflexivity.
Qed.
Lemma str_keys_ok (m : list (yaml * yaml)) ks : all_some (map (fun e => str_key (fst e)) m) = Some ks -> Forall2 (fun e k => fst e = ys k) m ks.
Proof.
  intro H. apply all_some_iff in H. revert ks H. induction m as [|e m IH]; intros [|k ks] H; try discriminate H; constructor; injection H as H1 H2; auto. apply str_key_ok. exact H1.
Qed.
Lemma cleanb_ok y : cleanb y = true -> clean y.
Proof.
  induction y as [t v|l IH|m IH] using yaml_ind'; cbn [cleanb]; intro H.
  - constructor. apply not_collection_scalar. exact H.
  - constructor. rewrite forallb_forall in H. rewrite Forall_forall in *. auto.
  - apply andb_true_iff in H. destruct H as [H1 H2]. destruct (all_some _) as [ks|] eqn:E; [|discriminate H2]. apply nodupb_ok in H2. apply str_keys_ok in E. rewrite forallb_forall in H1. rewrite Forall_forall in IH. constructor.
    + apply Forall_forall. intros e HI. split; [|apply (IH e HI); auto]. clear -E HI. induction E as [|e' k m ks HE _ IHm]; [destruct HI|]. destruct HI as [<-|HI]; auto. rewrite HE. constructor. exact I.
    + exists ks. split; auto. clear -E. induction E as [|e k m ks HE _ IH]; constructor; auto. rewrite HE. constructor. discriminate.
    + assert (EK : key_values m = map GStr ks). { unfold key_values. clear -E. induction E as [|e k m ks HE _ IH]; cbn; auto. rewrite HE. cbn. f_equal. exact IH. }
      rewrite EK. clear -H2. induction H2 as [|k ks HN _ IH]; cbn; constructor; auto. apply Forall_forall. intros v HI. apply in_map_iff in HI. destruct HI as (k' & <- & HI).
      intros [HE|(x & y & HE & _)]; [injection HE as ->; contradiction|discriminate HE].
Qed.
Definition has_key (m : list (yaml * yaml)) (k : string) : bool := existsb (fun e => match fst e with YScalar t v => String.eqb (if has_value v then t else "") k | _ => false end) m.
Lemma has_key_ok m k : has_key m k = false -> no_key m k.
Proof.
  intros H y (key & HT & HI). apply not_true_iff_false in H. apply H. apply existsb_exists. exists (key, y). split; auto. cbn.
  destruct HT as [t|t v HV]; cbn; [reflexivity|]. destruct v; try apply String.eqb_refl. congruence.
Qed.
Definition plain_sideb (y : yaml) : bool := match y with YMap m => negb (has_key m "-") | _ => true end.
Definition plain_ruleb (m : list (yaml * yaml)) : bool := negb (has_key m "-") && negb (has_key m "operationRegex") && forallb (fun e => plain_sideb (snd e)) m.
Definition plain_rulesb (y : yaml) : bool :=
  match y with YMap m => forallb (fun e => match snd e with YSeq l => forallb (fun z => match z with YMap m' => plain_ruleb m' | _ => true end) l | _ => true end) m | _ => true end.
Lemma plain_ruleb_ok m : plain_ruleb m = true -> plain_rule m.
Proof.
  unfold plain_ruleb. rewrite !andb_true_iff, !negb_true_iff. intros [[H1 H2] H3]. rewrite forallb_forall in H3.
  assert (HS : forall k y, at_key m k y -> side_plain y).
  { intros k y (key & _ & HI) s ->. specialize (H3 _ HI). cbn in H3. apply negb_true_iff in H3. apply has_key_ok. exact H3. }
  repeat split; eauto; apply has_key_ok; auto.
Qed.
Lemma plain_rulesb_ok y : plain_rulesb y = true -> plain_rules y.
Proof.
  intros H m l m' -> (key & _ & HI) HM. cbn in H. rewrite forallb_forall in H. specialize (H _ HI). cbn in H. rewrite forallb_forall in H. specialize (H _ HM). apply plain_ruleb_ok. exact H.
Qed.

(** the rule of C54 as a document *)
Definition ycond (att method v : string) : yaml := ym [("attribute", ys att); ("method", ys method); ("value", ys v)].
Definition c66_conditions : yaml :=
  ym [("AND", YSeq [ym [("ANY", ym [("parentJsonpathAttribute", ys "jsonpath:$.x[:]"); ("condition", ycond "jsonpath:$RELATIVE.a" "GT" "4")])]; ycond "senderLabel[app]" "EQ" "#app"])].
Definition yside (nk tk n t : string) : yaml := ym [(nk, ys n); (tk, ys t)].
Definition c66_entries : list (string * yaml) :=
  [("ruleID", ys "r"); ("sender", yside "senderName" "senderType" "front*, ?x" "workload"); ("receiver", yside "receiverName" "receiverType" "#back" "workload");
   ("protocol", ys "*"); ("resource", yside "resourceName" "resourceType" "*" "*"); ("operation", ys "read"); ("conditions", c66_conditions); ("decision", ys "alert");
   ("comment", YSeq [ynum "1" 1; YScalar "~" GNil]); ("metadata", ym [("description", ys "about alert")])].
Definition c66_doc : yaml := ym [("version", ynum "2" 2); ("rules", YSeq [ym c66_entries])].
Definition c66_dict : yaml := ym [("predefinedStrings", ym [("app", ys "ba.*"); ("back", ys "back.*,cache")])].

Definition c66_value : iface :=
  let s := fun l => GMapI (map (fun e => (GStr (fst e), snd e)) l) in
  let c := fun a m v => s [("attribute", GStr a); ("method", GStr m); ("value", GStr v)] in
  s [("AND", GArr [s [("ANY", s [("parentJsonpathAttribute", GStr "jsonpath:$.x[:]"); ("condition", c "jsonpath:$RELATIVE.a" "GT" "4")])]; c "senderLabel[app]" "EQ" "#app"])].
Lemma c66_any : decode_any c66_conditions = Some c66_value.
Proof. vm_compute. reflexivity. Qed.
Lemma c66_clean : clean c66_doc.
Proof. apply cleanb_ok. vm_compute. reflexivity. Qed.
Lemma c66_plain : plain_rules c66_doc.
Proof. apply plain_rulesb_ok. vm_compute. reflexivity. Qed.
Lemma c66_read : read_rules RefLib in_order None c66_doc 0 = (Ok [c54_rule], 1).
Proof. vm_cast_no_check (eq_refl (@Ok (list (rule RefLib)) [c54_rule], 1)). Qed.
Lemma at_listed m k y : clean (ym m) -> In (k, y) m -> forall z, at_key (map (fun e => (ys (fst e), snd e)) m) k z -> z = y.
Proof.
  intros HC HI z HZ. apply (at_key_unique _ k _ _ (clean_distinct _ HC)); auto. exists (ys k). split; [constructor; discriminate|]. apply in_map_iff. exists (k, y). auto.
Qed.
Fixpoint singleb (v : iface) : bool :=
  match v with
  | GArr l => forallb singleb l
  | GMapS m => forallb (fun e => singleb (snd e)) m && negb (existsb (fun e => existsb (String.eqb (fst e)) ["ANY"; "ALL"]) m)
  | GMapI m => forallb (fun e => singleb (snd e)) m &&
      forallb (fun e => match fst e with
                        | GStr k => if existsb (String.eqb k) ["ANY"; "ALL"] then
                            match snd e with
                            | GMapI x => (List.length (filter (fun k => match k with GStr k => negb (existsb (String.eqb k) ["parentJsonpathAttribute"; "returnValueJsonpath"]) | _ => false end) (map fst x)) <=? 1)%nat
                            | GMapS _ => false
                            | _ => true
                            end else true
                        | _ => true
                        end) m
  | _ => true
  end.
Lemma short_filter {A} f (l : list A) a b : (List.length (filter f l) <= 1)%nat -> In a l -> In b l -> f a = true -> f b = true -> a = b.
Proof.
  intros HL HA HB FA FB. assert (A1 : In a (filter f l)) by (apply filter_In; auto). assert (B1 : In b (filter f l)) by (apply filter_In; auto).
  destruct (filter f l) as [|x [|z w]]; [destruct A1| |exfalso; cbn in HL; apply le_S_n in HL; inversion HL]. destruct A1 as [<-|[]], B1 as [<-|[]]. reflexivity.
Qed.
Lemma inner_key_b k : inner_key k -> negb (existsb (String.eqb k) ["parentJsonpathAttribute"; "returnValueJsonpath"]) = true.
Proof. intros [H1 H2]. cbn. apply String.eqb_neq in H1, H2. rewrite H1, H2. reflexivity. Qed.
Lemma singleb_ok v : singleb v = true -> single v.
Proof.
  induction v as [| | | | |l IH|m IH|m IH] using iface_ind'; cbn [singleb]; intro H; try constructor.
  - rewrite forallb_forall in H. rewrite Forall_forall in *. auto.
  - apply andb_true_iff in H. destruct H as [H1 _]. rewrite forallb_forall in H1. rewrite Forall_forall in *. auto.
  - apply andb_true_iff in H. destruct H as [_ H2]. intros k x HI HK. exfalso. apply negb_true_iff in H2. apply not_true_iff_false in H2. apply H2. apply existsb_exists. exists (k, x). split; auto.
    apply existsb_exists. exists k. rewrite String.eqb_refl. auto.
  - apply andb_true_iff in H. destruct H as [H1 _]. rewrite forallb_forall in H1. rewrite Forall_forall in *. intros e HI. apply (IH e HI). auto.
  - apply andb_true_iff in H. destruct H as [_ H2]. rewrite forallb_forall in H2. intros k x HI HK. specialize (H2 _ HI). cbn [fst snd] in H2.
    replace (existsb (String.eqb k) ["ANY"; "ALL"]) with true in H2 by (symmetry; apply existsb_exists; exists k; rewrite String.eqb_refl; auto).
    destruct x; try discriminate H2; split; intros mm k1 k2 E; try discriminate E. injection E as <-. apply Nat.leb_le in H2. intros I1 I2 K1 K2.
    assert (EQ : GStr k1 = GStr k2) by (apply (short_filter _ _ _ _ H2 I1 I2); apply inner_key_b; assumption). injection EQ. auto.
Qed.
Lemma c66_value_only c v : conditions_in c66_doc c -> value c v -> v = c66_value.
Proof.
  intros (m & l & m' & E & HK & HM & HC) HV. unfold c66_doc, ym in E. injection E as <-.
  apply (at_listed _ "rules" (YSeq [ym c66_entries]) c66_clean) in HK; [|right; left; reflexivity]. injection HK as ->. destruct HM as [E|[]]. unfold ym in E. injection E as <-.
  assert (HCe : clean (ym c66_entries)) by (apply cleanb_ok; vm_compute; reflexivity).
  apply (at_listed _ "conditions" c66_conditions HCe) in HC; [|repeat (try (left; reflexivity); right)]. subst c.
  assert (HCc : clean c66_conditions) by (apply cleanb_ok; vm_compute; reflexivity). apply (any_iff _ _ HCc) in HV. rewrite c66_any in HV. injection HV as <-. reflexivity.
Qed.
Lemma c66_single : single_conditions c66_doc.
Proof. intros c v HI HV. rewrite (c66_value_only c v HI HV). apply singleb_ok. vm_compute. reflexivity. Qed.
Definition c66_results (raw : bool) (x : string) : option (list nat) :=
  match read_rules_with RefLib in_order None c54_predef c66_doc 0 with
  | (Ok ss, _) => option_map out_results (fst (check RefLib in_order empty_predef ss (mkEst (c54_msg raw x) 0)))
  | _ => None
  end.
Lemma c66_says : rules_text RefLib c66_doc [c54_rule].
Proof. exact (proj1 (C66_sound RefLib in_order None c66_doc 0 _ _ in_order_fair c66_clean c66_read)). Qed.
Lemma c66_only rs : rules_text RefLib c66_doc rs -> Forall (underived RefLib) rs -> rs = [c54_rule].
Proof. intros HR HU. apply (rules_unique RefLib c66_doc); auto using c66_clean, c66_single, c66_says. constructor; [repeat split|constructor]. Qed.
(** the document meets the conditions of C66_check for both messages, and for the first one the rule alerts *)
Example C66_case :
  clean c66_doc /\ plain_rules c66_doc /\ single_conditions c66_doc /\ rules_text RefLib c66_doc [c54_rule] /\
  (forall raw x rs, In x ["5"; "3"] -> rules_text RefLib c66_doc rs -> Forall (underived RefLib) rs ->
     Forall (ordinary RefLib c54_predef) rs /\ Forall (preparable_rule RefLib c54_predef) rs /\ Forall (fun r => rule_covered RefLib c54_predef r (c54_msg raw x)) rs) /\
  map (fun b => map (c66_results b) ["5"; "3"]) [false; true] = map (fun b => map (c54_results b) ["5"; "3"]) [false; true].
Proof.
  split; [exact c66_clean|]. split; [exact c66_plain|]. split; [exact c66_single|]. split; [exact c66_says|]. split; [|vm_compute; reflexivity].
  intros raw x rs HX HR HU. rewrite (c66_only rs HR HU). split; [|split]; (apply Forall_cons; [|apply Forall_nil]).
  - exact c54_ordinary.
  - apply (sets_ok _ _ c54_ordinary). vm_compute. reflexivity.
  - apply c54_covered. exact HX.
Qed.
Definition ok_with {A} (r : res A * nat) : option A := match fst r with Ok a => Some a | _ => None end.
(** texts of numbers, null and other kinds *)
Definition one_rule (entries : list (string * yaml)) : yaml := ym [("rules", YSeq [ym entries])].
Definition reads_texts (y : yaml) : option (list (list string)) :=
  option_map (map (fun r => [ru_id r; ru_sender_name r; ru_decision r; ru_hash r])) (ok_with (read_rules RefLib in_order None y 0)).
Example C66_texts :
  reads_texts (one_rule [("ruleID", ynum "0x10" 16); ("decision", YScalar "Yes" (GBool true)); ("hash", YScalar "~" GNil)]) = Some [["0x10"; ""; "Yes"; ""]] /\
  reads_texts (one_rule [("ruleID", YSeq [])]) = None /\ reads_texts (one_rule [("metadata", ys "x")]) = None /\ reads_texts (ym [("Rules", YSeq [])]) = Some [] /\
  reads_texts (YScalar "" GNil) = Some [] /\ reads_texts (YSeq []) = None /\ reads_texts (ym [("rules", YSeq [YScalar "~" GNil])]) = Some [["";"";"";""]] /\
  reads_texts (one_rule [("conditions", YScalar "null" GNil)]) = Some [["";"";"";""]] /\ reads_texts (one_rule [("conditions", YScalar "Null" GNil)]) = None /\ reads_texts (one_rule [("conditions", ym [])]) = None.
Proof. repeat split; vm_compute; reflexivity. Qed.
(** a repeated key: the later value counts in a text, and a file is refused *)
Definition twice : yaml := one_rule [("decision", ys "allow"); ("decision", ys "block")].
Example C66_file_case : reads_texts twice = Some [["";"";"block";""]] /\ repeats twice /\ option_map (@List.length _) (ok_with (read_rules_file RefLib in_order None (Some twice) 0)) = None /\
  option_map (@List.length _) (ok_with (read_rules_file RefLib in_order None (Some c66_doc) 0)) = Some 1.
Proof.
  split; [vm_compute; reflexivity|]. split; [|split; vm_compute; reflexivity].
  eapply rp_value; [left; reflexivity|]. eapply rp_item; [left; reflexivity|]. apply (rp_here [] "decision" (GStr "decision") (ys "allow") [] "decision" (GStr "decision") (ys "block") []); [exact I|left; reflexivity].
Qed.
Example C66_dictionary_case :
  option_map (fun p => (p_strings p, p_lists p, p_resolved p)) (ok_with (read_predef c66_dict 0)) = Some ([("app", "ba.*"); ("back", "back.*,cache")], [], []) /\
  option_map p_resolved (ok_with (read_predef (ym [("predefinedLists", ym [("l", YSeq [ys "#a"; ynum "1" 1])]); ("predefinedStrings", ym [("a", ys "x")]); ("-", ym [("k", YSeq [])])]) 0)) = Some [("l", ["x"; "1"])] /\
  option_map p_resolved (ok_with (read_predef (ym [("predefinedLists", ym [("l", YSeq [ys "#a"])])]) 0)) = None.
Proof. repeat split; vm_compute; reflexivity. Qed.
Definition bad_attribute : yaml := one_rule [("conditions", ym [("attribute", ynum "1" 1); ("method", ys "EQ"); ("value", ys "x")])].
Example C66_panic_case : match fst (read_rules RefLib in_order None bad_attribute 0) with Panic => true | _ => false end = true /\
  (forall c v, conditions_in c66_doc c -> value c v -> ~ crashes RefLib "" v).
Proof.
  split; [vm_compute; reflexivity|]. intros c v HI HV HX. pose proof (c66_value_only c v HI HV) as ->.
  assert (HG : go_value c66_value). { apply (value_go c66_conditions); [apply cleanb_ok; vm_compute; reflexivity|]. apply any_iff; [apply cleanb_ok; vm_compute; reflexivity|]. exact c66_any. }
  apply (proj1 (loading_panics RefLib c66_value 0 HG)) in HX. destruct HX as (ord & HF & HP).
  assert (HR : exists n, reads RefLib "" c66_value n).
  { assert (E : match parse_conditions_tree RefLib in_order c66_value 0 with (Ok _, _) => true | _ => false end = true) by (vm_compute; reflexivity).
    destruct (parse_conditions_tree RefLib in_order c66_value 0) as [[n| |] u] eqn:EP; try discriminate E. exists n. exact (grammar_sound RefLib in_order c66_value 0 n u in_order_fair HG EP). }
  destruct HR as [n HR]. destruct (grammar_loads RefLib ord c66_value n 0 HF HG HR) as (n' & u & E). rewrite E in HP. discriminate HP.
Qed.

(** *** What does not hold *)
(** "Documents that say the same rules give the same decisions" is false: the key "-" of a rule, which is no part of the language, makes the engine
    take the fields for converted, and a rule that blocks everything applies to nothing *)
Definition block_all : list (string * yaml) :=
  [("sender", yside "senderName" "senderType" "*" "*"); ("receiver", yside "receiverName" "receiverType" "*" "*"); ("protocol", ys "*");
   ("resource", yside "resourceName" "resourceType" "*" "*"); ("operation", ys "*"); ("decision", ys "block")].
Definition decided (y : yaml) : option nat :=
  match read_rules RefLib in_order None y 0 with
  | (Ok rs, _) => option_map out_decision (fst (check RefLib in_order empty_predef (map (load_rule RefLib) rs) (mkEst msg0 0)))
  | _ => None
  end.
Definition block_rule (flag : bool) : rule RefLib := mkRule "" "*" "*" [] "*" "*" [] "*" "*" "*" None "*" None "block" [] "" None flag.
Theorem C66_same_refuted : exists y y' rs, clean y /\ clean y' /\ rules_text RefLib y rs /\ rules_text RefLib y' rs /\
  decided y = Some BLOCK /\ decided y' = Some DEFAULT.
Proof.
  exists (one_rule block_all), (one_rule (block_all ++ [("-", YScalar "true" (GBool true))])), [block_rule true].
  assert (C1 : clean (one_rule block_all)) by (apply cleanb_ok; vm_compute; reflexivity).
  assert (C2 : clean (one_rule (block_all ++ [("-", YScalar "true" (GBool true))]))) by (apply cleanb_ok; vm_compute; reflexivity).
  assert (E1 : read_rules RefLib in_order None (one_rule block_all) 0 = (Ok [block_rule false], 0)) by (vm_cast_no_check (eq_refl (@Ok (list (rule RefLib)) [block_rule false], 0))).
  assert (E2 : read_rules RefLib in_order None (one_rule (block_all ++ [("-", YScalar "true" (GBool true))])) 0 = (Ok [block_rule true], 0)) by (vm_cast_no_check (eq_refl (@Ok (list (rule RefLib)) [block_rule true], 0))).
  apply (C66_sound RefLib in_order None _ _ _ _ in_order_fair C1) in E1. apply (C66_sound RefLib in_order None _ _ _ _ in_order_fair C2) in E2.
  split; [exact C1|]. split; [exact C2|]. split; [|split; [exact (proj1 E2)|split; vm_compute; reflexivity]].
  destruct E1 as [[([t HN] & _)|(m & HM & HO)] _]; [discriminate HN|]. right. exists m. split; [exact HM|].
  destruct HO as [[_ HO]|(y & HY & HO)]; [discriminate HO|]. right. exists y. split; [exact HY|]. inversion HO as [|l xs HF]; subst. constructor. inversion HF as [|z r l' xs' HR HF']; subst. constructor; [|exact HF'].
  destruct HR as [[HN HR]|(m' & -> & [])]; [left; split; [exact HN|exact HR]|right; exists m'; split; [reflexivity|constructor; assumption]].
Qed.
Print Assumptions C66_same_refuted.

(** a key twice, in different scalars *)
Definition c66_twice : yaml := YMap [(ys "value", ys "1"); (ys "method", ys "EQ"); (YScalar "'value'" (GStr "value"), ys "2")].
Example C66_twice : decode_any c66_twice = Some (GMapI [(GStr "value", GStr "2"); (GStr "method", GStr "EQ")]).
Proof. vm_compute. reflexivity. Qed.
(** expressions and the flag in a document: a good expression, one that is refused, no UnmarshalText, and a flag that is not a boolean *)
Definition c66_engine (re_text : option (string -> option (RE RefLib))) (l : list (string * yaml)) : option (list (bool * bool)) :=
  option_map (map (fun r => (match ru_operation_regex r with Some _ => true | None => false end, ru_converted r))) (ok_with (read_rules RefLib in_order re_text (one_rule l) 0)).
Example C66_engine_case :
  c66_engine (Some (re_compile RefLib)) [("operationRegex", ys "^GET$"); ("-", YScalar "true" (GBool true))] = Some [(true, true)] /\
  c66_engine (Some (re_compile RefLib)) [("operationRegex", ys "(")] = None /\ c66_engine None [("operationRegex", ys "^GET$")] = None /\
  c66_engine (Some (re_compile RefLib)) [("operationRegex", ym []); ("-", YScalar "~" GNil)] = Some [(false, false)] /\ c66_engine None [("-", ys "true")] = None.
Proof. repeat split; vm_compute; reflexivity. Qed.
