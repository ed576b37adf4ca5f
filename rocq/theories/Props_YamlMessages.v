(** C67: messages are read from YAML documents as they are written. *)
From Coq Require Import List String Ascii Bool Arith ZArith Permutation Floats.SpecFloat.
From Verif Require Import Base GoStr GoFloat Types Json StrUtils GoStr_facts Validate Prepare Parse Marshal Lifecycle Eval Check Messages Fields Yaml
  Spec_Tree Spec_Decision Spec_Regex Spec_Match Spec_Leaf Spec_Load Load_proofs Spec_Copy Spec_Grammar Spec_Lifecycle Spec_Crash Spec_Meaning Spec_Accept Accept_rules
  Spec_Messages Spec_Fields Fields_proofs Spec_Yaml Yaml_proofs Yaml_rules Yaml_more Spec_YamlMessages Yaml_messages RefLib RefLib_facts RefLib_numbers Samples Props_Load Props_Copy Props_Meaning Props_Accept Props_Messages Props_Fields Props_Yaml.
Import ListNotations.
Open Scope string_scope.

(** ** C67 *)
(** [messages_text]: the messages a document says; [loaded_message]: the message with its derived fields (Spec_YamlMessages); [clean] (Spec_Yaml) *)
Theorem C67_sound : forall L y t ms' t', TimeSpec L -> clean y -> read_messages L y t = (Ok ms', t') ->
  exists ms, messages_text y ms /\ Forall2 (loaded_message L) ms ms'.
Proof. exact messages_sound. Qed.
Print Assumptions C67_sound.
(** a document that says messages is read unless the time of some message cannot be *)
Theorem C67_accepts : forall L y ms t, TimeSpec L -> clean y -> messages_text y ms ->
  (Forall (timed L) ms -> exists ms' t', read_messages L y t = (Ok ms', t') /\ Forall2 (loaded_message L) ms ms') /\
  (~ Forall (timed L) ms -> exists t', read_messages L y t = (Err, t')).
Proof. exact messages_accepted. Qed.
Print Assumptions C67_accepts.
(** any other document is refused *)
Theorem C67_refused : forall L y t, clean y -> (~ exists ms, messages_text y ms) -> exists t', read_messages L y t = (Err, t').
Proof. exact messages_refused. Qed.
Print Assumptions C67_refused.
(** a document says one list of messages *)
Theorem C67_unique : forall y ms ms', clean y -> messages_text y ms -> messages_text y ms' -> ms' = ms.
Proof. exact messages_unique. Qed.
Print Assumptions C67_unique.
(** no document, with repeated keys or not, makes reading panic *)
Theorem C67_panics : forall L y t, fst (read_messages L y t) <> Panic.
Proof. exact messages_no_panic. Qed.
Print Assumptions C67_panics.

(** ** One message.  [yaml_text es]: one line per entry; [countable] (Spec_Fields): what the count of fields does not object to *)
Theorem C67_one : forall L m es msg t, clean (YMap m) -> Forall2 entry_text m es -> message_text (YMap m) msg -> plain_entries L m es msg ->
  (countable es -> exists t', read_message L (YMap m) (yaml_text es) t = (Ok (add_resource_type msg), t')) /\
  (~ countable es -> exists t', read_message L (YMap m) (yaml_text es) t = (Err, t')).
Proof.
  intros L m es msg t HC HW HM HP. pose proof (written_describes L m es msg HC HW HM HP) as HD. destruct (C61_counted L es msg HD) as [H1 H2].
  destruct (read_message_text L (YMap m) msg (yaml_text es) t HC HM) as [t' E]. rewrite E. split; intro H; exists t'; f_equal.
  - apply H1. exact H.
  - destruct H2 as [H2|H2]; [|exact H2]. apply H1 in H2. contradiction.
Qed.
Print Assumptions C67_one.
(** a document that is no message is refused, whatever its text *)
Theorem C67_one_refused : forall L y s t, clean y -> (~ exists msg, message_text y msg) -> exists t', read_message L y s t = (Err, t').
Proof. exact read_message_refused. Qed.
Print Assumptions C67_one_refused.

(** ** From a document with rules and a document with messages to the decisions *)
Theorem C67_check : forall L p ord ord' g re_text y z ms t u w, RegexSpec L -> CidrSpec L -> NumberSpec L -> TimeSpec L -> jp_prepare L "$.*" <> None ->
  (forall rest, jp_prepare L ("$RELATIVE" ++ rest) = None) -> fair ord -> fair ord' ->
  clean y -> plain_rules y -> (exists rs, rules_text L y rs) -> clean z -> messages_text z ms -> Forall (timed L) ms ->
  (forall rs, rules_text L y rs -> Forall (underived L) rs -> Forall (ordinary L p) rs /\ Forall (preparable_rule L p) rs /\
     forall m ms' w', read_messages L z w = (Ok ms', w') -> In m ms' -> ascii_message m /\ Forall (fun r => rule_covered L p r m) rs) ->
  exists rs ss ms' u' w', rules_text L y rs /\ read_rules_with L ord' re_text p y u = (Ok ss, u') /\ read_messages L z w = (Ok ms', w') /\ Forall2 (loaded_message L) ms ms' /\
    Forall (fun m => exists o e, check L ord g ss (mkEst m t) = (Some o, e) /\
      Forall2 (fun r d => verdict L p r m d) rs (out_results o) /\ decision_is_strictest (out_results o) (out_decision o)) ms'.
Proof. exact documents_decide. Qed.
Print Assumptions C67_check.

(** ** Concrete documents *)
Definition yc (att method v : string) : yaml := ycond att method v.
Definition c67_conditions : yaml := ym [("AND", YSeq [yc "payloadSize" "GE" "100"; yc "senderLabel[app]" "EQ" "#app"])].
Definition c67_rule_entries : list (string * yaml) :=
  [("ruleID", ys "r"); ("sender", yside "senderName" "senderType" "front*, ?x" "workload"); ("receiver", yside "receiverName" "receiverType" "#back" "workload");
    ("protocol", ys "*"); ("resource", yside "resourceName" "resourceType" "*" "*"); ("operation", ys "read"); ("conditions", c67_conditions); ("decision", ys "alert"); ("metadata", ym [("description", ys "about alert")])].
Definition c67_rules : yaml := ym [("rules", YSeq [ym c67_rule_entries])].
Definition c67_message (size time : yaml) (labels : string) : yaml :=
  ym [("sender_service", ys "front.end"); ("receiver_service", ys "back.end"); ("sender_ip", ys "10.1.2.3"); ("request_method", ys "GET"); ("request_protocol", ys "HTTP");
      ("request_size", size); ("request_time", time); ("sender_labels", ys labels); ("receiver_port", ynum "80" 80); ("Comment", YSeq []);
      ("encryption_version", YScalar "1.5" (GFloat (fdiv (f64_of_Z 3) (f64_of_Z 2)))); ("json_raw", YSeq [ynum "123" 123; ynum "125" 125]); ("interface_raw_relative", ym [("a", ynum "1" 1)])].
Definition c67_time : yaml := ys "2018-07-29T14:30:00Z".
Definition c67_messages : yaml :=
  ym [("messages", YSeq [c67_message (ynum "100" 100) c67_time "{app: batch, v: 1}"; c67_message (YScalar "99.9" (GFloat (fdiv (f64_of_Z 999) (f64_of_Z 10)))) c67_time "{app: batch}"; c67_message (ynum "100" 100) c67_time "app"])].
Definition c67_shown (z : yaml) : option (list (list string * Z * option string * option iface * list Z * list (string * string))) :=
  option_map (map (fun m => ([m_source_service m; m_dest_port m; m_host m; m_context_type m], m_size m, m_json m, m_raw_rel m, skipn 12 (m_source_netip m), m_source_labels m))) (ok_with (read_messages RefLib z 0)).
Example C67_case : c67_shown c67_messages =
  Some [(["front.end"; "80"; ""; "path"], 100%Z, Some "{}", Some (GMapI [(GStr "a", GInt 1)]), [10; 1; 2; 3]%Z, [("app", "batch"); ("v", "1")]);
        (["front.end"; "80"; ""; "path"], 99%Z, Some "{}", Some (GMapI [(GStr "a", GInt 1)]), [10; 1; 2; 3]%Z, [("app", "batch")]);
        (["front.end"; "80"; ""; "path"], 100%Z, Some "{}", Some (GMapI [(GStr "a", GInt 1)]), [10; 1; 2; 3]%Z, [])].
Proof. vm_compute. reflexivity. Qed.

(** the documents meet the conditions of C67_check, and only the first message is alerted *)
Definition c67_tree : option (node RefLib) :=
  match decode_any c67_conditions with
  | Some v => match parse_conditions_tree RefLib in_order v 0 with (Ok n, _) => Some n | _ => None end
  | None => None
  end.
Definition c67_rule : rule RefLib := sample_rule "front*, ?x" "workload" "#back" "workload" "*" "*" "*" "read" c67_tree "alert".
Lemma c67_rules_clean : clean c67_rules.
Proof. apply cleanb_ok. vm_compute. reflexivity. Qed.
Lemma c67_rules_plain : plain_rules c67_rules.
Proof. apply plain_rulesb_ok. vm_compute. reflexivity. Qed.
Lemma c67_messages_clean : clean c67_messages.
Proof. apply cleanb_ok. vm_compute. reflexivity. Qed.
Lemma c67_conditions_clean : clean c67_conditions.
Proof. apply cleanb_ok. vm_compute. reflexivity. Qed.
Lemma c67_read : read_rules RefLib in_order None c67_rules 0 = (Ok [c67_rule], snd (read_rules RefLib in_order None c67_rules 0)).
Proof. vm_cast_no_check (eq_refl (@Ok (list (rule RefLib)) [c67_rule], snd (read_rules RefLib in_order None c67_rules 0))). Qed.
Lemma c67_says : rules_text RefLib c67_rules [c67_rule].
Proof. exact (proj1 (C66_sound RefLib in_order None c67_rules 0 _ _ in_order_fair c67_rules_clean c67_read)). Qed.
Lemma c67_single : single_conditions c67_rules.
Proof.
  intros c v (m & l & m' & E & HK & HM & HC) HV. unfold c67_rules, ym in E. injection E as <-.
  apply (at_listed _ "rules" (YSeq [ym c67_rule_entries]) c67_rules_clean) in HK; [|left; reflexivity]. injection HK as ->. destruct HM as [E|[]]. unfold ym in E. injection E as <-.
  assert (HCe : clean (ym c67_rule_entries)) by (apply cleanb_ok; vm_compute; reflexivity).
  apply (at_listed _ "conditions" c67_conditions HCe) in HC; [|repeat (try (left; reflexivity); right)]. subst c.
  apply (any_iff _ _ c67_conditions_clean) in HV.
  assert (H : match decode_any c67_conditions with Some v => singleb v | None => false end = true) by (vm_compute; reflexivity). rewrite HV in H. apply singleb_ok. exact H.
Qed.
Lemma c67_only rs : rules_text RefLib c67_rules rs -> Forall (underived RefLib) rs -> rs = [c67_rule].
Proof. intros HR HU. apply (rules_unique RefLib c67_rules); auto using c67_rules_clean, c67_single, c67_says. constructor; [repeat split|constructor]. Qed.
Lemma c67_loaded n : c67_tree = Some n -> loaded_tree RefLib n.
Proof.
  intro H. split.
  - assert (HB : match c67_tree with Some n => copyableb n | None => false end = true) by (vm_compute; reflexivity). rewrite H in HB. apply copyableb_ok. exact HB.
  - unfold c67_tree in H. destruct (decode_any c67_conditions) as [v|] eqn:HJ; [|discriminate].
    destruct (parse_conditions_tree RefLib in_order v 0) as [[n'| |] t'] eqn:HL; try discriminate H. injection H as ->.
    apply (any_iff _ _ c67_conditions_clean) in HJ. pose proof (value_go _ _ c67_conditions_clean HJ) as HG. exists v. split; [exact HG|]. exact (Grammar_tree.grammar_sound RefLib in_order v 0 n t' in_order_fair HG HL).
Qed.
Lemma c67_ordinary : ordinary RefLib c54_predef c67_rule.
Proof.
  destruct c54_ordinary as [_ _ O]. constructor.
  - repeat split.
  - intros n HN. change (c67_tree = Some n) in HN. split; [apply c67_loaded; exact HN|].
    assert (H : quotedb c67_tree = true) by (vm_compute; reflexivity). rewrite HN in H. apply quotedb_ok. exact H.
  - destruct O. constructor; assumption.
Qed.
Definition c67_shape (t : option (node RefLib)) : option (list string) :=
  match t with
  | Some (NAnd [NCond c; NCond d]) => Some [c_attr c; c_method c; c_value c; c_attr d; c_method d; c_value d]
  | _ => None
  end.
Lemma c67_shape_ok t texts : c67_shape t = Some texts -> exists c d, t = Some (NAnd [NCond c; NCond d]) /\ texts = [c_attr c; c_method c; c_value c; c_attr d; c_method d; c_value d].
Proof.
  unfold c67_shape. destruct t as [n|]; [|discriminate]. destruct n as [ns| | | | | | |]; try discriminate.
  destruct ns as [|n1 ns]; [discriminate|]. destruct n1 as [| | | | | |c|]; try discriminate. destruct ns as [|n2 ns]; [discriminate|].
  destruct n2 as [| | | | | |d|]; try discriminate. destruct ns; [|discriminate]. intro H. exists c, d. split; [reflexivity|]. congruence.
Qed.
Lemma c67_covered m : rule_covered RefLib c54_predef c67_rule m.
Proof.
  destruct (c54_covered true "5" (or_introl eq_refl)) as [R1 R2 R3 R4 R5 _]. constructor; auto.
  intros n HN. change (c67_tree = Some n) in HN. split; [apply c67_loaded; exact HN|].
  assert (HS : c67_shape c67_tree = Some ["payloadSize"; "GE"; "100"; "senderLabel[app]"; "EQ"; "#app"]) by (vm_compute; reflexivity).
  apply c67_shape_ok in HS. destruct HS as (c & d & E & HE). rewrite HN in E. injection E as ->. injection HE as E1 E2 E3 E4 E5 E6.
  cbn [covered fold_right]. rewrite <- E1, <- E2, <- E3, <- E4, <- E5, <- E6. split; [split|split; [split|exact I]].
  - eexists. apply (cn_size RefLib c54_predef _ _ _ m KGe "100"); [reflexivity|unfold method_is; simpl; tauto|constructor; intros [r E]; discriminate|]. intros _. vm_compute. discriminate.
  - intros _ [r EJ]. exfalso. rewrite <- E1 in EJ. discriminate EJ.
  - eexists. apply (cn_sender_label RefLib c54_predef _ _ _ m "app" KEq "ba.*"); [reflexivity|repeat split; discriminate|unfold method_is; simpl; tauto| |intros [r E]; discriminate]. apply rp_string with "app"; reflexivity.
  - intros _ [r EJ]. exfalso. rewrite <- E4 in EJ. discriminate EJ.
Qed.
Definition c67_decisions : option (list (option nat)) :=
  match read_rules_with RefLib in_order None c54_predef c67_rules 0, read_messages RefLib c67_messages 0 with
  | (Ok ss, _), (Ok ms, _) => Some (map (fun m => option_map out_decision (fst (check RefLib in_order empty_predef ss (mkEst m 0)))) ms)
  | _, _ => None
  end.
Example C67_check_case :
  clean c67_rules /\ plain_rules c67_rules /\ rules_text RefLib c67_rules [c67_rule] /\ clean c67_messages /\ (exists ms, messages_text c67_messages ms /\ Forall (timed RefLib) ms) /\
  (forall rs, rules_text RefLib c67_rules rs -> Forall (underived RefLib) rs -> Forall (ordinary RefLib c54_predef) rs /\ Forall (preparable_rule RefLib c54_predef) rs /\
     forall m ms' w', read_messages RefLib c67_messages 0 = (Ok ms', w') -> In m ms' -> ascii_message m /\ Forall (fun r => rule_covered RefLib c54_predef r m) rs) /\
  c67_decisions = Some [Some ALERT; Some DEFAULT; Some DEFAULT].
Proof.
  split; [exact c67_rules_clean|]. split; [exact c67_rules_plain|]. split; [exact c67_says|]. split; [exact c67_messages_clean|]. split; [|split; [|vm_compute; reflexivity]].
  - assert (H : match read_messages RefLib c67_messages 0 with (Ok _, _) => true | _ => false end = true) by (vm_compute; reflexivity).
    destruct (read_messages RefLib c67_messages 0) as [[ms'| |] t'] eqn:E; try discriminate H.
    destruct (C67_sound RefLib c67_messages 0 ms' t' C40_spec c67_messages_clean E) as (ms & HM & HL). exists ms. split; [exact HM|].
    clear -HL. induction HL as [|m m' ms ms' [_ _ (h & mi & s & ns & HT & _) _ _ _ _] _ IH]; constructor; auto. unfold timed. rewrite HT. discriminate.
  - intros rs HR HU. rewrite (c67_only rs HR HU). split; [|split].
    + apply Forall_cons; [exact c67_ordinary|apply Forall_nil].
    + apply Forall_cons; [|apply Forall_nil]. apply (sets_ok _ _ c67_ordinary). vm_compute. reflexivity.
    + intros m ms' w' E HI. split; [|apply Forall_cons; [apply c67_covered|apply Forall_nil]]. apply ascii_messageb_ok.
      assert (H : match read_messages RefLib c67_messages 0 with (Ok l, _) => forallb ascii_messageb l | _ => false end = true) by (vm_compute; reflexivity).
      rewrite E in H. rewrite forallb_forall in H. auto.
Qed.
(** kinds of values *)
Definition one_message (entries : list (string * yaml)) : yaml := ym [("messages", YSeq [ym (("request_time", c67_time) :: entries)])].
Definition sizes (z : yaml) : option (list Z) := option_map (map m_size) (ok_with (read_messages RefLib z 0)).
Definition versions (z : yaml) : option (list (option bool)) := option_map (map (fun m => option_map (fun x => feqb x f_zero) (m_enc_version m))) (ok_with (read_messages RefLib z 0)).
Definition raws (z : yaml) : option (list (option iface)) := option_map (map m_raw) (ok_with (read_messages RefLib z 0)).
Example C67_values :
  sizes (one_message [("request_size", ys "100")]) = None /\ sizes (one_message [("request_size", YScalar "-1.9" (GFloat (fdiv (f64_of_Z (-19)) (f64_of_Z 10))))]) = Some [(-1)%Z] /\
  sizes (one_message [("request_size", YScalar ".inf" (GFloat (S754_infinity false)))]) = None /\ sizes (one_message [("request_size", YScalar "1e18" (GFloat (f64_of_Z (10 ^ 18))))]) = Some [(10 ^ 18)%Z] /\
  sizes (one_message [("request_size", YScalar "1e19" (GFloat (f64_of_Z (10 ^ 19))))]) = None /\ sizes (one_message [("request_size", YScalar "-1e19" (GFloat (f64_of_Z (- 10 ^ 19))))]) = Some [(- 2 ^ 63)%Z] /\
  versions (one_message [("encryption_version", YScalar "~" GNil)]) = Some [None] /\ versions (one_message [("encryption_version", YScalar "Null" GNil)]) = Some [Some true] /\
  versions (one_message [("encryption_version", ynum "1" 1)]) = Some [Some false] /\ versions (one_message [("encryption_version", ys "1")]) = None /\
  raws (one_message [("interface_raw", ys "null")]) = None /\ raws (one_message [("interface_raw", YScalar "Null" GNil)]) = Some [Some GNil] /\ raws (one_message [("interface_raw", YScalar "" GNil)]) = Some [None] /\
  raws (one_message [("interface_raw", YMap [(YSeq [], ys "x")])]) = None /\ raws (one_message [("-", ys "x"); ("SourceLabels", ys "y")]) = Some [None].
Proof. repeat split; vm_compute; reflexivity. Qed.
(** times *)
Example C67_times : sizes (ym [("messages", YSeq [ym []])]) = None /\ sizes (ym [("messages", YScalar "~" GNil)]) = Some [] /\ sizes (ym [("message", YSeq [ym []])]) = Some [] /\ sizes (YScalar "" GNil) = Some [] /\
  sizes (YSeq []) = None /\ sizes (ym [("messages", ym [])]) = None /\ sizes (one_message []) = Some [0%Z].
Proof. repeat split; vm_compute; reflexivity. Qed.
(** one message, with the text its fields are counted in *)
Definition c67_value (e : string * string) : yaml :=
  if String.eqb (fst e) "request_size" then ynum (snd e) 100 else if String.eqb (fst e) "encryption_version" then ynum (snd e) 1 else ys (snd e).
Definition c67_document (es : list (string * string)) : list (yaml * yaml) := map (fun e => (ys (fst e), c67_value e)) es.
Lemma c67_written es : Forall2 entry_text (c67_document es) es.
Proof.
  induction es as [|[k v] es IH]; constructor; [|exact IH]. split; [constructor; discriminate|]. unfold c67_value. cbn [fst snd].
  destruct (String.eqb k "request_size"); [constructor; discriminate|]. destruct (String.eqb k "encryption_version"); constructor; discriminate.
Qed.
Lemma c67_at es k y : at_key (c67_document es) k y -> exists v, In (k, v) es /\ y = c67_value (k, v).
Proof.
  intros (key & HT & HI). apply in_map_iff in HI. destruct HI as ([k' v] & E & HI). injection E as <- <-. inversion HT; subst; eauto.
Qed.
Lemma c67_plain_entries es msg : describesb RefLib es msg = true -> existsb (fun e => existsb (String.eqb (fst e)) ["json_raw"; "json_raw_relative"; "interface_raw"; "interface_raw_relative"]) es = false ->
  plain_entries RefLib (c67_document es) es msg.
Proof.
  intros HB HN. pose proof (describesb_ok _ _ _ HB) as HD. constructor.
  - exact (d_key _ _ _ HD).
  - exact (d_quiet _ _ _ HD).
  - intros y HK. apply c67_at in HK. destruct HK as (v & HI & ->). destruct (d_size _ _ _ HD) as [H|[H _]]; [|destruct H; apply in_map_iff; exists ("request_size", v); auto].
    assert (E : v = fmt_int (m_size msg)).
    { pose proof (d_once _ _ _ HD) as HO. clear -HO HI H. induction es as [|[k w] es IH]; [destruct H|]. cbn [map fst] in HO. inversion HO as [|? ? HA HO' ]; subst.
      destruct HI as [HI|HI], H as [H|H].
      - congruence.
      - injection HI as -> ->. destruct HA. apply in_map_iff. exists ("request_size", fmt_int (m_size msg)). auto.
      - injection H as -> ->. destruct HA. apply in_map_iff. exists ("request_size", v). auto.
      - auto. }
    rewrite E. constructor. discriminate.
  - intros y HK. apply c67_at in HK. destruct HK as (v & HI & _). destruct (d_version _ _ _ HD) as [(v' & x & u & _ & E & H & HQ)|[H _]]; [eauto|]. destruct H. apply in_map_iff. exists ("encryption_version", v). auto.
  - intros k HK y HA. apply c67_at in HA. destruct HA as (v & HI & _). assert (existsb (fun e => existsb (String.eqb (fst e)) ["json_raw"; "json_raw_relative"; "interface_raw"; "interface_raw_relative"]) es = true) as HT; [|congruence].
    apply existsb_exists. exists (k, v). split; [exact HI|]. apply existsb_exists. exists k. split; [exact HK|apply String.eqb_refl].
Qed.
Lemma c67_message_text y msg : clean y -> (exists t', decode_message y 0 = (Ok (msg, false), t')) -> message_text y msg.
Proof. intros HC H. apply (message_exact _ _ 0 HC). exact H. Qed.
Definition misspelt_entries : list (string * string) := ("request_metod", "GET") :: sample_entries.
Example C67_one_case :
  (clean (YMap (c67_document sample_entries)) /\ Forall2 entry_text (c67_document sample_entries) sample_entries /\ message_text (YMap (c67_document sample_entries)) sample_read /\
   plain_entries RefLib (c67_document sample_entries) sample_entries sample_read /\ countable sample_entries) /\
  (clean (YMap (c67_document misspelt_entries)) /\ Forall2 entry_text (c67_document misspelt_entries) misspelt_entries /\ message_text (YMap (c67_document misspelt_entries)) sample_read /\
   plain_entries RefLib (c67_document misspelt_entries) misspelt_entries sample_read /\ ~ countable misspelt_entries).
Proof.
  split; (split; [apply cleanb_ok; vm_compute; reflexivity|]; split; [apply c67_written|]; split; [apply c67_message_text; [apply cleanb_ok; vm_compute; reflexivity|eexists; vm_compute; reflexivity]|]; split; [apply c67_plain_entries; vm_compute; reflexivity|]).
  - exact (proj1 (proj2 C61_read)).
  - intro H. apply (proj1 (proj2 C61_misspelt)). exact (co_known _ H _ _ (or_introl eq_refl)).
Qed.
(** a misspelt field: an error when one message is read, and skipped in a list of messages *)
Theorem C67_misspelt_refuted : ~ (forall L m es msg, clean (YMap m) -> Forall2 entry_text m es -> message_text (YMap m) msg -> plain_entries L m es msg -> timed L msg ->
  (exists t', read_message L (YMap m) (yaml_text es) 0 = (Err, t')) -> exists t', read_messages L (ym [("messages", YSeq [YMap m])]) 0 = (Err, t')).
Proof.
  intro H. set (es := ("request_metod", "GET") :: ("request_time", "2018-07-29T14:30:00Z") :: []).
  set (msg := mkMessage "" "" "" "" "" "" "" "" "" "" 0 "2018-07-29T14:30:00Z" "" "" "" "" "" "" "" "" "" None None None None None "" f_zero f_zero f_zero [] [] [] []).
  assert (HC : clean (YMap (c67_document es))) by (apply cleanb_ok; vm_compute; reflexivity).
  assert (HM : message_text (YMap (c67_document es)) msg) by (apply (message_exact _ _ 0 HC); eexists; vm_compute; reflexivity).
  destruct (H RefLib (c67_document es) es msg HC (c67_written es) HM) as [t' E].
  - apply c67_plain_entries; vm_compute; reflexivity.
  - vm_compute. discriminate.
  - assert (B : match fst (read_message RefLib (YMap (c67_document es)) (yaml_text es) 0) with Err => true | _ => false end = true) by (vm_compute; reflexivity).
    destruct (read_message RefLib (YMap (c67_document es)) (yaml_text es) 0) as [[?| |] t']; try discriminate B. exists t'. reflexivity.
  - assert (B : match fst (read_messages RefLib (ym [("messages", YSeq [YMap (c67_document es)])]) 0) with Err => true | _ => false end = false) by (vm_compute; reflexivity). rewrite E in B. discriminate B.
Qed.
Print Assumptions C67_misspelt_refuted.
(** a repeated field is no error in a file of messages (it is in a file of rules, C66_file) *)
Theorem C67_repeats_refuted : ~ (forall L y t, repeats y -> fst (read_messages_file L (Some y) t) = Err).
Proof.
  intro H. assert (E : fst (read_messages_file RefLib (Some (one_message [("request_path", ys "/a"); ("request_path", ys "/b")])) 0) = Err).
  - apply H. eapply rp_value; [left; reflexivity|]. eapply rp_item; [left; reflexivity|].
    apply (rp_here [(ys "request_time", c67_time)] "request_path" (GStr "request_path") (ys "/a") [] "request_path" (GStr "request_path") (ys "/b") []); [exact I|left; reflexivity].
  - assert (B : option_map (map m_path) (ok_with (read_messages_file RefLib (Some (one_message [("request_path", ys "/a"); ("request_path", ys "/b")])) 0)) = Some ["/b"]) by (vm_compute; reflexivity).
    unfold ok_with in B. rewrite E in B. discriminate B.
Qed.
Print Assumptions C67_repeats_refuted.
