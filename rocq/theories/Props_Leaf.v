(** C16-C21, C44: single conditions. *)
From Coq Require Import List String Ascii Bool Arith ZArith Permutation.
From Verif Require Import Base GoStr GoFloat Types Json StrUtils Validate Prepare Eval Lifecycle
  Spec_Tree Tree_laws Spec_Regex Spec_Glob Spec_Leaf Number_proofs Leaf_laws Attr_proofs Spec_Integer Integer_proofs Size_proofs
  RefLib RefLib_facts RefLib_numbers Samples Leaf_samples.
Import ListNotations.
Open Scope string_scope.

(** Notions used throughout (Spec_Leaf): [prepares L p att method value ret c] - the condition written with
    this attribute, method and value is accepted and prepared as [c]; [replaced p method value v] - [v] is the
    value after predefined texts were substituted; [method_is word k] - the method word denotes comparison [k];
    [shows L att m s] - reading the path of the attribute in the document of [m] gives [s];
    [may_return L n m b] / [may_panic L n m] - some legal map order makes evaluation return [b] / panic. *)

(** the value of a JSON-path condition, for all methods and documents *)
Theorem C17_condition : forall L p att method value ret c v k m s b, NumberSpec L ->
  prepares L p att method value ret c -> replaced p method value v -> plain_value v -> method_is method k ->
  shows L att m s -> may_return L (NCond c) m b -> (b = true <-> satisfied L k v s).
Proof. exact condition_iff. Qed.
Print Assumptions C17_condition.

(** ** C16 *)
Theorem C16_parsed : forall L p att method value ret c rel query q d m b, prepares L p att method value ret c ->
  path_of att rel query -> ~ In query ["$KEY"; "$VALUE"] -> m_raw m <> None -> jp_prepare L query = Some q ->
  (if rel then m_raw_rel m else m_raw m) = Some d ->
  (forall v, asks L q d = Some v -> In v [GNil; GStr ""; GArr []]) ->
  may_return L (NCond c) m b -> (b = true <-> In method ["NEX"; "nex"]).
Proof. exact missing_parsed. Qed.
Print Assumptions C16_parsed.

Theorem C16_raw : forall L p att method value ret c rel query d m b, prepares L p att method value ret c ->
  path_of att rel query -> ~ In query ["$KEY"; "$VALUE"] -> m_raw m = None ->
  (if rel then m_json_rel m else m_json m) = Some d -> d <> "" ->
  (forall text, fetch L d query = Some text -> In text [""; dqs ++ dqs; "[]"]) ->
  may_return L (NCond c) m b -> (b = true <-> In method ["NEX"; "nex"]).
Proof. exact missing_in_raw. Qed.
Print Assumptions C16_raw.

(** keys, values and elements too *)
Theorem C16_missing : forall L p att method value ret c m b, prepares L p att method value ret c ->
  shows L att m Missing -> may_return L (NCond c) m b -> (b = true <-> In method ["NEX"; "nex"]).
Proof. exact missing_only_nex. Qed.
Print Assumptions C16_missing.

Theorem C16_no_document : forall L p att method value ret c rel q m b, prepares L p att method value ret c ->
  path_of att rel q -> jp_prepare L "$.*" <> None -> nothing_to_read rel m ->
  may_return L (NCond c) m b -> b = false.
Proof. exact nothing_false. Qed.
Print Assumptions C16_no_document.

(** a null in a raw document is not missing: its text is "null" *)
Theorem C16_raw_null_refuted :
  leaf_case "jsonpath:$.a" "EX" "" KEx (bytes_msg "{'a':null}") (Present "null") (Some true) /\
  leaf_case "jsonpath:$.a" "NEX" "" KNex (bytes_msg "{'a':null}") (Present "null") (Some false) /\
  leaf_case "jsonpath:$.a" "NEX" "" KNex (parsed_msg "{'a':null}") Missing (Some true).
Proof. repeat split; apply leaf_ok; vm_compute; reflexivity. Qed.
Print Assumptions C16_raw_null_refuted.

Definition missing_docs : list message :=
  [parsed_msg "{'b':1}"; parsed_msg "{'a':null}"; parsed_msg "{'a':''}"; parsed_msg "{'a':[]}"; parsed_msg "{'a':{'c':1}}";
   bytes_msg "{'b':1}"; bytes_msg "{'a':''}"; bytes_msg "{'a':[]}"].
Definition missing_path (m : message) : string :=
  if String.eqb (match m_raw m with Some (GMapS [(_, GMapS _)]) => "c" | _ => "" end) "c" then ".a.b" else ".a".
Example C16_case : forall m, In m missing_docs -> forall method value k, In (method, value, k)
   [("EX", "", KEx); ("EQ", "x", KEq); ("NEQ", "x", KNeq); ("LT", "3", KLt); ("NE", "3", KNe); ("GE", "3", KGe);
    ("RE", ".*", KRe); ("NRE", "x", KNre); ("IN", "[a,b]", KIn); ("NIN", "[a,b]", KNin); ("NEX", "", KNex)] ->
  leaf_case ("jsonpath:$" ++ missing_path m) method value k m Missing (Some (String.eqb method "NEX")).
Proof.
  assert (H : forallb (fun m => forallb (fun e => leaf_check (missing_path m) (fst (fst e)) (snd (fst e)) (snd e) m Missing
                          (Some (String.eqb (fst (fst e)) "NEX")))
   [("EX", "", KEx); ("EQ", "x", KEq); ("NEQ", "x", KNeq); ("LT", "3", KLt); ("NE", "3", KNe); ("GE", "3", KGe);
    ("RE", ".*", KRe); ("NRE", "x", KNre); ("IN", "[a,b]", KIn); ("NIN", "[a,b]", KNin); ("NEX", "", KNex)]) missing_docs = true)
    by (vm_compute; reflexivity).
  intros m HM method value k HI. apply leaf_ok.
  rewrite forallb_forall in H. specialize (H m HM). rewrite forallb_forall in H. exact (H _ HI).
Qed.
Example C16_no_document_case : run_leaf "jsonpath:$.a" "NEX" "" msg0 = Some (Some false) /\ nothing_to_read false msg0.
Proof. split; [vm_compute; reflexivity|]. repeat split. left. reflexivity. Qed.

(** ** C17 *)
Theorem C17_complementary : forall L p att method method' value value' v ret ret' c c' k k' m t b b', NumberSpec L ->
  In (k, k') opposites -> method_is method k -> method_is method' k' ->
  prepares L p att method value ret c -> prepares L p att method' value' ret' c' ->
  replaced p method value v -> replaced p method' value' v -> plain_value v ->
  shows L att m (Present t) -> may_return L (NCond c) m b -> may_return L (NCond c') m b' -> b' = negb b.
Proof. exact complementary. Qed.
Print Assumptions C17_complementary.

Theorem C17_exists : forall L p att method value ret c m t b, NumberSpec L -> method_is method KEx ->
  prepares L p att method value ret c -> plain_value value -> ~ starts "#" value ->
  shows L att m (Present t) -> t <> "" -> may_return L (NCond c) m b -> b = true.
Proof. exact present_exists. Qed.
Print Assumptions C17_exists.

(** what is read for strings and booleans: strings that are not quoted or bracketed are read as they are *)
Theorem C17_text : forall L t, clean t -> t <> "<nil>" -> value_status L (GStr t) = Present t.
Proof. exact text_status. Qed.
Print Assumptions C17_text.
Theorem C17_raw_text : forall t, clean t -> ~ starts "]" t -> (forall a, t <> a ++ "[") ->
  status_of (dqs ++ t ++ dqs) = Present t /\ status_of t = Present t.
Proof. intros t H1 H2 H3. split; [exact (quoted_status t H1 H2 H3)|exact (clean_status t H1)]. Qed.
Print Assumptions C17_raw_text.
Theorem C17_bool : forall L b, value_status L (GBool b) = Present (if b then "true" else "false").
Proof. exact bool_status. Qed.
Print Assumptions C17_bool.

(** with quotation marks on one side only, EX and NEX are both false *)
Theorem C17_misaligned_refuted :
  leaf_case "jsonpath:$.a" "EX" "" KEx (set_raw msg0 (Some (GMapS [("a", GStr (dqs ++ "x"))]))) Misaligned (Some false) /\
  leaf_case "jsonpath:$.a" "NEX" "" KNex (set_raw msg0 (Some (GMapS [("a", GStr (dqs ++ "x"))]))) Misaligned (Some false).
Proof. repeat split; apply leaf_ok; vm_compute; reflexivity. Qed.
Print Assumptions C17_misaligned_refuted.

Example C17_case :
  let m := parsed_msg "{'a':{'b':'hello'},'n':7}" in let r := bytes_msg "{'a':{'b':'hello'},'n':7}" in
  leaf_case "jsonpath:$.a.b" "EX" "" KEx m (Present "hello") (Some true) /\
  leaf_case "jsonpath:$.a.b" "NEX" "" KNex m (Present "hello") (Some false) /\
  leaf_case "jsonpath:$.a.b" "RE" "^h.*o$" KRe r (Present "hello") (Some true) /\
  leaf_case "jsonpath:$.a.b" "NRE" "^h.*o$" KNre r (Present "hello") (Some false) /\
  leaf_case "jsonpath:$.a.b" "EQ" "world" KEq m (Present "hello") (Some false) /\
  leaf_case "jsonpath:$.a.b" "NEQ" "world" KNeq m (Present "hello") (Some true) /\
  leaf_case "jsonpath:$.n" "eq" "7.0" KEq r (Present "7") (Some true) /\
  leaf_case "jsonpath:$.n" "neq" "7.0" KNeq r (Present "7") (Some false) /\
  clean "hello" /\ NumberSpec RefLib.
Proof.
  do 8 (split; [apply leaf_ok; vm_compute; reflexivity|]). split; [|exact RefLib_number].
  split; [discriminate|]. split; [discriminate|].
  do 2 (split; [apply contains_none; reflexivity|]).
  split; [exact (contains_none ("[" ++ dqs) "hello" eq_refl)|]. split; [exact (contains_none (dqs ++ "]") "hello" eq_refl)|]. split.
  - intros [r E]. discriminate.
  - intros a E. apply (contains_none dqs "hello" eq_refl a ""). exact E.
Qed.

(** ** C18 *)
Theorem C18_numbers : forall L p att method method' value v ret ret' c c' m t x y b b', NumberSpec L ->
  method_is method KNe -> method_is method' KNeq ->
  prepares L p att method value ret c -> prepares L p att method' value ret' c' ->
  replaced p method value v -> replaced p method' value v -> plain_value v ->
  shows L att m (Present t) -> quantity L v x -> quantity L t y ->
  may_return L (NCond c) m b -> may_return L (NCond c') m b' -> b = b'.
Proof. exact ne_on_numbers. Qed.
Print Assumptions C18_numbers.

Theorem C18_texts : forall L p att method value v ret c m t b, NumberSpec L ->
  method_is method KNe -> prepares L p att method value ret c -> replaced p method value v -> plain_value v ->
  shows L att m (Present t) -> not_number L v \/ not_number L t -> may_return L (NCond c) m b -> b = false.
Proof. exact ne_on_texts. Qed.
Print Assumptions C18_texts.

Example C18_case : let m := parsed_msg "{'a':'hello','n':7}" in
  leaf_case "jsonpath:$.a" "NE" "world" KNe m (Present "hello") (Some false) /\
  leaf_case "jsonpath:$.a" "NEQ" "world" KNeq m (Present "hello") (Some true) /\
  leaf_case "jsonpath:$.n" "NE" "8" KNe m (Present "7") (Some true) /\
  leaf_case "jsonpath:$.n" "NEQ" "8" KNeq m (Present "7") (Some true) /\
  not_number RefLib "hello" /\ quantity RefLib "7" (f64_of_Z 7).
Proof.
  do 4 (split; [apply leaf_ok; vm_compute; reflexivity|]).
  split; [apply not_number_iff; vm_compute; reflexivity|apply number_iff; vm_compute; reflexivity].
Qed.

(** ** C19 *)
Theorem C19_membership : forall L p att method value v ret c k m t l b, NumberSpec L -> RegexSpec L ->
  method_is method k -> prepares L p att method value ret c -> replaced p method value v ->
  l <> [] -> Forall plain_item l -> v = list_value l \/ v = String.concat "," l ->
  shows L att m (Present t) -> ascii_text t -> may_return L (NCond c) m b ->
  (k = KIn -> (b = true <-> In t l)) /\ (k = KNin -> (b = true <-> ~ In t l)).
Proof. exact list_membership. Qed.
Print Assumptions C19_membership.

Theorem C19_empty : forall L p att method value ret c, In method ["IN"; "NIN"] -> replaced p method value "" ->
  ~ prepares L p att method value ret c.
Proof. exact empty_list_rejected. Qed.
Print Assumptions C19_empty.

Example C19_case : let m := parsed_msg "{'a':'b'}" in
  leaf_case "jsonpath:$.a" "IN" "[a,b,c]" KIn m (Present "b") (Some true) /\
  leaf_case "jsonpath:$.a" "NIN" "[a,b,c]" KNin m (Present "b") (Some false) /\
  leaf_case "jsonpath:$.a" "IS" "ab,bc" KIn m (Present "b") (Some false) /\
  list_value ["a"; "b"; "c"] = "[a,b,c]" /\ Forall plain_item ["a"; "b"; "c"] /\ ascii_text "b" /\ RegexSpec RefLib.
Proof.
  do 3 (split; [apply leaf_ok; vm_compute; reflexivity|]). split; [reflexivity|].
  split; [|split; [|exact RefLib_regex]].
  - repeat constructor; simpl; try discriminate; intro H; repeat (destruct H as [H|H]; [discriminate|]); destruct H.
  - vm_compute. repeat split; repeat constructor.
Qed.

(** ** C20 *)
(** [quantity L s x]: [s] is a number followed by a unit of the table [unit_factors] (or no unit), [x] their product *)
Theorem C20_numbers : forall L p att method value v ret c k m t x y b, NumberSpec L ->
  method_is method k -> In k number_kinds ->
  prepares L p att method value ret c -> replaced p method value v -> plain_value v ->
  shows L att m (Present t) -> quantity L v x -> quantity L t y -> may_return L (NCond c) m b ->
  (b = true <-> float_holds k y x).
Proof. exact numbers_compared. Qed.
Print Assumptions C20_numbers.

Theorem C20_text_against_number : forall L p att method value v ret c k m t x b, NumberSpec L ->
  method_is method k -> In k [KEq; KNeq; KNe; KLt; KLe; KGt; KGe] ->
  prepares L p att method value ret c -> replaced p method value v -> plain_value v ->
  shows L att m (Present t) -> quantity L v x -> not_number L t -> may_return L (NCond c) m b -> (b = true <-> k = KNeq).
Proof. exact text_against_number. Qed.
Print Assumptions C20_text_against_number.

(** the results of the order methods on one attribute and value *)
Theorem C20_order : forall L p att value m t x y (conds : kind -> cond L) (method : kind -> string) (ret : kind -> retpart L) (b : kind -> bool),
  NumberSpec L -> ~ starts "#" value -> plain_value value ->
  shows L att m (Present t) -> quantity L value x -> quantity L t y ->
  (forall k, In k [KLt; KEq; KGt; KLe; KGe] -> method_is (method k) k /\
     prepares L p att (method k) value (ret k) (conds k) /\ may_return L (NCond (conds k)) m (b k)) ->
  b KLe = b KLt || b KEq /\ b KGe = b KGt || b KEq /\
  (~ is_nan x -> ~ is_nan y ->
     (b KLt = true /\ b KEq = false /\ b KGt = false) \/ (b KLt = false /\ b KEq = true /\ b KGt = false)
     \/ (b KLt = false /\ b KEq = false /\ b KGt = true)) /\
  (is_nan x \/ is_nan y -> forall k, In k [KLt; KEq; KGt; KLe; KGe] -> b k = false).
Proof. exact order_laws. Qed.
Print Assumptions C20_order.

(** a text has at most one number *)
Theorem C20_functional : forall L s x y, quantity L s x -> quantity L s y -> x = y.
Proof. exact quantity_fun. Qed.
Print Assumptions C20_functional.

Example C20_case : let m := parsed_msg "{'mem':'2Gi','cpu':'500m','p':'50%','big':1500}" in
  leaf_case "jsonpath:$.mem" "GT" "1024Mi" KGt m (Present "2Gi") (Some true) /\
  leaf_case "jsonpath:$.mem" "EQ" "2048Mi" KEq m (Present "2Gi") (Some true) /\
  leaf_case "jsonpath:$.cpu" "LT" "0.5" KLt m (Present "500m") (Some false) /\
  leaf_case "jsonpath:$.cpu" "GE" "0.5" KGe m (Present "500m") (Some true) /\
  leaf_case "jsonpath:$.p" "LE" "0.5" KLe m (Present "50%") (Some true) /\
  leaf_case "jsonpath:$.big" "EQ" "1.5K" KEq m (Present "1500") (Some true) /\
  leaf_case "jsonpath:$.mem" "NEQ" "1" KNeq (parsed_msg "{'mem':'lots'}") (Present "lots") (Some true) /\
  leaf_case "jsonpath:$.mem" "LT" "1" KLt (parsed_msg "{'mem':'lots'}") (Present "lots") (Some false) /\
  quantity RefLib "2Gi" (f64_of_Z 2147483648) /\ quantity RefLib "1024Mi" (f64_of_Z 1073741824).
Proof.
  do 8 (split; [apply leaf_ok; vm_compute; reflexivity|]).
  split; apply number_iff; vm_compute; reflexivity.
Qed.

(** the product is rounded, so that equal quantities may differ *)
Theorem C20_exact_refuted :
  leaf_case "jsonpath:$.cpu" "EQ" "0.009" KEq (parsed_msg "{'cpu':'9m'}") (Present "9m") (Some false).
Proof. apply leaf_ok. vm_compute. reflexivity. Qed.
Print Assumptions C20_exact_refuted.

(** ** C21 *)
Theorem C21_sender_label : forall L p key method value ret c v k m b, label_key_ok key ->
  prepares L p (sender_label key) method value ret c -> replaced p method value v -> ~ starts "receiverLabel[" v ->
  method_is method k -> may_return L (NCond c) m b ->
  (b = true <-> exists t, assoc key (m_source_labels m) = Some t /\ label_holds L k v t).
Proof. exact sender_label_condition. Qed.
Print Assumptions C21_sender_label.

Theorem C21_receiver_label : forall L p key method value ret c v k m b, label_key_ok key ->
  prepares L p (receiver_label key) method value ret c -> replaced p method value v ->
  method_is method k -> may_return L (NCond c) m b ->
  (b = true <-> exists t, assoc key (m_dest_labels m) = Some t /\ label_holds L k v t).
Proof. exact receiver_label_condition. Qed.
Print Assumptions C21_receiver_label.

Theorem C21_label_pair : forall L p key key2 method value ret c k m b, label_key_ok key -> label_key_ok key2 ->
  prepares L p (sender_label key) method value ret c -> replaced p method value (receiver_label key2) ->
  method_is method k -> k <> KIn -> k <> KNin -> may_return L (NCond c) m b ->
  (b = true <-> exists t u, assoc key (m_source_labels m) = Some t /\ assoc key2 (m_dest_labels m) = Some u /\ same_holds k t u).
Proof. exact label_pair_condition. Qed.
Print Assumptions C21_label_pair.

Theorem C21_absent_label : forall L p key method value ret c v m b, label_key_ok key -> replaced p method value v ->
  (prepares L p (sender_label key) method value ret c /\ assoc key (m_source_labels m) = None \/
   prepares L p (receiver_label key) method value ret c /\ assoc key (m_dest_labels m) = None) ->
  may_return L (NCond c) m b -> b = false.
Proof. exact absent_label. Qed.
Print Assumptions C21_absent_label.

Theorem C21_text : forall L p att field method value ret c v k m b, In (att, field) text_fields ->
  prepares L p att method value ret c -> replaced p method value v -> plain_value v ->
  method_is method k -> may_return L (NCond c) m b -> (b = true <-> text_holds L k v (field m)).
Proof. exact text_attribute. Qed.
Print Assumptions C21_text.

Theorem C21_sender_receiver : forall L p x y method value ret c k m b, In x ["namespace"; "cluster"] -> In y ["namespace"; "cluster"] ->
  prepares L p ("$sender." ++ x) method value ret c -> replaced p method value ("$receiver." ++ y) ->
  method_is method k -> k <> KIn -> k <> KNin -> may_return L (NCond c) m b ->
  (b = true <-> same_holds k (if String.eqb x "namespace" then m_source_namespace m else m_source_cluster m)
                             (if String.eqb y "namespace" then m_dest_namespace m else m_dest_cluster m)).
Proof. exact sender_receiver_attribute. Qed.
Print Assumptions C21_sender_receiver.

(** payload size, hour and encryption version: the value, and exactly when evaluation panics *)
Theorem C21_size : forall L p method value ret c v k m, NumberSpec L ->
  prepares L p "payloadSize" method value ret c -> replaced p method value v -> method_is method k ->
  (forall b, may_return L (NCond c) m b -> (b = true <-> exists z, integer_text v z /\ int_holds k (m_size m) z)) /\
  (may_panic L (NCond c) m <-> In k number_kinds /\ ~ exists z, integer_text v z).
Proof. exact size_condition. Qed.
Print Assumptions C21_size.

(** the texts accepted for whole numbers, wherever one is read, and the texts printed for them *)
Theorem C21_integer : forall s z, parse_int s = Some z <-> integer_text s z.
Proof. exact parse_int_iff. Qed.
Print Assumptions C21_integer.

Theorem C21_printed : forall z s, fmt_int z = s <-> printed_as z s.
Proof. exact fmt_int_iff. Qed.
Print Assumptions C21_printed.
Example C21_integer_case :
  map parse_int ["42"; "+7"; "-0012"; "9223372036854775807"; "-9223372036854775808"; "9223372036854775808"; "1.5"; ""; "-"; "+-1"; "1_000"; "0x10"; " 1"] =
    [Some 42; Some 7; Some (-12); Some (2 ^ 63 - 1); Some (- 2 ^ 63); None; None; None; None; None; None; None; None]%Z /\
  integer_text "-0012" (-12) /\ (~ exists z, integer_text "9223372036854775808" z) /\
  map fmt_int [0; 7; -120; 2 ^ 63 - 1]%Z = ["0"; "7"; "-120"; "9223372036854775807"] /\ printed_as (-120) "-120" /\ ~ printed_as (-120) "-0120".
Proof.
  split; [vm_compute; reflexivity|]. split; [apply parse_int_iff; reflexivity|].
  split; [apply parse_int_none; reflexivity|]. split; [vm_compute; reflexivity|].
  split; [apply fmt_int_iff; reflexivity|]. rewrite <- fmt_int_iff. discriminate.
Qed.

Theorem C21_hours : forall L p method value ret c v k m, NumberSpec L ->
  prepares L p "utcHoursFromMidnight" method value ret c -> replaced p method value v -> method_is method k ->
  (forall b, may_return L (NCond c) m b -> (b = true <-> exists x, quantity L v x /\ float_holds k (m_t_hours m) x)) /\
  (may_panic L (NCond c) m <-> In k number_kinds /\ not_number L v).
Proof. exact hours_attribute. Qed.
Print Assumptions C21_hours.

Theorem C21_version : forall L p method value ret c v k m, NumberSpec L ->
  prepares L p "encryptionVersion" method value ret c -> replaced p method value v -> method_is method k ->
  (forall b, may_return L (NCond c) m b ->
     (b = true <-> exists a x, m_enc_version m = Some a /\ quantity L v x /\ float_holds k a x)) /\
  (may_panic L (NCond c) m <-> m_enc_version m = None \/ In k number_kinds /\ not_number L v).
Proof. exact version_attribute. Qed.
Print Assumptions C21_version.

Theorem C21_no_panic : forall L p att method value ret c v m,
  (exists field, In (att, field) text_fields) \/ (exists key, label_key_ok key /\ (att = sender_label key \/ att = receiver_label key)) ->
  prepares L p att method value ret c -> replaced p method value v -> ~ may_panic L (NCond c) m.
Proof. exact text_no_panic. Qed.
Print Assumptions C21_no_panic.

Definition labelled : message :=
  mkMessage "10.1.2.3" "ns1" "east" "10.9.9.9" "80" "ns1" "west" "/a/b" "example.com" "GET" 100 "" "curl/7" "HTTP" "id1"
    "front.end" "back.end" "" "" "path" "tls" None None None None None "dom" f_zero f_zero (f64_of_Z 5)
    [10; 1; 2; 3]%Z [10; 9; 9; 9]%Z [("app", "web"); ("tier", "1"); ("x", "")] [("app", "web"); ("tier", "2")].
(** the condition is accepted and evaluates as given *)
Definition attr_case (att method value : string) (k : kind) (b : option bool) : Prop :=
  exists c, prepares RefLib empty_predef att method value no_ret c /\ replaced empty_predef method value value /\
    method_is method k /\
    match b with Some b => may_return RefLib (NCond c) labelled b | None => may_panic RefLib (NCond c) labelled end.
Definition attr_check (att method value : string) (k : kind) (b : option bool) : bool :=
  negb (has_prefix value "#") && existsb (fun e => String.eqb (fst e) method && kind_eqb (snd e) k) method_words &&
  match run_leaf att method value labelled with Some b' => obool_eqb b b' | None => false end.
Lemma attr_ok att method value k b : attr_check att method value k b = true -> attr_case att method value k b.
Proof.
  unfold attr_check. rewrite !andb_true_iff. intros [[H1 H2] H3].
  destruct (run_leaf _ method value labelled) as [b'|] eqn:ER; [|discriminate].
  assert (EB : b = b') by (destruct b as [[]|], b' as [[]|]; simpl in H3; congruence). subst b'.
  destruct (run_leaf_ok _ _ _ _ _ ER) as (c & HP & HB). exists c. split; [exact HP|].
  split; [constructor; apply Leaf_proofs.starts_false; apply negb_true_iff; exact H1|]. split; [|exact HB].
  apply existsb_exists in H2. destruct H2 as ((w & k') & HI & HE). apply andb_true_iff in HE. destruct HE as [E1 E2].
  apply String.eqb_eq in E1. apply kind_eqb_ok in E2. simpl in *. subst. exact HI.
Qed.

Example C21_case :
  attr_case (sender_label "app") "EQ" "web" KEq (Some true) /\
  attr_case (sender_label "app") "NEQ" "db" KNeq (Some true) /\
  attr_case (sender_label "none") "NEQ" "db" KNeq (Some false) /\
  attr_case (sender_label "none") "NEX" "" KNex (Some false) /\
  attr_case (sender_label "none") "NRE" "x" KNre (Some false) /\
  attr_case (sender_label "x") "EX" "" KEx (Some true) /\
  attr_case (receiver_label "tier") "IN" "[2,3]" KIn (Some true) /\
  attr_case (sender_label "app") "EQ" (receiver_label "app") KEq (Some true) /\
  attr_case (sender_label "tier") "NEQ" (receiver_label "tier") KNeq (Some true) /\
  attr_case (sender_label "tier") "NEQ" (receiver_label "none") KNeq (Some false) /\
  attr_case "$sender.namespace" "EQ" "$receiver.namespace" KEq (Some true) /\
  attr_case "$sender.cluster" "EQ" "$receiver.cluster" KEq (Some false) /\
  attr_case "$receiver.cluster" "RE" "^w" KRe (Some true) /\
  attr_case "domain" "EX" "" KEx (Some true) /\
  attr_case "requestUseragent" "RE" "curl" KRe (Some true) /\
  attr_case "payloadSize" "GT" "99" KGt (Some true) /\
  attr_case "payloadSize" "EQ" "abc" KEq None /\
  attr_case "payloadSize" "GT" "1Ki" KGt None /\
  attr_case "utcHoursFromMidnight" "LT" "5.5" KLt (Some true) /\
  attr_case "utcHoursFromMidnight" "NEQ" "noon" KNeq None /\
  attr_case "encryptionVersion" "GE" "1.2" KGe None /\
  label_key_ok "app".
Proof.
  do 21 (split; [apply attr_ok; vm_compute; reflexivity|]). simpl. repeat split; discriminate.
Qed.

(** EQ on these attributes is not equality: the value is used as a pattern, and the anchors bind tighter than
    alternatives *)
Theorem C21_literal_refuted :
  attr_case "domain" "EQ" "d.m" KEq (Some true) /\ attr_case "domain" "EQ" "dom|xyz" KEq (Some true) /\
  attr_case "requestUseragent" "EQ" "curl|wget" KEq (Some true).
Proof. repeat split; apply attr_ok; vm_compute; reflexivity. Qed.
Print Assumptions C21_literal_refuted.

(** ** C44 *)
Theorem C44_agree : forall L p att method value v ret c k m m' s b b', NumberSpec L ->
  method_is method k -> prepares L p att method value ret c -> replaced p method value v -> plain_value v ->
  shows L att m s -> shows L att m' s -> may_return L (NCond c) m b -> may_return L (NCond c) m' b' -> b = b'.
Proof. exact backends_agree. Qed.
Print Assumptions C44_agree.

Theorem C44_parsed_never_panics : forall L p att method value v ret c k m s, NumberSpec L ->
  method_is method k -> prepares L p att method value ret c -> replaced p method value v -> plain_value v ->
  r_paths ret = None -> shows L att m s -> m_raw m <> None -> ~ may_panic L (NCond c) m.
Proof. exact parsed_no_crash. Qed.
Print Assumptions C44_parsed_never_panics.

Theorem C44_raw_panics : forall L p att method value v ret c k m s, NumberSpec L ->
  method_is method k -> prepares L p att method value ret c -> replaced p method value v -> plain_value v ->
  r_paths ret = None -> shows L att m s -> m_raw m = None ->
  (may_panic L (NCond c) m <-> exists t, s = Present t /\ In k [KEq; KNeq; KNe] /\ not_number L v /\ exists y, quantity L t y).
Proof. exact raw_crash_iff. Qed.
Print Assumptions C44_raw_panics.

Example C44_case :
  let m := parsed_msg "{'a':{'b':'hello'},'n':7}" in let r := bytes_msg "{'a':{'b':'hello'},'n':7}" in
  leaf_case "jsonpath:$.a.b" "EQ" "hello" KEq m (Present "hello") (Some true) /\
  leaf_case "jsonpath:$.a.b" "EQ" "hello" KEq r (Present "hello") (Some true) /\
  leaf_case "jsonpath:$.n" "EQ" "hello" KEq m (Present "7") (Some false) /\
  leaf_case "jsonpath:$.n" "EQ" "hello" KEq r (Present "7") None.
Proof. repeat split; apply leaf_ok; vm_compute; reflexivity. Qed.

(** the two kinds of documents do not always show the same text: numbers are printed differently *)
Theorem C44_number_text_refuted :
  leaf_case "jsonpath:$.n" "RE" "^1000000$" KRe (bytes_msg "{'n':1000000}") (Present "1000000") (Some true) /\
  leaf_case "jsonpath:$.n" "RE" "^1000000$" KRe (parsed_msg "{'n':1000000}") (Present "1e+06") (Some false).
Proof. split; apply leaf_ok; vm_compute; reflexivity. Qed.
Print Assumptions C44_number_text_refuted.
