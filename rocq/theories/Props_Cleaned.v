(** C80: the text a JSON-path condition compares. *)
From Coq Require Import List String Ascii Bool Arith ZArith.
From Verif Require Import Base GoStr GoFloat Types Json StrUtils Validate Prepare Eval Lifecycle
  Spec_Tree Tree_laws Spec_Regex Spec_Glob Glob_proofs Spec_Names Spec_Leaf Number_proofs Leaf_laws Spec_Cleaned Cleaned_proofs
  RefLib RefLib_facts RefLib_numbers Samples Leaf_samples.
Import ListNotations.
Open Scope string_scope.

(** the value found in a parsed document, and the text found in a raw one *)
Theorem C80_parsed : forall L p att method value ret c v k rel query q d u s m b, NumberSpec L ->
  prepares L p att method value ret c -> replaced p method value v -> plain_value v -> method_is method k ->
  path_of att rel query -> ~ In query ["$KEY"; "$VALUE"] -> m_raw m <> None -> jp_prepare L query = Some q ->
  (if rel then m_raw_rel m else m_raw m) = Some d -> asks L q d = Some u -> text_of L u <> "<nil>" ->
  compared (text_of L u) s -> may_return L (NCond c) m b -> (b = true <-> satisfied L k v s).
Proof. exact parsed_condition. Qed.
Print Assumptions C80_parsed.

Theorem C80_raw : forall L p att method value ret c v k rel query d raw s m b, NumberSpec L ->
  prepares L p att method value ret c -> replaced p method value v -> plain_value v -> method_is method k ->
  path_of att rel query -> ~ In query ["$KEY"; "$VALUE"] -> m_raw m = None ->
  (if rel then m_json_rel m else m_json m) = Some d -> d <> "" -> fetch L d query = Some raw ->
  compared raw s -> may_return L (NCond c) m b -> (b = true <-> satisfied L k v s).
Proof. exact raw_condition. Qed.
Print Assumptions C80_raw.

(** every text is compared in exactly one way *)
Theorem C80_status : forall raw s, status_of raw = s <-> compared raw s.
Proof. exact status_iff. Qed.
Print Assumptions C80_status.

(** replacing as used there and in paths: all occurrences, from left to right *)
Theorem C80_replace : forall w r s t, w <> "" -> (replace_all s w r = t <-> all_replaced w r s t).
Proof. exact replace_all_iff. Qed.
Print Assumptions C80_replace.

(** the other searches in texts: the first occurrence, the number of occurrences (for units), and splitting *)
Theorem C80_replace_first : forall w r s t, w <> "" -> (replace_first s w r = t <-> first_replaced w r s t).
Proof. exact replace_first_iff. Qed.
Print Assumptions C80_replace_first.

Theorem C80_count : forall w s n, w <> "" -> (count s w = n <-> times w s n).
Proof. exact count_iff. Qed.
Print Assumptions C80_count.

Theorem C80_split : forall c s l, split_char c s = l <-> separated c s l.
Proof. exact split_char_iff. Qed.
Print Assumptions C80_split.

(** the regular expression of a list of values: one alternative for each item, without the brackets *)
Theorem C80_alternatives : forall v items parts, comma_items v items -> Forall2 no_brackets items parts ->
  list_to_alternatives v = "^" ++ String.concat "$|^" parts ++ "$".
Proof. exact alternatives_text. Qed.
Print Assumptions C80_alternatives.

(** a text is not always compared as it is: doubled brackets and quotation marks get lost *)
Theorem C80_same_refuted :
  leaf_case "jsonpath:$.a" "EQ" "x[[y" KEq (set_raw msg0 (Some (GMapS [("a", GStr "x[[y")]))) (Present "x[y") (Some false) /\
  leaf_case "jsonpath:$.a" "EQ" "x[y" KEq (set_raw msg0 (Some (GMapS [("a", GStr "x[[y")]))) (Present "x[y") (Some true).
Proof. split; apply leaf_ok; vm_compute; reflexivity. Qed.
Print Assumptions C80_same_refuted.

Example C80_statuses :
  map status_of [""; "[]"; "[[]]"; "abc"; "[" ++ dqs ++ "abc" ++ dqs ++ "]"; dqs ++ dqs ++ "abc" ++ dqs ++ dqs; dqs ++ "abc"; dqs; "[1,2]"; "[[1],[2]]"] =
    [Missing; Missing; Missing; Present "abc"; Present "abc"; Present "abc"; Misaligned; Present dqs; Present "[1,2]"; Present "[1],[2]"] /\
  compared "[[1],[2]]" (Present "[1],[2]") /\ ~ compared "[[1],[2]]" (Present "[[1],[2]]").
Proof.
  split; [vm_compute; reflexivity|]. rewrite <- !status_iff. split; [vm_compute; reflexivity|]. vm_compute. discriminate.
Qed.
Example C80_parsed_case : leaf_case "jsonpath:$.a" "EQ" "abc" KEq (set_raw msg0 (Some (GMapS [("a", GArr [GStr "abc"])]))) (Present "abc") (Some true) /\
  (exists q, jp_prepare RefLib "$.a" = Some q /\ asks RefLib q (GMapS [("a", GArr [GStr "abc"])]) = Some (GArr [GStr "abc"])) /\
  compared (text_of RefLib (GArr [GStr "abc"])) (Present "abc").
Proof.
  split; [apply leaf_ok; vm_compute; reflexivity|]. split; [eexists; split; vm_compute; reflexivity|].
  apply status_iff. vm_compute. reflexivity.
Qed.
Example C80_replace_case : replace_all "aaaba" "aa" "x" = "xaba" /\ all_replaced "aa" "x" "aaaba" "xaba" /\ ~ all_replaced "aa" "x" "aaaba" "axba".
Proof.
  split; [reflexivity|]. rewrite <- !replace_all_iff by discriminate. split; [reflexivity|]. vm_compute. discriminate.
Qed.
Example C80_searches_case : replace_first "aXbX" "X" "yy" = "ayybX" /\ first_replaced "X" "yy" "aXbX" "ayybX" /\
  count "aaaaa" "aa" = 2 /\ times "aa" "aaaaa" 2 /\ ~ times "aa" "aaaaa" 4 /\
  split_char "." ".a..b" = [""; "a"; ""; "b"] /\ separated "." ".a..b" [""; "a"; ""; "b"] /\ ~ separated "." "a" ["a"; ""].
Proof.
  rewrite <- !replace_first_iff, <- !count_iff, <- !split_char_iff by discriminate. vm_compute. repeat split; discriminate.
Qed.
Example C80_alternatives_case : comma_items "[a,b]" ["[a"; "b]"] /\ Forall2 no_brackets ["[a"; "b]"] ["a"; "b"] /\
  list_to_alternatives "[a,b]" = "^a$|^b$".
Proof.
  split; [|split; [|reflexivity]].
  - apply comma_items_iff. reflexivity.
  - constructor; [|constructor; [|constructor]]; apply no_brackets_iff; reflexivity.
Qed.
