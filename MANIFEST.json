{
 "claims": [
  {
   "property": "C01",
   "status": "proved",
   "theorems": [
    "C01_decision",
    "C01_extra",
    "C01_no_decision"
   ],
   "note": ""
  },
  {
   "property": "C02",
   "status": "proved",
   "theorems": [
    "C02_relevant"
   ],
   "note": ""
  },
  {
   "property": "C03",
   "status": "proved",
   "theorems": [
    "C03_applied"
   ],
   "note": ""
  },
  {
   "property": "C04",
   "status": "proved",
   "theorems": [
    "C04_determined",
    "C04_same_rules",
    "C04_append",
    "C04_monotone"
   ],
   "note": ""
  },
  {
   "property": "C05",
   "status": "proved",
   "theorems": [
    "C05_rule_result",
    "C05_panic",
    "C05_ready"
   ],
   "note": ""
  },
  {
   "property": "C06",
   "status": "proved",
   "theorems": [
    "C06_check_message",
    "C06_rule_message",
    "C06_tree_message",
    "C06_check_twice"
   ],
   "note": "In Eval.v byte slices are values; with slices shared between the message and the results of jsonslice.Get the bytes of the document can change when ANY/ALL has several parents, see C52."
  },
  {
   "property": "C07",
   "status": "proved",
   "theorems": [
    "C07_sender_names",
    "C07_receiver_names",
    "C07_receiver_hosts",
    "C07_sender_other_type",
    "C07_receiver_other_type",
    "C07_names_prepare"
   ],
   "note": ""
  },
  {
   "property": "C08",
   "status": "proved",
   "theorems": [
    "C08_sender_subnets",
    "C08_receiver_subnets",
    "C08_items_valid",
    "C08_contains",
    "C08_no_address"
   ],
   "note": ""
  },
  {
   "property": "C09",
   "status": "proved",
   "theorems": [
    "C09_operation",
    "C09_disjoint"
   ],
   "note": ""
  },
  {
   "property": "C10",
   "status": "proved",
   "theorems": [
    "C10_resource"
   ],
   "note": ""
  },
  {
   "property": "C11",
   "status": "proved",
   "theorems": [
    "C11_and",
    "C11_or",
    "C11_not",
    "C11_and_empty",
    "C11_or_empty",
    "C11_truth",
    "C11_reordering",
    "C11_de_morgan_and",
    "C11_de_morgan_or"
   ],
   "note": ""
  },
  {
   "property": "C12",
   "status": "proved",
   "theorems": [
    "C12_any",
    "C12_all",
    "C12_elements",
    "C12_none",
    "C12_all_not_any_not",
    "C12_undetermined",
    "C12_bytes_duality_refuted"
   ],
   "note": "The duality ALL = NOT ANY NOT holds on parsed documents; on raw bytes it is refuted (C12_bytes_duality_refuted), because undeterminable elements make both ANY and ALL false."
  },
  {
   "property": "C13",
   "status": "proved",
   "theorems": [
    "C13_restored",
    "C13_independent",
    "C13_prepared"
   ],
   "note": ""
  },
  {
   "property": "C14",
   "status": "proved",
   "theorems": [
    "C14_order_independent",
    "C14_entries",
    "C14_ambiguous_refuted"
   ],
   "note": "Holds for unambiguous trees; for $KEY on an object with several keys the refutation C14_ambiguous_refuted gives a witness."
  },
  {
   "property": "C15",
   "status": "proved",
   "theorems": [
    "C15_extra_data",
    "C15_condition",
    "C15_record"
   ],
   "note": ""
  },
  {
   "property": "C16",
   "status": "proved",
   "theorems": [
    "C16_parsed",
    "C16_raw",
    "C16_missing",
    "C16_no_document",
    "C16_raw_null_refuted"
   ],
   "note": "False for JSON null in a raw-bytes document, whose text is \"null\": C16_raw_null_refuted gives the witness; every other clause is proved for both kinds of document."
  },
  {
   "property": "C17",
   "status": "proved",
   "theorems": [
    "C17_condition",
    "C17_complementary",
    "C17_exists",
    "C17_text",
    "C17_raw_text",
    "C17_bool",
    "C17_misaligned_refuted"
   ],
   "note": "C17_condition gives the exact value of every JSON-path condition; C17_misaligned_refuted shows the excluded misaligned-quote case."
  },
  {
   "property": "C18",
   "status": "proved",
   "theorems": [
    "C18_numbers",
    "C18_texts"
   ],
   "note": ""
  },
  {
   "property": "C19",
   "status": "proved",
   "theorems": [
    "C19_membership",
    "C19_empty"
   ],
   "note": ""
  },
  {
   "property": "C20",
   "status": "proved",
   "theorems": [
    "C20_numbers",
    "C20_text_against_number",
    "C20_order",
    "C20_functional",
    "C20_exact_refuted"
   ],
   "note": "Comparison is on the rounded products: C20_exact_refuted shows 9m differs from 0.009."
  },
  {
   "property": "C21",
   "status": "proved",
   "theorems": [
    "C21_sender_label",
    "C21_receiver_label",
    "C21_label_pair",
    "C21_absent_label",
    "C21_text",
    "C21_sender_receiver",
    "C21_size",
    "C21_integer",
    "C21_printed",
    "C21_hours",
    "C21_version",
    "C21_no_panic",
    "C21_literal_refuted"
   ],
   "note": "EQ/NEQ against a literal use the value as a pattern (C21_literal_refuted)."
  },
  {
   "property": "C22",
   "status": "proved",
   "theorems": [
    "C22_exact",
    "C22_defect",
    "C22_returns",
    "C22_loads"
   ],
   "note": "Exact: the panicking evaluations on a parsed document are those that reach one of the listed causes (Spec_Panic). Libraries are assumed to parse numbers as NumberSpec says and to accept the query $.*. The cause in return values needs a JSON-path library that accepts a path starting with $RELATIVE; C22_returns says it disappears otherwise. Messages without a parsed document are not covered."
  },
  {
   "property": "C23",
   "status": "proved",
   "theorems": [
    "C23_accepted",
    "C23_unchanged"
   ],
   "note": ""
  },
  {
   "property": "C24",
   "status": "proved",
   "theorems": [
    "C24_validation",
    "C24_tree",
    "C24_rule",
    "C24_success",
    "C24_missing_inner_refuted",
    "C24_quoted_parent_refuted"
   ],
   "note": "The exclusion of missing inner nodes is needed: the loader lets NOT: [] through (C24_missing_inner_refuted). Preparation through the rule copy can panic when a parent path contains a quotation mark (C24_quoted_parent_refuted); C25 gives the rules whose copy is faithful."
  },
  {
   "property": "C25",
   "status": "proved",
   "theorems": [
    "C25_tree",
    "C25_rule",
    "C25_preparation",
    "C25_excluded_refuted"
   ],
   "note": "Stated for trees returned by the loader, with return maps listed by key (Go maps have no order). C25_excluded_refuted shows the three exclusions are needed."
  },
  {
   "property": "C26",
   "status": "proved",
   "theorems": [
    "C26_rule",
    "C26_undefined_value",
    "C26_undefined_name"
   ],
   "note": ""
  },
  {
   "property": "C27",
   "status": "proved",
   "theorems": [
    "C27_resolved",
    "C27_order"
   ],
   "note": ""
  },
  {
   "property": "C28",
   "status": "proved",
   "theorems": [
    "C28_atomic",
    "C28_history"
   ],
   "note": ""
  },
  {
   "property": "C29",
   "status": "proved",
   "theorems": [
    "C29_state",
    "C29_check",
    "C29_test",
    "C29_list",
    "C29_set_sticks",
    "C29_first_check_sticks"
   ],
   "note": "Stated for a rule whose copy is the same for every iteration order; C25_rule shows that every loaded copyable rule is its own copy."
  },
  {
   "property": "C30",
   "status": "proved",
   "theorems": [
    "C30_unchanged",
    "C30_last_wins",
    "C30_outcome"
   ],
   "note": ""
  },
  {
   "property": "C31",
   "status": "proved",
   "theorems": [
    "C31_wrappers",
    "C31_styles"
   ],
   "note": ""
  },
  {
   "property": "C32",
   "status": "proved",
   "theorems": [
    "C32_shape",
    "C32_array"
   ],
   "note": ""
  },
  {
   "property": "C33",
   "status": "proved",
   "theorems": [
    "C33_deterministic",
    "C33_two_inner_refuted"
   ],
   "note": ""
  },
  {
   "property": "C34",
   "status": "proved",
   "theorems": [
    "C34_text",
    "C34_hash",
    "C34_equal"
   ],
   "note": ""
  },
  {
   "property": "C35",
   "status": "proved",
   "theorems": [
    "C35_text",
    "C35_loaded_text",
    "C35_defined",
    "C35_reflexive",
    "C35_symmetric",
    "C35_transitive",
    "C35_alike",
    "C35_determines",
    "C35_legible",
    "C35_none",
    "C35_empty_refuted",
    "C35_dash_refuted"
   ],
   "note": "Collisions of the hash are excluded by a hypothesis where equality of hashes is read back. The two ways in which trees of different meaning share a text are theorems."
  },
  {
   "property": "C36",
   "status": "proved",
   "theorems": [
    "C36_report",
    "C36_no_report",
    "C36_listed",
    "C36_written"
   ],
   "note": ""
  },
  {
   "property": "C37",
   "status": "proved",
   "theorems": [
    "C37_array",
    "C37_decoded",
    "C37_general",
    "C37_object",
    "C37_pieces",
    "C37_brace_refuted"
   ],
   "note": "Failure with a brace inside a string is the theorem C37_brace_refuted; C37_pieces says what the splitter returns on every text."
  },
  {
   "property": "C38",
   "status": "proved",
   "theorems": [
    "C38_array",
    "C38_flat",
    "C38_idempotent",
    "C38_other",
    "C38_deep_refuted"
   ],
   "note": ""
  },
  {
   "property": "C39",
   "status": "proved",
   "theorems": [
    "C39_labels",
    "C39_unusable",
    "C39_plain",
    "C39_condition",
    "C39_quoted_refuted"
   ],
   "note": "Both label texts, for every non-empty list of labels (C39_labels) and every list of items one of which has not exactly one colon (C39_unusable, which covers {}); with the meaning of label conditions in C39_condition. C39_quoted_refuted: a text with quotes, i.e. proper JSON, yields no labels."
  },
  {
   "property": "C40",
   "status": "proved",
   "theorems": [
    "C40_context_type",
    "C40_context_type_unique",
    "C40_context_type_only",
    "C40_time_error",
    "C40_clock",
    "C40_whole",
    "C40_order",
    "C40_time_only",
    "C40_hour_condition",
    "C40_load",
    "C40_utc_refuted"
   ],
   "note": "TimeSpec (trusted, satisfied by RefLib) says that time.Parse returns a clock reading. The float64 arithmetic is exact IEEE rounding (SpecFloat). C40_utc_refuted: the fields called UTC ignore the zone of the timestamp."
  },
  {
   "property": "C41",
   "status": "proved",
   "theorems": [
    "C41_translation",
    "C41_prepared",
    "C41_attribute",
    "C41_steps",
    "C41_rule",
    "C41_no_conditions",
    "C41_first_use",
    "C41_unprepared_panics",
    "C41_deep_scan_condition_refuted",
    "C41_short_path_refuted",
    "C41_entries_inside_and_refuted",
    "C41_no_base_refuted"
   ],
   "note": "For prepared trees whose ANY/ALL paths have the usual forms (C41_prepared). Deep scans are only refused in ANY/ALL paths: C41_deep_scan_condition_refuted; paths without $, entries inside AND and an empty parent field give unusable fields (C41_short_path_refuted, C41_entries_inside_and_refuted, C41_no_base_refuted). A rule that cannot be prepared panics (C41_unprepared_panics)."
  },
  {
   "property": "C42",
   "status": "proved",
   "theorems": [
    "C42_tree",
    "C42_rule",
    "C42_library",
    "C42_outside_refuted"
   ],
   "note": "The selection of documents by MongoDB is specified in Spec_MongoMatch (trusted, from the MongoDB manual, operators used by the plugin only). Fragment: trees of AND, OR, NOT, ANY, ALL over conditions on paths of plain names, written as in_fragment/spelled say, and documents whose values at those paths are comparable (suits). PathSpec: the JSON-path library follows member names and lists array elements; proved for the reference library. C42_outside_refuted has a disagreement for each excluded case."
  },
  {
   "property": "C43",
   "status": "proved",
   "theorems": [
    "C43_succeeds",
    "C43_no_panic",
    "C43_result",
    "C43_single_dots",
    "C43_plain",
    "C43_dots_refuted"
   ],
   "note": "C43_dots_refuted: three dots collapse to two."
  },
  {
   "property": "C44",
   "status": "proved",
   "theorems": [
    "C44_agree",
    "C44_parsed_never_panics",
    "C44_raw_panics",
    "C44_number_text_refuted"
   ],
   "note": "Agreement is on the same extracted text, as stated; C44_number_text_refuted shows that the texts themselves may differ for large numbers."
  },
  {
   "property": "C45",
   "status": "proved",
   "theorems": [
    "C45_plain",
    "C45_segments",
    "C45_idempotent",
    "C45_only_quotes",
    "C45_dot_name_refuted",
    "C45_empty_name_refuted"
   ],
   "note": "RemoveDotQuotes: unchanged without a quote after a dot; removes exactly the quotes of quoted segments; idempotent on non-empty names; refuted for names ending with a dot and for empty names."
  },
  {
   "property": "C46",
   "status": "proved",
   "theorems": [
    "C46_alone",
    "C46_check_alone",
    "C46_undisturbed",
    "C46_ends",
    "C46_distinct",
    "C46_distinct_ends",
    "C46_flat",
    "C46_shared_refuted",
    "C46_restored_refuted",
    "C46_panic_refuted"
   ],
   "note": "The model cuts evaluation into atomic actions (one condition, one write of the relative field, one selection of elements); the results about distinct objects are proved for every program of actions, so also for finer cuts. Sequentially consistent memory is assumed; preparation and the global lists are not shared in the model."
  },
  {
   "property": "C47",
   "status": "proved",
   "theorems": [
    "C47_round_trip"
   ],
   "note": ""
  },
  {
   "property": "C48",
   "status": "proved",
   "theorems": [
    "C48_decoder",
    "C48_values",
    "C48_object"
   ],
   "note": "About the model of encoding/json (byte strings; escaped surrogate pairs are combined as in Go; bytes that are not UTF-8 are kept, where Go replaces them; no nesting limit)."
  },
  {
   "property": "C49",
   "status": "proved",
   "theorems": [
    "C49_text",
    "C49_to_lower",
    "C49_same",
    "C49_determines",
    "C49_lower",
    "C49_lower_resource_refuted",
    "C49_dash_refuted"
   ],
   "note": "The resource type keeps its letter case in the text, so ToLower can change the hash (refuted statement)."
  },
  {
   "property": "C50",
   "status": "proved",
   "theorems": [
    "C50_outcomes",
    "C50_and_true",
    "C50_and_false",
    "C50_or",
    "C50_not",
    "C50_all_true",
    "C50_all_false",
    "C50_any_true",
    "C50_any_false"
   ],
   "note": "ANY with declared return values is covered by C50_outcomes and C50_any_false; C50_any_true is for ANY without them."
  },
  {
   "property": "C51",
   "status": "proved",
   "theorems": [
    "C51_tree",
    "C51_same",
    "C51_copy",
    "C51_rule",
    "C51_empty_is_refuted"
   ],
   "note": "C51_tree (written-out texts), C51_same, C51_copy and C51_rule for trees loaded from any decoded value; C51_empty_is_refuted: 'IS' with an empty value is shown (and copied) with the value ^$ after preparation."
  },
  {
   "property": "C52",
   "status": "proved",
   "theorems": [
    "C52_copying",
    "C52_overwritten",
    "C52_shared_refuted",
    "C52_again_refuted"
   ],
   "note": "The memory behaviour of jsonslice.Get (parts of its input or copies) is a parameter with the hypothesis well_placed. C52_shared_refuted and C52_again_refuted show that without the restriction to one parent per ANY/ALL the message is overwritten; C52_overwritten gives the bytes."
  },
  {
   "property": "C53",
   "status": "proved",
   "theorems": [
    "C53_sound",
    "C53_complete",
    "C53_some_order",
    "C53_loads",
    "C53_not_list",
    "C53_not_empty",
    "C53_not_list_refuted"
   ],
   "note": "Both directions. Values are decoded JSON/YAML values with distinct keys in each map (go_value)."
  },
  {
   "property": "C54",
   "status": "proved",
   "theorems": [
    "C54_condition",
    "C54_tree",
    "C54_tree_total",
    "C54_check",
    "C54_verdict"
   ],
   "note": "End to end, for messages with a parsed document and for raw bytes. condition_says covers every attribute kind; conditions for which the engine panics or reads several entries of $KEY/$VALUE are outside `covered`. Assumes RegexSpec, CidrSpec, NumberSpec and that the JSON-path library accepts $.* and rejects $RELATIVE...."
  },
  {
   "property": "C55",
   "status": "proved",
   "theorems": [
    "C55_converted",
    "C55_prepared",
    "C55_lost",
    "C55_flag",
    "C55_twice",
    "C55_reference_refuted",
    "C55_looked_up_again_refuted"
   ],
   "note": "Two refutations show why the conditions on references are needed: after PrepareRules a reference in a name is never looked up, and a replaced text that is again a reference is looked up a second time in the global dictionary. re_json is a library oracle (encoding of *regexp.Regexp as JSON)."
  },
  {
   "property": "C56",
   "status": "proved",
   "theorems": [
    "C56_any_true",
    "C56_any_false",
    "C56_all_true",
    "C56_all_false",
    "C56_determined",
    "C56_panics",
    "C56_last_path_refuted"
   ],
   "note": "raw_elements is a specification of the pieces; on object entries the order is free. C56_any_true is stated for nodes without return values; C56_last_path_refuted uses a library that returns an error for a missing path."
  },
  {
   "property": "C57",
   "status": "proved",
   "theorems": [
    "C57_fields",
    "C57_panics",
    "C57_determines",
    "C57_prepared",
    "C57_type_refuted"
   ],
   "note": "C57_determines assumes legible conditions and types without colon; C57_type_refuted shows why."
  },
  {
   "property": "C58",
   "status": "proved",
   "theorems": [
    "C58_condition",
    "C58_tree",
    "C58_rule",
    "C58_load",
    "C58_get_prepared",
    "C58_in_place",
    "C58_validate",
    "C58_validate_agrees",
    "C58_check",
    "C58_loaded_check",
    "C58_plain",
    "C58_validate_refuted",
    "C58_accepted_refuted"
   ],
   "note": "Rules as loaded whose names, operation and resource are patterns and whose paths have matching quotation marks (ordinary); C58_validate_refuted and C58_accepted_refuted show what fails."
  },
  {
   "property": "C59",
   "status": "proved",
   "theorems": [
    "C59_text",
    "C59_meaning",
    "C59_tree",
    "C59_rule",
    "C59_check",
    "C59_loaded_check",
    "C59_library",
    "C59_null_refuted",
    "C59_nil_text_refuted",
    "C59_elements_refuted",
    "C59_panic_refuted",
    "C59_all_nothing_refuted"
   ],
   "note": "Documents whose strings need no escapes and whose numbers are written as fmt prints them; plain paths; arrays of objects. The JSON libraries are assumed to follow member names and keep values (TextSpec, PathSpec, PathsAccepted), which TextLib meets. Return values are not compared."
  },
  {
   "property": "C60",
   "status": "proved",
   "theorems": [
    "C60_stored",
    "C60_nil",
    "C60_reprinted",
    "C60_empty_and_refuted",
    "C60_unreadable",
    "C60_storable"
   ],
   "note": "The BSON codec is a pair of functions assumed to keep documents of strings, arrays and objects whose keys hold no NUL (BsonSpec); a codec that reverses all maps meets it. The exclusion of empty lists is needed (C60_empty_and_refuted)."
  },
  {
   "property": "C61",
   "status": "proved",
   "theorems": [
    "C61_counted",
    "C61_unknown",
    "C61_known_refuted",
    "C61_bytes"
   ],
   "note": "yaml.Unmarshal is not modelled: the theorem is about any text and message related by `describes`. Values in quotes or with line breaks are outside that relation."
  },
  {
   "property": "C62",
   "status": "proved",
   "theorems": [
    "C62_array",
    "C62_marshalled",
    "C62_errors",
    "C62_invalid_refuted",
    "C62_scalars_refuted",
    "C62_nested_refuted"
   ],
   "note": "That printed numbers are read back unchanged is a hypothesis on the numbers of the array (`numbers_kept`)."
  },
  {
   "property": "C63",
   "status": "proved",
   "theorems": [
    "C63_loading",
    "C63_json",
    "C63_order_refuted"
   ],
   "note": "Decoding YAML itself is not modelled: the decoded value is an argument."
  },
  {
   "property": "C64",
   "status": "proved",
   "theorems": [
    "C64_tree",
    "C64_rule",
    "C64_library",
    "C64_negative_refuted",
    "C64_nested_refuted",
    "C64_error_refuted",
    "C64_value_path_refuted"
   ],
   "note": "The stages of aggregation pipelines are specified in Spec_Pipeline (trusted, from the MongoDB manual; $addFields with $objectToArray, and $match). Documents are stored in a field other than addedField and have no field of that name; EntriesSpec: the JSON-path library accepts $.* and gives null for a missing member."
  },
  {
   "property": "C65",
   "status": "proved",
   "theorems": [
    "C65_entries",
    "C65_html_refuted",
    "C65_number_refuted"
   ],
   "note": "as_printed: no character escaped for HTML, json_float = fmt_float on the numbers. The path names the object itself (no mark). Library needs as for C59."
  },
  {
   "property": "C66",
   "status": "proved",
   "theorems": [
    "C66_sound",
    "C66_accepts",
    "C66_exact",
    "C66_panics",
    "C66_file",
    "C66_engine",
    "C66_last",
    "C66_dictionary",
    "C66_dictionary_sound",
    "C66_check",
    "C66_same_refuted"
   ],
   "note": "The document is the parsed tree: scanning YAML text, aliases, merge keys, tags and !!binary are outside the model. The decoder is modelled from yaml.v2 v2.4.0."
  },
  {
   "property": "C67",
   "status": "proved",
   "theorems": [
    "C67_sound",
    "C67_accepts",
    "C67_refused",
    "C67_unique",
    "C67_panics",
    "C67_one",
    "C67_one_refused",
    "C67_check",
    "C67_misspelt_refuted",
    "C67_repeats_refuted"
   ],
   "note": "The document is the parsed tree, as for C66. Converting decimals beyond 64 bits to a size follows amd64. The text of a single message has one line per entry."
  },
  {
   "property": "C68",
   "status": "proved",
   "theorems": [
    "C68_value",
    "C68_total",
    "C68_unique",
    "C68_prepared_refuted"
   ],
   "note": ""
  },
  {
   "property": "C69",
   "status": "proved",
   "theorems": [
    "C69_catch_all",
    "C69_blocks",
    "C69_default_allow",
    "C69_returns",
    "C69_types",
    "C69_service_refuted",
    "C69_literal",
    "C69_everything_refuted",
    "C69_semicolon_refuted",
    "C69_verbs_refuted"
   ],
   "note": "C69_service_refuted, C69_semicolon_refuted and C69_verbs_refuted: the documentation (docs/MAPL_SPEC_v2.md) does not describe the engine. C69_everything_refuted: a line break in a service name escapes a rule that matches everything."
  },
  {
   "property": "C70",
   "status": "proved",
   "theorems": [
    "C70_text",
    "C70_no_document",
    "C70_sound",
    "C70_accepts",
    "C70_exact",
    "C70_panics",
    "C70_check",
    "C70_null_refuted",
    "C70_spaces_refuted",
    "C70_same_refuted",
    "C70_last",
    "C70_rule_last"
   ],
   "note": "C70_null_refuted: null conditions are an error in JSON, though null is allowed for every other entry and for conditions in YAML. C70_spaces_refuted: of {} and { } only the first stands for no tree. C70_same_refuted: the key - in a rule switches it off."
  },
  {
   "property": "C71",
   "status": "proved",
   "theorems": [
    "C71_compact",
    "C71_copy",
    "C71_rule",
    "C71_file",
    "C71_written_refuted"
   ],
   "note": "C71_written_refuted: a rule that is read need not be written (a value with a newline) nor its text read (an empty AND). How lists and expressions of prepared rules are written and read is a hypothesis; loaded rules have none."
  },
  {
   "property": "C72",
   "status": "proved",
   "theorems": [
    "C72_tree",
    "C72_check",
    "C72_documented",
    "C72_documented_refuted",
    "C72_split_refuted",
    "C72_opposite_refuted",
    "C72_extra_refuted"
   ],
   "note": "C72_documented_refuted: 6a and 6b differ for a value with a quotation mark at one end only. C72_split_refuted, C72_opposite_refuted, C72_extra_refuted: what is not a law. NOT ALL and ANY NOT only for parsed documents; on bytes C12_bytes_duality_refuted."
  },
  {
   "property": "C73",
   "status": "proved",
   "theorems": [
    "C73_tree",
    "C73_check",
    "C73_order",
    "C73_verb_refuted",
    "C73_all_any_refuted"
   ],
   "note": "C73_verb_refuted and C73_all_any_refuted: what does not widen. Both lists of rules must be covered in the sense of C54."
  },
  {
   "property": "C74",
   "status": "proved",
   "theorems": [
    "C74_tree",
    "C74_unique",
    "C74_check",
    "C74_test",
    "C74_relative"
   ],
   "note": "C74_relative: a condition's return value of the current element is null on parsed documents. Rules must be covered in the sense of C54."
  },
  {
   "property": "C75",
   "status": "proved",
   "theorems": [
    "C75_rules",
    "C75_says",
    "C75_empty_refuted",
    "C75_letters_refuted",
    "C75_unquoted_refuted",
    "C75_numbers_refuted"
   ],
   "note": "C75_empty_refuted, C75_letters_refuted, C75_unquoted_refuted and C75_numbers_refuted show what each condition on the documents excludes. YAML documents are syntax trees with resolved scalars (see C66)."
  },
  {
   "property": "C76",
   "status": "proved",
   "theorems": [
    "C76_check",
    "C76_prepared",
    "C76_test",
    "C76_coverage",
    "C76_annotations"
   ],
   "note": "C76_case also shows that the hypothesis matters: changing the one label the rule names changes the decision."
  },
  {
   "property": "C77",
   "status": "proved",
   "theorems": [
    "C77_check",
    "C77_coverage",
    "C77_set",
    "C77_load",
    "C77_test",
    "C77_plain"
   ],
   "note": "C77_case also shows that changing a text that the rule names changes the decision, and a dictionary refused because of an unused list."
  },
  {
   "property": "C78",
   "status": "proved",
   "theorems": [
    "C78_sender_names",
    "C78_receiver_names",
    "C78_receiver_hosts",
    "C78_names_prepare",
    "C78_operation",
    "C78_resource",
    "C78_membership",
    "C78_check",
    "C78_verdict",
    "C78_ascii",
    "C78_ascii_texts"
   ],
   "note": "By hypothesis one of the two protocols compared (strings.EqualFold) is ASCII. C78_spaces_case: Unicode white space around items is trimmed. C78_case runs a library that reads UTF-8 and shows that a byte-wise dot answers differently."
  },
  {
   "property": "C79",
   "status": "proved",
   "theorems": [
    "C79_prepare",
    "C79_set",
    "C79_load",
    "C79_check",
    "C79_first_use",
    "C79_chain_refuted"
   ],
   "note": "C79_chain_refuted shows that the proviso is needed. Conditions are compared as loaded: a reference as value of a numeric method is refused by the loader, so such a rule is not covered."
  },
  {
   "property": "C80",
   "status": "proved",
   "theorems": [
    "C80_parsed",
    "C80_raw",
    "C80_status",
    "C80_replace",
    "C80_replace_first",
    "C80_count",
    "C80_split",
    "C80_alternatives",
    "C80_same_refuted"
   ],
   "note": "C80_same_refuted: a text is not always compared as it is, x[[y is compared as x[y. C80_status and C80_replace hold for every text; the specification does not use the model's functions."
  },
  {
   "property": "C81",
   "status": "proved",
   "theorems": [
    "C81_condition",
    "C81_text",
    "C81_list_refuted"
   ],
   "note": "C81_list_refuted: a list of values given for IN is not a list of alternatives; [a, b] becomes the text [a b], in which neither a nor b is found."
  },
  {
   "property": "C82",
   "status": "proved",
   "theorems": [
    "C82_condition",
    "C82_found",
    "C82_encoded",
    "C82_as_written_refuted"
   ],
   "note": "C82_as_written_refuted: the text is not the one in the document; an object is compared with its keys sorted and with < escaped. Simplification as in DESIGN.md: the control characters 8 and 12 are printed as codes, as in older Go versions."
  },
  {
   "property": "C83",
   "status": "proved",
   "theorems": [
    "C83_key",
    "C83_value",
    "C83_raw_key",
    "C83_raw_value",
    "C83_same_refuted"
   ],
   "note": "C83_same_refuted: parsed and raw documents do not agree on $VALUE; in a raw document the value a<b has the text a\\u003cb."
  },
  {
   "property": "C84",
   "status": "proved",
   "theorems": [
    "C84_parsed",
    "C84_names",
    "C84_raw",
    "C84_found_refuted"
   ],
   "note": "C84_found_refuted: in a parsed document $VALUE.d finds the text under c. The comment at conditions_tree.go:390 says that the prepared query is not used; for paths below $VALUE it is."
  }
 ]
}