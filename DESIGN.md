# Formal model of the MAPL engine — design

The model is written in Rocq/Coq 8.16.1 under `rocq/theories`, standard library only.
`/repo` is read as text; nothing of it is executed.

## Conventions of the model

* Go strings are Coq `string`s: one `ascii` per character.  The code treats
  strings as bytes except in `range` loops over runes and inside the regexp
  library; the model is exact for ASCII text.  For other UTF-8 text the patterns of
  names, operations, resources and lists are treated in C78 (a character is one to
  four bytes; `Utf8RegexSpec` says what the regexp package does).  `TrimSpace` removes
  the white space of Unicode, and escaped surrogates in JSON texts are read as in Go.
  Letters are compared ignoring case for ASCII, including the Kelvin sign and the long
  s that Unicode folds to k and s; folding between two letters outside ASCII and the
  replacement of invalid UTF-8 are outside the model.
* `interface{}` values are the inductive type `iface`: nil, bool, int, float64,
  string, `[]interface{}`, `map[string]interface{}`, `map[interface{}]interface{}`.
* A Go map is an association list; an iteration over a map visits the keys in the
  order chosen by an oracle `ord` (fresh choice per iteration, indexed by a tick
  counter).  Theorems quantify over every oracle that permutes keys.
* float64 is `SpecFloat` with prec 53, emax 1024 (no axioms).
* A run-time panic is an explicit outcome; error returns are values.  Error texts
  are dropped except where the code inspects them (`queryInterface`).
* Mutation is modelled by state passing: evaluation threads the message (whose
  relative fields are mutated and restored) and the tick counter.  After a panic the
  state is kept as it was at that point.
* External libraries are the fields of a record `Lib` (regexp compile/match,
  jsonpath prepare/query, jsonslice.Get, pretty.Ugly, ParseFloat and float
  formatting, ParseIP/ParseCIDR, time.Parse, md5, writing and reading a Regexp as JSON).  Every theorem holds for every `Lib`; where a
  property needs the library to behave, the needed part is an explicit
  hypothesis, and `RefLib` is a concrete executable instance
  proved to satisfy all of these hypotheses, so they are not vacuous.  Refutations and
  examples are computed on `RefLib`.  The hypotheses are
  * `RegexSpec` (`Spec_Regex.v`): patterns of a small syntax compile and match their language;
  * `Utf8RegexSpec` (`Spec_Utf8.v`): the same over UTF-8 texts, where the dot is one character (met by `Utf8Lib` of `Utf8_lib.v`);
  * `CidrSpec` (`Spec_Match.v`): masks of CIDR networks are runs of ones;
  * `NumberSpec` (`Spec_Leaf.v`): which texts are decimal numbers;
  * `TimeSpec` (`Spec_Messages.v`): the clock reading of a parsed timestamp is a time of day;
  * `PathSpec`, `EntriesSpec` (`Spec_MongoMatch.v`): jsonpath on the dotted paths of the Mongo fragment and on `$.*`;
  * `TextSpec`, `PathsAccepted` (`Spec_Backends.v`): jsonslice on dotted paths and pretty.Ugly on texts without escapes
    (these two are met by `TextLib` of `Text_lib.v`, which is `RefLib` with another jsonslice);
  * `BsonSpec` (`Spec_Store.v`): documents of strings, arrays and objects come back from BSON up to the order of keys;
  * `keeps_expressions` / `loses_expressions` (`Spec_InPlace.v`): copying a rule by JSON keeps a compiled
    expression (Go 1.21 and later) or leaves an empty one (before).
* The JSON tag `-,omitempty` names the key `-`.  In `Rule`, `Sender`, `Receiver` and `Resource` only one field
  has it, so the derived fields of a rule are copied with it; in `Condition` several fields have it, and
  encoding/json then ignores all of them.
* The jsonpath library is a function of the prepared query and the document.  The order in which the
  real library lists the results of a wildcard over an object depends on map iteration; where this
  matters (parents of ANY/ALL with wildcards over objects) the model fixes one order per library `L`;
  since theorems quantify over `L` and the extra data is compared as a list, they hold for each fixed order.
* Byte slices are values in the main model (`Eval.v`).  In Go `jsonslice.Get` may return a part of the
  document it is given, and the `append` in check.go:990 may then write into the document; this is
  modelled separately in `Slices.v`, where slices are views of shared arrays, and C52 says when the two
  models agree and shows what happens when they do not.

## Trusted base

* Coq's kernel (and `vm_compute` for the concrete examples).
* `Print Assumptions` is run on each property theorem in the `Props_*.v` files; the
  answer is "Closed under the global context" for all of them (no axioms at all).
* The correspondence between the Go text and the Gallina definitions (each definition
  cites file and lines and states its simplifications).
* For C42 the semantics of Mongo queries in `Spec_MongoMatch.v` (a small fragment: `$and`, `$or`, `$nor`,
  `$elemMatch`, comparisons, `$exists`, `$regex`, dotted fields) stands for the database, and for C64 the stages `$addFields` with `$objectToArray` and `$match` in
  `Spec_Pipeline.v`.
* For C46 the interleaving model: reads and writes of the fields of messages and rules are atomic and
  sequentially consistent; the Go memory model (what a data race may do) is not modelled.
* Decoding of label texts into `map[string]string` is the JSON decoder of the model followed by a check that
  all values are strings (`Messages.v`).
* Not modelled: scanning YAML texts (`Yaml.v` starts from the parsed tree: no aliases, merge keys, tags or `!!binary`), BSON bytes (C60 assumes a codec), files, logging,
  printing to stdout.  C61 takes the decoded message as an argument; C66 and C67 model the decoder of yaml.v2 v2.4.0 on amd64,
  C70 that of encoding/json (a repeated array is read into new elements; the names of fields are ASCII, the keys of the text need not be).

## Files

| file | content |
|---|---|
| `Base.v` | outcomes, association lists, permutation helpers |
| `GoStr.v`, `GoStr_facts.v` | Go `strings`/`strconv` functions and their specifications |
| `GoFloat.v`, `Float_proofs.v` | float64 |
| `Types.v` | iface, Lib, message, condition, node, rule |
| `Json.v`, `Json_proofs.v`, `Print_proofs.v`, `Decode_proofs.v` | JSON decoder and printer |
| `StrUtils.v` | string_utils.go |
| `Validate.v` | validate_conditions.go |
| `Prepare.v` | preparation part of rules_load.go / conditions_tree.go |
| `Parse.v` | loader: InterpretNode etc. |
| `Marshal.v` | JSON copy of rules |
| `Strings.v` | textual forms and hashes of rules |
| `Eval.v` | check.go: leaf conditions, trees |
| `Slices.v`, `Spec_Slices.v`, `Slices_proofs.v` | evaluation on raw bytes with shared arrays |
| `Spec_Grammar.v`, `Grammar_proofs.v`, `Grammar_tree.v` | grammar of condition trees and its equivalence with the loader |
| `Spec_Meaning.v`, `Meaning_proofs.v`, `Meaning_rules.v` | meaning of rules as written; loading, copying, preparation and checking agree with it |
| `Spec_Raw.v`, `Raw_pieces.v`, `Raw_proofs.v`, `Raw_panic.v` | ANY, ALL and panics on raw bytes: which pieces of text are visited |
| `Spec_Show.v`, `Show_proofs.v` | the texts GetRuleStrings shows for a rule |
| `Spec_Accept.v`, `Accept_proofs.v`, `Accept_rules.v` | which rules can be prepared, loaded and validated |
| `Spec_Backends.v`, `Backends_proofs.v`, `Backends_rules.v`, `Text_lib.v` | parsed documents and raw bytes compared; a library meeting the needs of that comparison |
| `Store.v`, `Spec_Store.v`, `Store_proofs.v` | trees written to and read from BSON documents |
| `Fields.v`, `Spec_Fields.v`, `Fields_proofs.v`, `Fields_bytes.v` | reading one message from YAML and counting its fields (`tools.go`) |
| `Original.v`, `Spec_Original.v`, `Original_proofs.v` | the original array splitter (`check.go:1020-1035`) compared with the fast one |
| `Spec_Crash.v`, `Crash_proofs.v` | values on which the loader panics |
| `Spec_Pipeline.v`, `Pipeline_proofs.v` | aggregation pipelines and the entries of objects |
| `Yaml.v`, `Spec_Yaml.v`, `Yaml_proofs.v`, `Yaml_rules.v`, `Yaml_more.v`, `Yaml_keys.v`, `Props_Yaml.v` | rules, dictionaries and messages from YAML documents (C66) |
| `Spec_YamlMessages.v`, `Yaml_messages.v`, `Props_YamlMessages.v` | messages from YAML documents (C67) |
| `Spec_Early.v`, `Early_proofs.v`, `Props_Early.v` | trees evaluated before they are prepared (C68) |
| `Spec_Documented.v`, `Documented_proofs.v`, `Props_Documented.v` | rules that match everything; types, lists and verbs of the documentation (C69) |
| `JsonDoc.v`, `Spec_JsonDoc.v`, `JsonDoc_proofs.v`, `JsonDoc_structs.v`, `JsonDoc_rules.v`, `JsonDoc_more.v`, `Props_JsonDoc.v`, `Spec_JsonKeys.v`, `JsonDoc_keys.v`, `Props_JsonKeys.v` | rules from JSON documents, encoding/json for their types, repeated keys (C70) |
| `Spec_Format.v`, `Format_proofs.v`, `Props_Format.v` | the texts of trees and rules written out (C35, C49) |
| `Spec_JsonCopy.v`, `Compact_proofs.v`, `JsonCopy_proofs.v`, `JsonCopy_rules.v`, `Props_JsonCopy.v` | the JSON text of a rule, compaction, and the copy read from it (C71) |
| `Spec_Laws.v`, `Laws_proofs.v`, `Props_Laws.v` | exchange of conditions by the laws of logic (C72) |
| `Spec_Widen.v`, `Widen_proofs.v`, `Props_Widen.v` | wider conditions and rules, order of numbers (C73) |
| `Spec_Returned.v`, `Returned_proofs.v`, `Props_Returned.v` | extra data of trees and rules from the return values as written (C74) |
| `Spec_Formats.v`, `Formats_proofs.v`, `Props_Formats.v` | the same rules as JSON and as YAML documents (C75) |
| `Spec_Relevant.v`, `Relevant_proofs.v`, `Props_Relevant.v` | the fields of a message that rules read (C76) |
| `Spec_Referred.v`, `Referred_proofs.v`, `Props_Referred.v` | the dictionary entries that rules refer to (C77) |
| `Spec_Utf8.v`, `Utf8_proofs.v`, `Utf8_names.v`, `Utf8_lib.v`, `Spec_Utf8Meaning.v`, `Utf8_meaning.v`, `Props_Utf8.v` | patterns and lists on UTF-8 texts (C78) |
| `Spec_Written.v`, `Written_proofs.v`, `Props_Written.v` | references written out by hand (C79) |
| `Spec_Integer.v`, `Integer_proofs.v`, `Size_proofs.v` | whole numbers read and printed (C21) |
| `Spec_Cleaned.v`, `Cleaned_proofs.v`, `Props_Cleaned.v` | the text a JSON-path condition compares (C80) |
| `Spec_Shown.v`, `Shown_proofs.v`, `Props_Shown.v` | the text of a value in a rule (C81) |
| `Spec_Encoded.v`, `Encoded_proofs.v`, `Props_Encoded.v` | the JSON text of an array or object found in a document (C82) |
| `Entry_proofs.v`, `Props_Entry.v` | the text of the key and the value of an entry (C83) |
| `Spec_Object.v`, `Object_proofs.v`, `Props_Object.v` | repeated keys of objects in JSON texts (C48) |
| `ValuePath_proofs.v`, `Props_ValuePath.v` | paths below the value of an entry (C84) |
| `Spec_InPlace.v`, `InPlace_proofs.v` | rules converted or prepared in place (PrepareRules, PrepareRulesWithPredefinedStrings) and then checked |
| `Check.v` | CheckOneRule, Check, Coverage |
| `Lifecycle.v` | rule state machine, global dictionary |
| `Mongo.v` | mongo_plugin.go, rule_mongo_plugin.go |
| `Messages.v` | messages_load.go |
| `Concurrent.v` | small steps of Eval and Check, threads, interleavings |
| `Ref_Regex.v`, `RefLib*.v` | the reference library and the proofs that it meets the hypotheses |
| `Samples.v`, `Leaf_samples.v` | helpers for examples |
| `Repo_harness.v`, `Repo_data.v`, `Repo_tests.v` | the repository's own tests run on the model (see below); no theorems |
| `Spec_*.v` | specifications, written without the model's helpers |
| `*_proofs.v`, `*_laws.v`, `Tree_truth.v`, `Load_order.v`, `Coverage_meaning.v` | lemmas |
| `Props_*.v` | final theorems, examples, `Print Assumptions` |

## Agreement with the repository's tests

The Go code is not run, so the model is compared with what its authors assert about it.  `tools/repo_tests.py`
reads the test sources and the files they use as text and writes `Repo_data.v` and `Repo_tests.v`: 887 calls
with all their expectations (decisions, returned values, refused rules, shown trees, equal hashes after
reading from YAML and JSON, copying and preparing, Mongo queries and the documents they find).  All of
them hold on the model over the reference library, for documents given as bytes and as parsed values.  They
are goals closed by computation and then abandoned, so nothing in the proofs rests on them.

* Left out: assertions about the libraries alone (yalp, jsonslice), the texts of error messages, and
  `invalid_rules_basic_v2d.yaml`, which is refused by the YAML library for duplicate keys.
* The stages `$addFields` and `$objectToArray` of MongoDB are in `Repo_harness.v`, from its manual.
* Characters outside ASCII in the files are replaced by question marks.

## Plan per property

| id | modelled by | how it is proved |
|---|---|---|
| C01–C04 | `Check` fold over `CheckOneRule` results | induction on the rule list against a declarative "strictest" spec; permutation lemmas |
| C05 | `check_prepared` | case analysis against a conjunction spec |
| C06, C13 | state passing | induction on the tree: returned state equals the initial message |
| C07, C09 | string rewriting + `RegexSpec` | rewritten text parses to a regex whose language is the glob language |
| C08 | `ip_contains` bytes/masks | bitwise spec by induction on the bytes |
| C10 | `check_prepared` | case analysis; EqualFold spec |
| C11, C12 | `eval` | nested induction against a Prop-valued semantics with Forall/Exists |
| C14 | `eval` with two oracles | same semantics, invariant under permutation; refutation with a two-key object |
| C15 | `eval` | equations of the extra data against a declarative description |
| C16–C18, C20 | leaf evaluation on interface | case analysis over methods and text |
| C19 | conversion to alternation + `RegexSpec` | regex parse lemma for alternatives |
| C21 | label/attribute leaves | case analysis |
| C22, C50 | `eval` over all oracles | the set of results is exactly a declarative set (`tree_outcome`), panics exactly a declarative predicate; nested induction; witnesses for each panic |
| C23 | `validate` | equivalence with a declarative grammar |
| C24 | `prepare` | invariants on bracket positions |
| C25 | `marshal`, `parse`, `interpret` | printer/parser round trip by induction; witnesses for the failures |
| C26–C30 | `replace_*`, `validate_predef`, `Lifecycle` | case analysis; invariants over all histories |
| C31–C33 | `interpret` | unfolding lemmas, induction on values, oracle independence; refutation |
| C34, C35 | `node_string` with sorting | sorting is permutation invariant; injectivity fragment; refutations |
| C36 | `coverage` | fold invariants; composed with C54 for the rules as written |
| C37 | `split_objects` | brace-depth invariant over printed JSON |
| C38 | `arrange` | case analysis |
| C39, C40 | `Messages.v` | replacement lemmas + JSON parser |
| C41, C42 | `Mongo.v` + a small semantics of Mongo queries | induction on the tree |
| C43, C45 | string functions | induction on the string |
| C44 | both leaf evaluations | case analysis |
| C46 | interleaving of small-step evaluations | invariant for distinct messages; explicit bad interleaving |
| C47 | `Json.v` | round trip by nested induction |
| C48 | `Json.v` | equivalence with the RFC 8259 grammar |
| C49 | `Strings.v` | injectivity of the concatenation on separator-free parts |
| C51 | `Prepare.v`, `Strings.v`, `Marshal.v` | what a prepared condition shows is what it showed before |
| C52 | `Slices.v` | simulation of the evaluation on copies, by induction on the tree; computation of the two appends |
| C53 | `Parse.v` | equivalence with an inductive grammar: soundness by induction on the value, completeness by building an order of the maps |
| C54 | all of the above | composition: grammar (C53), copies (C25), preparation, panics (C22) and truth of trees, against a meaning defined on the texts |
| C55 | `convert_rules`, `prepare_rule`, `copy_rule` | the copy of a converted rule checks as the copy of the rule converted afterwards; prepared texts prepare to themselves |
| C56 | `elements_bytes`, `eval` | the pieces of text are specified by inductive predicates; results and panics follow from C22/C50 with these elements |
| C57 | `get_rule_strings` | one predicate per shown field; rules shown alike are characterised with the conditions of C49 |
| C58 | `set_predefined`, `load_with_predefined`, `validate_rule`, `prepare_rules`, `get_prepared` | `preparable`, `preparable_tree`, `preparable_rule`: from the texts of the rule, the dictionary, and what the libraries accept |
| C59 | `eval`, `check`, `load_with_predefined` on both kinds of message | `laid_out`, `twins`, `indifferent`: from the document, its text and the texts of the conditions |
| C60 | `marshal_bson_tree`, `unmarshal_bson_tree` | `BsonSpec`, `reordered`, `named`: documents up to the order of keys |
| C61 | `yaml_read_message`, `compare_json_yaml`, `message_json` | `describes`, `countable`: from the entries of the text alone |
| C62 | `split_objects`, `split_original` | `same_text`, `same_value`: JSON grammar and finite maps |
| C63 | `interpret`, `parse_conditions_tree`, `unmarshal_json_tree` | `crashes`: over decoded values and the grammar `reads` |
| C64 | `to_mongo`, `mongo_field`, `add_fields`, `rule_to_mongo` | `pipeline`: stages on documents (trusted), `wide`: trees with conditions on entries |
| C65 | `elements_iface`, `elements_bytes`, `objects_of_map`, `get_key_value`, `get_key_value_iface` | `entry_has`, `as_printed`, `indifferent` with entries (Spec_Backends) |
| C66 | `read_rules`, `read_rules_with`, `read_rules_file`, `read_predef` | `rules_text`, `rule_says`, `clean`, `plain_rules`, `dictionary_text`, `repeats` (Spec_Yaml); `last_entry`, `engine_fields` (Yaml_keys) |
| C67 | `read_messages`, `read_message`, `read_messages_file` | `messages_text`, `message_says`, `loaded_message`, `timed`, `entry_text`, `plain_entries` (Spec_YamlMessages) |
| C68 | `eval` | `early`, `early_condition`, `early_text`, `early_number` (Spec_Early) |
| C69 | `check`, `check_one_rule` | `catch_all`, `plainly_named`, `documented_verbs` (Spec_Documented) |
| C70 | `json_read`, `json_rules` | `is_document`, `says_rules`, `distinct_rules`, `plain_document`, `single_trees` (Spec_JsonDoc), `rule_read` (Spec_JsonKeys) |
| C71 | `compact`, `rule_out`, `copy_text` | `spliced_tree`, `derived_returns`, `rules_text` (Spec_JsonCopy) |
| C72 | `eval`, `check` | `exchangeable`, `opposite`, `exchanged_rules` (Spec_Laws) |
| C73 | `eval`, `check`, `fltb`, `fleb` | `wider_test`, `wider`, `wider_rule`, `stricter_rules` (Spec_Widen) |
| C74 | `eval`, `get_extra`, `extra_iface`, `extra_bytes`, `check`, `test_conditions` | `value_found`, `record`, `returned`, `rule_returned` (Spec_Returned) |
| C75 | `json_rules`, `read_rules`, `parse_conditions_tree` | `same_document`, `exact_keys`, `plain_values`, `conditions_written`, `quoted_texts` (Spec_Formats), `says_rules`, `rules_text` |
| C76 | `check`, `test_conditions`, `coverage`, `prepare_rule` | `agree_on_rule`, `agree_on_tree`, `agree_on_condition`, `agree_but_for_annotations` (Spec_Relevant), `replaced`, `loaded_tree` |
| C77 | `replace_in_condition`, `replace_name`, `prepare_rule`, `set_global`, `set_predefined`, `load_with_predefined`, `check`, `coverage` | `same_entry`, `refers`, `tree_refers` (Spec_Referred), `loaded_tree` |
| C78 | `escape_pattern`, `convert_string_to_regex`, `convert_operation`, `list_to_alternatives`, `expand`, `prepare_rule` | `utf8`, `glob8`, `Utf8RegexSpec` (Spec_Utf8), induction on patterns, `words_text8` |
| C79 | `replace_in_condition`, `replace_name`, `prepare_rule`, `set_predefined`, `load_with_predefined`, `check` | `written_tree`, `written_rule` (Spec_Written), equality of preparations, `kept_float`, `fresh_copied` |
| C80 | `remove_quotes_and_brackets`, `remove_quotes_from_result`, `replace_all`, `list_to_alternatives` | `all_replaced`, `unbracketed`, `peeled`, `compared` (Spec_Cleaned), existence and uniqueness of the earliest occurrence |
| C81 | `go_fmt`, `condition_from_node`, `interpret` | `shown` (Spec_Shown) by induction on values; `map_text`, `printed_as` |
| C82 | `json_marshal`, `iface_text` | `encoded`, `escaped`, `found` (Spec_Encoded) by induction on values; `shown`, `compared` |
| C83 | `get_key_value`, `get_key_value_iface` | `found`, `encoded`, `document`, `compared` (Spec_Encoded, Spec_Json, Spec_Cleaned) |
| C84 | `handle_jsonpath`, `prepare_query`, `get_key_value_iface`, `test_json_bytes` | `asks` with $.*, `fetch`, `found`, `encoded`, `compared` |
