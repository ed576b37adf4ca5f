(** The assertions of the repository's own tests, with the line of the call, evaluated on the model over
    the reference library.  These are tests of the model, not theorems, and
    nothing is kept of them: a goal that fails stops the build.  Generated by tools/repo_tests.py. *)
From Coq Require Import List String Ascii Bool Arith ZArith.
From Verif Require Import Base GoStr GoFloat Types Repo_harness Repo_data.
Import ListNotations.
Open Scope string_scope.

(** MAPL_engine/check_test.go *)
Goal failing [ (* TestMaplEngine *)
  (162%Z, messages_test empty_predef r_rules_basic_rules_rules_basic_v2 m_messages_main_fields_messages_basic_sender_name [Decides 0 0; Decides 1 0; Decides 2 0; Decides 3 0])] = [].
Proof. vm_compute. reflexivity. Abort.

(** MAPL_engine/check_test.go *)
Goal failing [ (* TestRuleHashes *)
  (194%Z, hash_test r_rules_hash_test_rules_with_label_conditions_for_hash_tests [Same 0 1; Same 0 6; Same 0 7; Same 2 4; Differ 3 0; Differ 3 2; Differ 5 0; Differ 5 2])] = [].
Proof. vm_compute. reflexivity. Abort.

(** MAPL_engine/check_test.go *)
Goal failing [ (* TestMaplEngineMainFields *)
  (228%Z, messages_test empty_predef r_rules_main_fields_rules_basic m_messages_main_fields_messages_basic_sender_name [Decides 0 1; Decides 1 0; Decides 2 0; Decides 3 0]);
  (237%Z, messages_test empty_predef r_rules_main_fields_rules_basic m_messages_main_fields_messages_basic_receiver_name [Decides 0 1; Decides 1 0]);
  (244%Z, messages_test empty_predef r_rules_main_fields_rules_sender_with_wildcards m_messages_main_fields_messages_sender_name_test_with_wildcards [Decides 0 1; Decides 1 1; Decides 2 0; Decides 3 0]);
  (253%Z, messages_test empty_predef r_rules_main_fields_rules_receiver_with_wildcards m_messages_main_fields_messages_receiver_name_test_with_wildcards [Decides 0 1; Decides 1 1; Decides 2 0; Decides 3 0]);
  (262%Z, messages_test empty_predef r_rules_main_fields_rules_sender_list m_messages_main_fields_messages_sender_test_with_lists [Decides 0 1; Decides 1 1; Decides 2 0]);
  (270%Z, messages_test empty_predef r_rules_main_fields_rules_with_sender_ips m_messages_main_fields_messages_basic_sender_ip [Decides 0 1; Decides 1 1; Decides 2 0; Decides 3 0; Decides 4 1]);
  (280%Z, messages_test empty_predef r_rules_main_fields_rules_with_receiver_ips m_messages_main_fields_messages_basic_receiver_ip [Decides 0 0; Decides 1 0; Decides 2 1]);
  (288%Z, messages_test empty_predef r_rules_main_fields_rules_resources m_messages_main_fields_messages_resources [Decides 0 2; Decides 1 3; Decides 2 0]);
  (296%Z, messages_test empty_predef r_rules_main_fields_rules_resources_with_wildcards m_messages_main_fields_messages_resources_test_with_wildcards [Decides 0 2; Decides 1 3]);
  (303%Z, messages_test empty_predef r_rules_main_fields_rules_resource_lists m_messages_main_fields_messages_resources_test_with_lists [Decides 0 2; Decides 1 2; Decides 2 3; Decides 3 0; Decides 4 1; Decides 5 1]);
  (314%Z, messages_test empty_predef r_rules_main_fields_rules_operations m_messages_main_fields_messages_operations [Decides 0 1; Decides 1 3; Decides 2 0]);
  (322%Z, messages_test empty_predef r_rules_main_fields_rules_operation_list m_messages_main_fields_messages_operations_test_with_list [Decides 0 0; Decides 1 1; Decides 2 1; Decides 3 0]);
  (332%Z, messages_test empty_predef r_rules_main_fields_rules_istio m_messages_main_fields_messages_istio [Decides 0 1])] = [].
Proof. vm_compute. reflexivity. Abort.

(** MAPL_engine/check_test.go *)
Goal failing [ (* TestMaplEngineConditions *)
  (367%Z, messages_test empty_predef r_rules_with_conditions_rules_with_conditions m_messages_conditions_messages_test_with_conditions [Decides 0 1; Decides 1 3; Decides 2 3; Decides 3 1; Decides 4 3; Decides 5 3]);
  (384%Z, messages_test empty_predef r_rules_with_conditions_rules_with_label_conditions m_messages_conditions_messages_test_with_label_conditions [Decides 0 1; Decides 1 1; Decides 2 1; Decides 3 1; Decides 4 0]);
  (394%Z, messages_test empty_predef r_rules_with_conditions_rules_with_namespace_conditions m_messages_conditions_messages_test_with_namespace_conditions [Decides 0 1; Decides 1 0; Decides 2 1; Decides 3 1; Decides 4 0]);
  (409%Z, messages_test empty_predef r_rules_with_conditions_rules_with_encryption_conditions m_messages_conditions_messages_test_with_encryption_conditions [Decides 0 0; Decides 1 0; Decides 2 1]);
  (417%Z, messages_test empty_predef r_rules_with_conditions_rules_with_EX_conditions m_messages_conditions_messages_test_with_EX_conditions [Decides 0 0; Decides 1 3; Decides 2 3]);
  (421%Z, messages_test empty_predef r_rules_with_conditions_rules_with_NEX_conditions m_messages_conditions_messages_test_with_EX_conditions [Decides 0 3; Decides 1 0; Decides 2 0]);
  (429%Z, messages_test empty_predef r_rules_with_conditions_rules_with_IN_conditions m_messages_conditions_messages_test_with_IN_conditions [Decides 0 0; Decides 1 3; Decides 2 0; Decides 3 0; Decides 4 0]);
  (435%Z, messages_test empty_predef r_rules_with_conditions_rules_with_NIN_conditions m_messages_conditions_messages_test_with_IN_conditions [Decides 0 3; Decides 1 0; Decides 2 3; Decides 3 3; Decides 4 3])] = [].
Proof. vm_compute. reflexivity. Abort.

(** MAPL_engine/check_test.go *)
Goal failing [ (* TestMaplEngineJsonConditionsDebugging *)
  (491%Z, document_test empty_predef r_rules_debugging_rules_with_jsonpath_debug_with_array_index m_messages_messages_base_jsonpath d_raw_json_data_debugging_json_raw_data_debug_with_array_index_1 [Decides 0 0]);
  (493%Z, document_test empty_predef r_rules_debugging_rules_with_jsonpath_debug_with_array_index m_messages_messages_base_jsonpath d_raw_json_data_debugging_json_raw_data_debug_with_array_index_2 [Decides 0 3]);
  (495%Z, document_test empty_predef r_rules_debugging_rules_with_jsonpath_debug_with_array_index m_messages_messages_base_jsonpath d_raw_json_data_debugging_json_raw_data_debug_with_array_index_3 [Decides 0 0]);
  (498%Z, document_test empty_predef r_rules_debugging_rules_with_jsonpath_debug4 m_messages_messages_base_jsonpath d_raw_json_data_debugging_json_raw_data_debug2 [Decides 0 3]);
  (500%Z, document_test empty_predef r_rules_debugging_rules_with_jsonpath_debug4b m_messages_messages_base_jsonpath d_raw_json_data_debugging_json_raw_data_debug2 [Decides 0 0]);
  (503%Z, document_test empty_predef r_rules_debugging_rules_with_jsonpath_debug3 m_messages_messages_base_jsonpath d_raw_json_data_debugging_json_raw_data_debug [Works]);
  (508%Z, document_test empty_predef r_rules_debugging_rules_with_jsonpath_debug m_messages_messages_base_jsonpath d_raw_json_data_debugging_json_raw_data_debug [Decides 0 3]);
  (510%Z, document_test empty_predef r_rules_debugging_rules_with_jsonpath_debug2 m_messages_messages_base_jsonpath d_raw_json_data_debugging_json_raw_data_debug [Decides 0 3]);
  (512%Z, document_test empty_predef r_rules_debugging_rules_with_jsonpath_debug2b m_messages_messages_base_jsonpath d_raw_json_data_debugging_json_raw_data_debug [Decides 0 3]);
  (514%Z, document_test empty_predef r_rules_debugging_rules_with_jsonpath_debug2c m_messages_messages_base_jsonpath d_raw_json_data_debugging_json_raw_data_debug [Decides 0 3]);
  (517%Z, document_test empty_predef r_rules_debugging_rules_with_jsonpath_debug m_messages_messages_base_jsonpath d_raw_json_data_debugging_yaml_raw_data_debug [Decides 0 3]);
  (519%Z, document_test empty_predef r_rules_debugging_rules_with_jsonpath_debug2 m_messages_messages_base_jsonpath d_raw_json_data_debugging_yaml_raw_data_debug [Decides 0 0]);
  (521%Z, document_test empty_predef r_rules_debugging_rules_with_jsonpath_debug2b m_messages_messages_base_jsonpath d_raw_json_data_debugging_yaml_raw_data_debug [Decides 0 0]);
  (523%Z, document_test empty_predef r_rules_debugging_rules_with_jsonpath_debug2c m_messages_messages_base_jsonpath d_raw_json_data_debugging_yaml_raw_data_debug [Decides 0 0]);
  (526%Z, conditions_test r_rules_debugging_rules_with_jsonpath_debug m_messages_messages_base_jsonpath d_raw_json_data_debugging_json_raw_data_debug [Holds 0 0 true]);
  (528%Z, conditions_test r_rules_debugging_rules_with_jsonpath_debug2 m_messages_messages_base_jsonpath d_raw_json_data_debugging_json_raw_data_debug [Holds 0 0 true]);
  (530%Z, conditions_test r_rules_debugging_rules_with_jsonpath_debug2b m_messages_messages_base_jsonpath d_raw_json_data_debugging_json_raw_data_debug [Holds 0 0 true]);
  (532%Z, conditions_test r_rules_debugging_rules_with_jsonpath_debug2c m_messages_messages_base_jsonpath d_raw_json_data_debugging_json_raw_data_debug [Holds 0 0 true])] = [].
Proof. vm_compute. reflexivity. Abort.

(** MAPL_engine/check_test.go *)
Goal failing [ (* TestMaplEngineJsonConditionWithReturnValues *)
  (561%Z, document_test empty_predef r_rules_with_return_value_rules_with_condition_keyword_and_return_value m_messages_messages_base_jsonpath d_raw_json_data_basic_jsonpath_json_raw_data_condition_with_return_values [Reports 1; ReportsAt 0 2; Returns 0 "name" "containerName"; Returns 0 "command" "containerCommand"; Decides 0 1]);
  (568%Z, document_test empty_predef r_rules_with_return_value_rules_with_condition_keyword_and_return_value2 m_messages_messages_base_jsonpath d_raw_json_data_basic_jsonpath_json_raw_data_condition_with_return_values [Reports 1; ReportsAt 0 1; Returns 0 "otherStuff" "otherStuff"; Decides 0 1]);
  (574%Z, document_test empty_predef r_rules_with_return_value_rules_with_jsonpath_EQ_on_array_with_return_value m_messages_messages_base_jsonpath d_raw_json_data_any_all2_json_raw_data_EQ1 [Reports 0; Decides 0 3])] = [].
Proof. vm_compute. reflexivity. Abort.

(** MAPL_engine/check_test.go *)
Goal failing [ (* TestMaplEngineJsonConditionsWildcards *)
  (664%Z, document_test empty_predef r_rules_deepscan_rules_with_jsonpath_deepscan m_messages_messages_base_jsonpath d_raw_json_data_deepscan_json_raw_data_2containers [Returns 0 "name" "c2"; Decides 0 3]);
  (668%Z, document_test empty_predef r_rules_deepscan_rules_with_jsonpath_deepscan m_messages_messages_base_jsonpath d_raw_json_data_deepscan_json_raw_data_2containers [Returns 0 "name" "c2"; Decides 0 3]);
  (672%Z, document_test empty_predef r_rules_deepscan_rules_with_jsonpath_deepscan m_messages_messages_base_jsonpath d_raw_json_data_deepscan_json_raw_data_2containers_dep [Reports 0; Decides 0 0]);
  (676%Z, document_test empty_predef r_rules_deepscan_rules_with_jsonpath_deepscan2 m_messages_messages_base_jsonpath d_raw_json_data_deepscan_json_raw_data_2containers_dep [Returns 0 "name" "c2"; Decides 0 3]);
  (680%Z, document_test empty_predef r_rules_deepscan_rules_with_jsonpath_deepscan2 m_messages_messages_base_jsonpath d_raw_json_data_deepscan_json_raw_data_2containers_dep2 [Returns 0 "name" "c2A"; Returns 1 "name" "c2B"; Decides 0 3]);
  (685%Z, document_test empty_predef r_rules_deepscan_rules_with_jsonpath_deepscan2b m_messages_messages_base_jsonpath d_raw_json_data_deepscan_json_raw_data_2containers_dep2 [Returns 0 "name" "c2A"; Returns 1 "name" "c2B"; Decides 0 3])] = [].
Proof. vm_compute. reflexivity. Abort.

(** MAPL_engine/check_test.go *)
Goal failing [ (* TestMaplEngineJsonConditions *)
  (714%Z, document_test empty_predef r_rules_with_jsonpath_conditions_rules_with_jsonpath_conditions_GT m_messages_messages_base_jsonpath d_raw_json_data_basic_jsonpath_json_raw_data1 [Decides 0 0]);
  (716%Z, document_test empty_predef r_rules_with_jsonpath_conditions_rules_with_jsonpath_conditions_GT m_messages_messages_base_jsonpath d_raw_json_data_basic_jsonpath_json_raw_data2 [Decides 0 3]);
  (718%Z, document_test empty_predef r_rules_with_jsonpath_conditions_rules_with_jsonpath_conditions_EQ m_messages_messages_base_jsonpath d_raw_json_data_basic_jsonpath_json_raw_data1 [Decides 0 3]);
  (721%Z, document_test empty_predef r_rules_with_jsonpath_conditions_rules_with_jsonpath_conditions_label_foo m_messages_messages_base_jsonpath d_raw_json_data_basic_jsonpath_json_raw_data1 [Decides 0 3]);
  (723%Z, document_test empty_predef r_rules_with_jsonpath_conditions_rules_with_jsonpath_conditions_label_foofoo m_messages_messages_base_jsonpath d_raw_json_data_basic_jsonpath_json_raw_data1a [Decides 0 3]);
  (727%Z, document_test empty_predef r_rules_with_jsonpath_conditions_rules_with_jsonpath_conditions_label_key_exists0 m_messages_messages_base_jsonpath d_raw_json_data_basic_jsonpath_json_raw_data1 [Decides 0 3]);
  (729%Z, document_test empty_predef r_rules_with_jsonpath_conditions_rules_with_jsonpath_conditions_label_key_exists1 m_messages_messages_base_jsonpath d_raw_json_data_basic_jsonpath_json_raw_data1 [Decides 0 0]);
  (731%Z, document_test empty_predef r_rules_with_jsonpath_conditions_rules_with_jsonpath_conditions_label_key_exists2 m_messages_messages_base_jsonpath d_raw_json_data_basic_jsonpath_json_raw_data1a [Decides 0 3]);
  (735%Z, document_test empty_predef r_rules_with_jsonpath_conditions_rules_with_jsonpath_conditions_label_key_exists0b m_messages_messages_base_jsonpath d_raw_json_data_basic_jsonpath_json_raw_data1 [Decides 0 0]);
  (737%Z, document_test empty_predef r_rules_with_jsonpath_conditions_rules_with_jsonpath_conditions_label_key_exists1b m_messages_messages_base_jsonpath d_raw_json_data_basic_jsonpath_json_raw_data1 [Decides 0 3]);
  (739%Z, document_test empty_predef r_rules_with_jsonpath_conditions_rules_with_jsonpath_conditions_label_key_exists2b m_messages_messages_base_jsonpath d_raw_json_data_basic_jsonpath_json_raw_data1a [Decides 0 0]);
  (742%Z, document_test empty_predef r_rules_with_jsonpath_conditions_rules_with_jsonpath_conditions_annotations_EQ m_messages_messages_base_jsonpath d_raw_json_data_basic_jsonpath_json_raw_data3 [Decides 0 3]);
  (749%Z, document_test empty_predef r_rules_with_jsonpath_conditions_rules_with_jsonpath_EX m_messages_messages_base_jsonpath d_raw_json_data_basic_jsonpath_json_raw_data0 [Decides 0 0]);
  (751%Z, document_test empty_predef r_rules_with_jsonpath_conditions_rules_with_jsonpath_NEX m_messages_messages_base_jsonpath d_raw_json_data_basic_jsonpath_json_raw_data0 [Decides 0 0]);
  (755%Z, document_test empty_predef r_rules_with_jsonpath_conditions_rules_with_jsonpath_EX m_messages_messages_base_jsonpath d_raw_json_data_basic_jsonpath_json_raw_data1 [Decides 0 3]);
  (757%Z, document_test empty_predef r_rules_with_jsonpath_conditions_rules_with_jsonpath_NEX m_messages_messages_base_jsonpath d_raw_json_data_basic_jsonpath_json_raw_data1 [Decides 0 0]);
  (759%Z, document_test empty_predef r_rules_with_jsonpath_conditions_rules_with_jsonpath_EX m_messages_messages_base_jsonpath d_raw_json_data_basic_jsonpath_json_raw_data1b [Decides 0 0]);
  (761%Z, document_test empty_predef r_rules_with_jsonpath_conditions_rules_with_jsonpath_NEX m_messages_messages_base_jsonpath d_raw_json_data_basic_jsonpath_json_raw_data1b [Decides 0 3]);
  (764%Z, document_test empty_predef r_rules_with_jsonpath_conditions_rules_with_jsonpath_conditions_LT_and_LT_spec_containers_AND_OR m_messages_messages_base_jsonpath d_raw_json_data_basic_jsonpath_json_raw_data_2containers_cpu_missing_from_one_B [Decides 0 3]);
  (766%Z, document_test empty_predef r_rules_with_jsonpath_conditions_rules_with_jsonpath_conditions_LT_and_LT_spec_containers_AND_OR m_messages_messages_base_jsonpath d_raw_json_data_basic_jsonpath_json_raw_data_2containers_cpu_missing_from_one_C [Decides 0 3]);
  (768%Z, document_test empty_predef r_rules_with_jsonpath_conditions_rules_with_jsonpath_conditions_LT_and_LT_spec_containers_AND_OR m_messages_messages_base_jsonpath d_raw_json_data_basic_jsonpath_json_raw_data_2containers_cpu_missing_from_one_D [Decides 0 0])] = [].
Proof. vm_compute. reflexivity. Abort.

(** MAPL_engine/check_test.go *)
Goal failing [ (* TestMaplEngineJsonConditions_NOT *)
  (795%Z, document_test empty_predef r_rules_with_jsonpath_conditions_NOT_rules_with_jsonpath_conditions_GT_NOT m_messages_messages_base_jsonpath d_raw_json_data_basic_jsonpath_json_raw_data1 [Decides 0 3]);
  (797%Z, document_test empty_predef r_rules_with_jsonpath_conditions_NOT_rules_with_jsonpath_conditions_GT_NOT m_messages_messages_base_jsonpath d_raw_json_data_basic_jsonpath_json_raw_data2 [Decides 0 0]);
  (799%Z, document_test empty_predef r_rules_with_jsonpath_conditions_NOT_rules_with_jsonpath_conditions_EQ_NOT m_messages_messages_base_jsonpath d_raw_json_data_basic_jsonpath_json_raw_data1 [Decides 0 0]);
  (801%Z, document_test empty_predef r_rules_with_jsonpath_conditions_NOT_rules_with_jsonpath_conditions_label_foo_NOT m_messages_messages_base_jsonpath d_raw_json_data_basic_jsonpath_json_raw_data1 [Decides 0 0]);
  (803%Z, document_test empty_predef r_rules_with_jsonpath_conditions_NOT_rules_with_jsonpath_conditions_label_foofoo_NOT m_messages_messages_base_jsonpath d_raw_json_data_basic_jsonpath_json_raw_data1a [Decides 0 0]);
  (807%Z, document_test empty_predef r_rules_with_jsonpath_conditions_NOT_rules_with_jsonpath_conditions_label_key_exists0_NOT m_messages_messages_base_jsonpath d_raw_json_data_basic_jsonpath_json_raw_data1 [Decides 0 0]);
  (809%Z, document_test empty_predef r_rules_with_jsonpath_conditions_NOT_rules_with_jsonpath_conditions_label_key_exists1_NOT m_messages_messages_base_jsonpath d_raw_json_data_basic_jsonpath_json_raw_data1 [Decides 0 3]);
  (811%Z, document_test empty_predef r_rules_with_jsonpath_conditions_NOT_rules_with_jsonpath_conditions_label_key_exists2_NOT m_messages_messages_base_jsonpath d_raw_json_data_basic_jsonpath_json_raw_data1a [Decides 0 0]);
  (815%Z, document_test empty_predef r_rules_with_jsonpath_conditions_NOT_rules_with_jsonpath_conditions_label_key_exists0b_NOT m_messages_messages_base_jsonpath d_raw_json_data_basic_jsonpath_json_raw_data1 [Decides 0 3]);
  (817%Z, document_test empty_predef r_rules_with_jsonpath_conditions_NOT_rules_with_jsonpath_conditions_label_key_exists1b_NOT m_messages_messages_base_jsonpath d_raw_json_data_basic_jsonpath_json_raw_data1 [Decides 0 0]);
  (819%Z, document_test empty_predef r_rules_with_jsonpath_conditions_NOT_rules_with_jsonpath_conditions_label_key_exists2b_NOT m_messages_messages_base_jsonpath d_raw_json_data_basic_jsonpath_json_raw_data1a [Decides 0 3]);
  (822%Z, document_test empty_predef r_rules_with_jsonpath_conditions_NOT_rules_with_jsonpath_conditions_annotations_EQ_NOT m_messages_messages_base_jsonpath d_raw_json_data_basic_jsonpath_json_raw_data3 [Decides 0 0]);
  (829%Z, document_test empty_predef r_rules_with_jsonpath_conditions_NOT_rules_with_jsonpath_EX_NOT m_messages_messages_base_jsonpath d_raw_json_data_basic_jsonpath_json_raw_data0 [Decides 0 3]);
  (831%Z, document_test empty_predef r_rules_with_jsonpath_conditions_NOT_rules_with_jsonpath_NEX_NOT m_messages_messages_base_jsonpath d_raw_json_data_basic_jsonpath_json_raw_data0 [Decides 0 3]);
  (835%Z, document_test empty_predef r_rules_with_jsonpath_conditions_NOT_rules_with_jsonpath_EX_NOT m_messages_messages_base_jsonpath d_raw_json_data_basic_jsonpath_json_raw_data1 [Decides 0 0]);
  (837%Z, document_test empty_predef r_rules_with_jsonpath_conditions_NOT_rules_with_jsonpath_NEX_NOT m_messages_messages_base_jsonpath d_raw_json_data_basic_jsonpath_json_raw_data1 [Decides 0 3]);
  (839%Z, document_test empty_predef r_rules_with_jsonpath_conditions_NOT_rules_with_jsonpath_EX_NOT m_messages_messages_base_jsonpath d_raw_json_data_basic_jsonpath_json_raw_data1b [Decides 0 3]);
  (841%Z, document_test empty_predef r_rules_with_jsonpath_conditions_NOT_rules_with_jsonpath_NEX_NOT m_messages_messages_base_jsonpath d_raw_json_data_basic_jsonpath_json_raw_data1b [Decides 0 0]);
  (844%Z, document_test empty_predef r_rules_with_jsonpath_conditions_NOT_rules_with_jsonpath_conditions_LT_and_LT_spec_containers_AND_OR_NOT m_messages_messages_base_jsonpath d_raw_json_data_basic_jsonpath_json_raw_data_2containers_cpu_missing_from_one_B [Decides 0 0]);
  (846%Z, document_test empty_predef r_rules_with_jsonpath_conditions_NOT_rules_with_jsonpath_conditions_LT_and_LT_spec_containers_AND_OR_NOT m_messages_messages_base_jsonpath d_raw_json_data_basic_jsonpath_json_raw_data_2containers_cpu_missing_from_one_C [Decides 0 0]);
  (848%Z, document_test empty_predef r_rules_with_jsonpath_conditions_NOT_rules_with_jsonpath_conditions_LT_and_LT_spec_containers_AND_OR_NOT m_messages_messages_base_jsonpath d_raw_json_data_basic_jsonpath_json_raw_data_2containers_cpu_missing_from_one_D [Decides 0 3]);
  (852%Z, document_test empty_predef r_rules_with_jsonpath_conditions_NOT_rules_with_jsonpath_conditions_labels_AND_NOT m_messages_messages_base_jsonpath d_raw_json_data_basic_jsonpath_json_raw_data4a [Decides 0 0]);
  (854%Z, document_test empty_predef r_rules_with_jsonpath_conditions_NOT_rules_with_jsonpath_conditions_labels_AND_NOT m_messages_messages_base_jsonpath d_raw_json_data_basic_jsonpath_json_raw_data4b [Decides 0 3]);
  (856%Z, document_test empty_predef r_rules_with_jsonpath_conditions_NOT_rules_with_jsonpath_conditions_labels_AND_NOT m_messages_messages_base_jsonpath d_raw_json_data_basic_jsonpath_json_raw_data4c [Decides 0 0]);
  (859%Z, document_test empty_predef r_rules_with_jsonpath_conditions_NOT_rules_with_jsonpath_conditions_labels_NOT_OR_NOT m_messages_messages_base_jsonpath d_raw_json_data_basic_jsonpath_json_raw_data4a [Decides 0 0]);
  (861%Z, document_test empty_predef r_rules_with_jsonpath_conditions_NOT_rules_with_jsonpath_conditions_labels_NOT_OR_NOT m_messages_messages_base_jsonpath d_raw_json_data_basic_jsonpath_json_raw_data4b [Decides 0 0]);
  (863%Z, document_test empty_predef r_rules_with_jsonpath_conditions_NOT_rules_with_jsonpath_conditions_labels_NOT_OR_NOT m_messages_messages_base_jsonpath d_raw_json_data_basic_jsonpath_json_raw_data4c [Decides 0 0]);
  (865%Z, document_test empty_predef r_rules_with_jsonpath_conditions_NOT_rules_with_jsonpath_conditions_labels_NOT_OR_NOT m_messages_messages_base_jsonpath d_raw_json_data_basic_jsonpath_json_raw_data4d [Decides 0 3])] = [].
Proof. vm_compute. reflexivity. Abort.

(** MAPL_engine/check_test.go *)
Goal failing [ (* TestMaplEngineJsonConditionsOnArraysAny *)
  (894%Z, document_test empty_predef r_rules_with_jsonpath_conditions_ALL_ANY_rules_with_jsonpath_conditions_LT_and_LT_spec_containers_ANY m_messages_messages_base_jsonpath d_raw_json_data_any_all_json_raw_data_1container [Decides 0 3]);
  (896%Z, document_test empty_predef r_rules_with_jsonpath_conditions_ALL_ANY_rules_with_jsonpath_conditions_LT_and_LT_spec_containers_ANYb m_messages_messages_base_jsonpath d_raw_json_data_any_all_json_raw_data_1container [Decides 0 3]);
  (898%Z, document_test empty_predef r_rules_with_jsonpath_conditions_ALL_ANY_rules_with_jsonpath_conditions_LT_and_LT_spec_containers_ANYc m_messages_messages_base_jsonpath d_raw_json_data_any_all_json_raw_data_1container [Decides 0 3]);
  (901%Z, document_test empty_predef r_rules_with_jsonpath_conditions_ALL_ANY_rules_with_jsonpath_conditions_LT_and_LT_spec_containers_ANY m_messages_messages_base_jsonpath d_raw_json_data_any_all_json_raw_data_2containers_cpu2_mem2000 [Decides 0 3]);
  (903%Z, document_test empty_predef r_rules_with_jsonpath_conditions_ALL_ANY_rules_with_jsonpath_conditions_LT_and_LT_spec_containers_ANY m_messages_messages_base_jsonpath d_raw_json_data_any_all_json_raw_data_2containers_cpu2_mem2000b [Decides 0 0]);
  (905%Z, document_test empty_predef r_rules_with_jsonpath_conditions_ALL_ANY_rules_with_jsonpath_conditions_LT_and_LT_spec_containers_ANY m_messages_messages_base_jsonpath d_raw_json_data_any_all_json_raw_data_2containers_cpu2_mem2000c [Decides 0 3]);
  (907%Z, document_test empty_predef r_rules_with_jsonpath_conditions_ALL_ANY_rules_with_jsonpath_conditions_LT_and_LT_spec_containers_ANY m_messages_messages_base_jsonpath d_raw_json_data_any_all_json_raw_data_2containers_cpu3_mem1100 [Decides 0 3]);
  (909%Z, document_test empty_predef r_rules_with_jsonpath_conditions_ALL_ANY_rules_with_jsonpath_conditions_LT_and_LT_spec_containers_ANY m_messages_messages_base_jsonpath d_raw_json_data_any_all_json_raw_data_2containers_cpu5_mem1000 [Decides 0 0]);
  (911%Z, document_test empty_predef r_rules_with_jsonpath_conditions_ALL_ANY_rules_with_jsonpath_conditions_LT_and_LT_spec_containers_ANY m_messages_messages_base_jsonpath d_raw_json_data_any_all_json_raw_data_2containers_cpu5_mem2000 [Decides 0 0]);
  (914%Z, document_test empty_predef r_rules_with_jsonpath_conditions_ALL_ANY_rules_with_jsonpath_conditions_LT_and_LT_spec_containers_ANY m_messages_messages_base_jsonpath d_raw_json_data_any_all_json_raw_data_2containers_cpu_missing_from_one [Decides 0 0]);
  (916%Z, document_test empty_predef r_rules_with_jsonpath_conditions_ALL_ANY_rules_with_jsonpath_conditions_LT_and_LT_spec_containers_ANY m_messages_messages_base_jsonpath d_raw_json_data_any_all_json_raw_data_2containers_cpu_missing_from_both [Decides 0 0]);
  (919%Z, document_test empty_predef r_rules_with_jsonpath_conditions_ALL_ANY_rules_with_jsonpath_conditions_LT_and_LT_spec_containers_ANY_EX m_messages_messages_base_jsonpath d_raw_json_data_any_all_json_raw_data_2containers_cpu_missing_from_one_A [Decides 0 3]);
  (922%Z, document_test empty_predef r_rules_with_jsonpath_conditions_ALL_ANY_rules_with_jsonpath_conditions_LT_and_LT_spec_containers_ANY_EX m_messages_messages_base_jsonpath d_raw_json_data_any_all_json_raw_data_2containers_cpu_missing_from_one_A2 [Decides 0 0]);
  (925%Z, document_test empty_predef r_rules_with_jsonpath_conditions_ALL_ANY_rules_with_jsonpath_conditions_LT_and_LT_spec_containers_ANY_EX2 m_messages_messages_base_jsonpath d_raw_json_data_any_all_json_raw_data_2containers_env [Decides 0 3]);
  (927%Z, document_test empty_predef r_rules_with_jsonpath_conditions_ALL_ANY_rules_with_jsonpath_conditions_LT_and_LT_spec_containers_ANY_EX2 m_messages_messages_base_jsonpath d_raw_json_data_any_all_json_raw_data_2containers_env_missing [Decides 0 0]);
  (930%Z, document_test empty_predef r_rules_with_jsonpath_conditions_ALL_ANY_rules_with_jsonpath_conditions_LT_and_LT_spec_containers_ANY_EX2b m_messages_messages_base_jsonpath d_raw_json_data_any_all_json_raw_data_2containers_env [Decides 0 3]);
  (932%Z, document_test empty_predef r_rules_with_jsonpath_conditions_ALL_ANY_rules_with_jsonpath_conditions_LT_and_LT_spec_containers_ANY_EX2b m_messages_messages_base_jsonpath d_raw_json_data_any_all_json_raw_data_2containers_env_missing [Decides 0 0]);
  (935%Z, document_test empty_predef r_rules_with_jsonpath_conditions_ALL_ANY_rules_with_jsonpath_conditions_LT_and_LT_spec_containers_ANY_EX2c m_messages_messages_base_jsonpath d_raw_json_data_any_all_json_raw_data_2containers_env [Decides 0 3]);
  (937%Z, document_test empty_predef r_rules_with_jsonpath_conditions_ALL_ANY_rules_with_jsonpath_conditions_LT_and_LT_spec_containers_ANY_EX2c m_messages_messages_base_jsonpath d_raw_json_data_any_all_json_raw_data_2containers_env_missing [Decides 0 0])] = [].
Proof. vm_compute. reflexivity. Abort.

(** MAPL_engine/check_test.go *)
Goal failing [ (* TestMaplEngineJsonConditionsOnArraysAny_NOT *)
  (966%Z, document_test empty_predef r_rules_with_jsonpath_conditions_ALL_ANY_NOT_rules_with_jsonpath_conditions_LT_and_LT_spec_containers_ANY_NOT m_messages_messages_base_jsonpath d_raw_json_data_any_all_json_raw_data_1container [Decides 0 0]);
  (968%Z, document_test empty_predef r_rules_with_jsonpath_conditions_ALL_ANY_NOT_rules_with_jsonpath_conditions_LT_and_LT_spec_containers_ANY_NOT m_messages_messages_base_jsonpath d_raw_json_data_any_all_json_raw_data_2containers_cpu2_mem2000 [Decides 0 0]);
  (970%Z, document_test empty_predef r_rules_with_jsonpath_conditions_ALL_ANY_NOT_rules_with_jsonpath_conditions_LT_and_LT_spec_containers_ANY_NOT m_messages_messages_base_jsonpath d_raw_json_data_any_all_json_raw_data_2containers_cpu2_mem2000b [Decides 0 3]);
  (972%Z, document_test empty_predef r_rules_with_jsonpath_conditions_ALL_ANY_NOT_rules_with_jsonpath_conditions_LT_and_LT_spec_containers_ANY_NOT m_messages_messages_base_jsonpath d_raw_json_data_any_all_json_raw_data_2containers_cpu2_mem2000c [Decides 0 0]);
  (974%Z, document_test empty_predef r_rules_with_jsonpath_conditions_ALL_ANY_NOT_rules_with_jsonpath_conditions_LT_and_LT_spec_containers_ANY_NOT m_messages_messages_base_jsonpath d_raw_json_data_any_all_json_raw_data_2containers_cpu3_mem1100 [Decides 0 0]);
  (976%Z, document_test empty_predef r_rules_with_jsonpath_conditions_ALL_ANY_NOT_rules_with_jsonpath_conditions_LT_and_LT_spec_containers_ANY_NOT m_messages_messages_base_jsonpath d_raw_json_data_any_all_json_raw_data_2containers_cpu5_mem1000 [Decides 0 3]);
  (978%Z, document_test empty_predef r_rules_with_jsonpath_conditions_ALL_ANY_NOT_rules_with_jsonpath_conditions_LT_and_LT_spec_containers_ANY_NOT m_messages_messages_base_jsonpath d_raw_json_data_any_all_json_raw_data_2containers_cpu5_mem2000 [Decides 0 3]);
  (981%Z, document_test empty_predef r_rules_with_jsonpath_conditions_ALL_ANY_NOT_rules_with_jsonpath_conditions_LT_and_LT_spec_containers_ANY_NOT m_messages_messages_base_jsonpath d_raw_json_data_any_all_json_raw_data_2containers_cpu_missing_from_one [Decides 0 3]);
  (983%Z, document_test empty_predef r_rules_with_jsonpath_conditions_ALL_ANY_NOT_rules_with_jsonpath_conditions_LT_and_LT_spec_containers_ANY_NOT m_messages_messages_base_jsonpath d_raw_json_data_any_all_json_raw_data_2containers_cpu_missing_from_both [Decides 0 3]);
  (986%Z, document_test empty_predef r_rules_with_jsonpath_conditions_ALL_ANY_NOT_rules_with_jsonpath_conditions_LT_and_LT_spec_containers_ANY_EX_NOT m_messages_messages_base_jsonpath d_raw_json_data_any_all_json_raw_data_2containers_cpu_missing_from_one_A [Decides 0 0]);
  (989%Z, document_test empty_predef r_rules_with_jsonpath_conditions_ALL_ANY_NOT_rules_with_jsonpath_conditions_LT_and_LT_spec_containers_ANY_EX_NOT m_messages_messages_base_jsonpath d_raw_json_data_any_all_json_raw_data_2containers_cpu_missing_from_one_A2 [Decides 0 3])] = [].
Proof. vm_compute. reflexivity. Abort.

(** MAPL_engine/check_test.go *)
Goal failing [ (* TestMaplEngineJsonConditionsOnArraysAll *)
  (1019%Z, document_test empty_predef r_rules_with_jsonpath_conditions_ALL_ANY_rules_with_jsonpath_conditions_LT_and_LT_spec_containers_ALL m_messages_messages_base_jsonpath d_raw_json_data_any_all_json_raw_data_1container [Decides 0 3]);
  (1021%Z, document_test empty_predef r_rules_with_jsonpath_conditions_ALL_ANY_rules_with_jsonpath_conditions_LT_and_LT_spec_containers_ALL m_messages_messages_base_jsonpath d_raw_json_data_any_all_json_raw_data_2containers_cpu2_mem2000 [Decides 0 0]);
  (1023%Z, document_test empty_predef r_rules_with_jsonpath_conditions_ALL_ANY_rules_with_jsonpath_conditions_LT_and_LT_spec_containers_ALL m_messages_messages_base_jsonpath d_raw_json_data_any_all_json_raw_data_2containers_cpu2_mem2000b [Decides 0 0]);
  (1025%Z, document_test empty_predef r_rules_with_jsonpath_conditions_ALL_ANY_rules_with_jsonpath_conditions_LT_and_LT_spec_containers_ALL m_messages_messages_base_jsonpath d_raw_json_data_any_all_json_raw_data_2containers_cpu2_mem2000c [Decides 0 0]);
  (1027%Z, document_test empty_predef r_rules_with_jsonpath_conditions_ALL_ANY_rules_with_jsonpath_conditions_LT_and_LT_spec_containers_ALL m_messages_messages_base_jsonpath d_raw_json_data_any_all_json_raw_data_2containers_cpu3_mem1100 [Decides 0 3]);
  (1029%Z, document_test empty_predef r_rules_with_jsonpath_conditions_ALL_ANY_rules_with_jsonpath_conditions_LT_and_LT_spec_containers_ALL m_messages_messages_base_jsonpath d_raw_json_data_any_all_json_raw_data_2containers_cpu5_mem1000 [Decides 0 0]);
  (1031%Z, document_test empty_predef r_rules_with_jsonpath_conditions_ALL_ANY_rules_with_jsonpath_conditions_LT_and_LT_spec_containers_ALL m_messages_messages_base_jsonpath d_raw_json_data_any_all_json_raw_data_2containers_cpu5_mem2000 [Decides 0 0]);
  (1033%Z, document_test empty_predef r_rules_with_jsonpath_conditions_ALL_ANY_rules_with_jsonpath_conditions_LT_and_LT_spec_containers_ALL m_messages_messages_base_jsonpath d_raw_json_data_any_all_json_raw_data_2containers_cpu_missing_from_one [Decides 0 0]);
  (1035%Z, document_test empty_predef r_rules_with_jsonpath_conditions_ALL_ANY_rules_with_jsonpath_conditions_LT_and_LT_spec_containers_ALL m_messages_messages_base_jsonpath d_raw_json_data_any_all_json_raw_data_2containers_cpu_missing_from_both [Decides 0 0]);
  (1038%Z, document_test empty_predef r_rules_with_jsonpath_conditions_ALL_ANY_rules_with_jsonpath_conditions_LT_and_LT_spec_containers_ALL_EX m_messages_messages_base_jsonpath d_raw_json_data_any_all_json_raw_data_2containers_cpu_missing_from_one_A [Decides 0 0]);
  (1040%Z, document_test empty_predef r_rules_with_jsonpath_conditions_ALL_ANY_rules_with_jsonpath_conditions_LT_and_LT_spec_containers_ALL_EX m_messages_messages_base_jsonpath d_raw_json_data_any_all_json_raw_data_2containers_cpu_missing_from_one_A2 [Decides 0 0]);
  (1042%Z, document_test empty_predef r_rules_with_jsonpath_conditions_ALL_ANY_rules_with_jsonpath_conditions_LT_and_LT_spec_containers_ALL_EX m_messages_messages_base_jsonpath d_raw_json_data_any_all_json_raw_data_2containers_cpu_missing_from_one_A3 [Decides 0 3]);
  (1044%Z, document_test empty_predef r_rules_with_jsonpath_conditions_ALL_ANY_rules_with_jsonpath_conditions_LT_and_LT_spec_containers_ALL_EX m_messages_messages_base_jsonpath d_raw_json_data_any_all_json_raw_data_2containers_cpu_missing_from_one_A4 [Decides 0 3]);
  (1046%Z, document_test empty_predef r_rules_with_jsonpath_conditions_ALL_ANY_rules_with_jsonpath_conditions_LT_and_LT_spec_containers_ALL_EX m_messages_messages_base_jsonpath d_raw_json_data_any_all_json_raw_data_2containers_cpu_missing_from_one_A5 [Decides 0 3]);
  (1048%Z, document_test empty_predef r_rules_with_jsonpath_conditions_ALL_ANY_rules_with_jsonpath_conditions_LT_and_LT_spec_containers_ALL_EX m_messages_messages_base_jsonpath d_raw_json_data_any_all_json_raw_data_2containers_cpu_missing_from_one_A6 [Decides 0 3]);
  (1050%Z, document_test empty_predef r_rules_with_jsonpath_conditions_ALL_ANY_rules_with_jsonpath_conditions_LT_and_LT_spec_containers_ALL_EX m_messages_messages_base_jsonpath d_raw_json_data_any_all_json_raw_data_2containers_cpu_missing_from_one_A7 [Decides 0 3])] = [].
Proof. vm_compute. reflexivity. Abort.

(** MAPL_engine/check_test.go *)
Goal failing [ (* TestMaplEngineJsonConditionsOnArraysAll_NOT *)
  (1074%Z, document_test empty_predef r_rules_with_jsonpath_conditions_ALL_ANY_NOT_rules_with_jsonpath_conditions_LT_and_LT_spec_containers_ALL_NOT m_messages_messages_base_jsonpath d_raw_json_data_any_all_json_raw_data_1container [Decides 0 0]);
  (1076%Z, document_test empty_predef r_rules_with_jsonpath_conditions_ALL_ANY_NOT_rules_with_jsonpath_conditions_LT_and_LT_spec_containers_ALL_NOT m_messages_messages_base_jsonpath d_raw_json_data_any_all_json_raw_data_2containers_cpu2_mem2000 [Decides 0 3]);
  (1078%Z, document_test empty_predef r_rules_with_jsonpath_conditions_ALL_ANY_NOT_rules_with_jsonpath_conditions_LT_and_LT_spec_containers_ALL_NOT m_messages_messages_base_jsonpath d_raw_json_data_any_all_json_raw_data_2containers_cpu2_mem2000b [Decides 0 3]);
  (1080%Z, document_test empty_predef r_rules_with_jsonpath_conditions_ALL_ANY_NOT_rules_with_jsonpath_conditions_LT_and_LT_spec_containers_ALL_NOT m_messages_messages_base_jsonpath d_raw_json_data_any_all_json_raw_data_2containers_cpu2_mem2000c [Decides 0 3]);
  (1082%Z, document_test empty_predef r_rules_with_jsonpath_conditions_ALL_ANY_NOT_rules_with_jsonpath_conditions_LT_and_LT_spec_containers_ALL_NOT m_messages_messages_base_jsonpath d_raw_json_data_any_all_json_raw_data_2containers_cpu3_mem1100 [Decides 0 0]);
  (1084%Z, document_test empty_predef r_rules_with_jsonpath_conditions_ALL_ANY_NOT_rules_with_jsonpath_conditions_LT_and_LT_spec_containers_ALL_NOT m_messages_messages_base_jsonpath d_raw_json_data_any_all_json_raw_data_2containers_cpu5_mem1000 [Decides 0 3]);
  (1086%Z, document_test empty_predef r_rules_with_jsonpath_conditions_ALL_ANY_NOT_rules_with_jsonpath_conditions_LT_and_LT_spec_containers_ALL_NOT m_messages_messages_base_jsonpath d_raw_json_data_any_all_json_raw_data_2containers_cpu5_mem2000 [Decides 0 3]);
  (1088%Z, document_test empty_predef r_rules_with_jsonpath_conditions_ALL_ANY_NOT_rules_with_jsonpath_conditions_LT_and_LT_spec_containers_ALL_NOT m_messages_messages_base_jsonpath d_raw_json_data_any_all_json_raw_data_2containers_cpu_missing_from_one [Decides 0 3]);
  (1090%Z, document_test empty_predef r_rules_with_jsonpath_conditions_ALL_ANY_NOT_rules_with_jsonpath_conditions_LT_and_LT_spec_containers_ALL_NOT m_messages_messages_base_jsonpath d_raw_json_data_any_all_json_raw_data_2containers_cpu_missing_from_both [Decides 0 3]);
  (1093%Z, document_test empty_predef r_rules_with_jsonpath_conditions_ALL_ANY_NOT_rules_with_jsonpath_conditions_LT_and_LT_spec_containers_ALL_EX_NOT m_messages_messages_base_jsonpath d_raw_json_data_any_all_json_raw_data_2containers_cpu_missing_from_one_A [Decides 0 3]);
  (1095%Z, document_test empty_predef r_rules_with_jsonpath_conditions_ALL_ANY_NOT_rules_with_jsonpath_conditions_LT_and_LT_spec_containers_ALL_EX_NOT m_messages_messages_base_jsonpath d_raw_json_data_any_all_json_raw_data_2containers_cpu_missing_from_one_A2 [Decides 0 3]);
  (1097%Z, document_test empty_predef r_rules_with_jsonpath_conditions_ALL_ANY_NOT_rules_with_jsonpath_conditions_LT_and_LT_spec_containers_ALL_EX_NOT m_messages_messages_base_jsonpath d_raw_json_data_any_all_json_raw_data_2containers_cpu_missing_from_one_A3 [Decides 0 0]);
  (1099%Z, document_test empty_predef r_rules_with_jsonpath_conditions_ALL_ANY_NOT_rules_with_jsonpath_conditions_LT_and_LT_spec_containers_ALL_EX_NOT m_messages_messages_base_jsonpath d_raw_json_data_any_all_json_raw_data_2containers_cpu_missing_from_one_A4 [Decides 0 0]);
  (1101%Z, document_test empty_predef r_rules_with_jsonpath_conditions_ALL_ANY_NOT_rules_with_jsonpath_conditions_LT_and_LT_spec_containers_ALL_EX_NOT m_messages_messages_base_jsonpath d_raw_json_data_any_all_json_raw_data_2containers_cpu_missing_from_one_A5 [Decides 0 0]);
  (1103%Z, document_test empty_predef r_rules_with_jsonpath_conditions_ALL_ANY_NOT_rules_with_jsonpath_conditions_LT_and_LT_spec_containers_ALL_EX_NOT m_messages_messages_base_jsonpath d_raw_json_data_any_all_json_raw_data_2containers_cpu_missing_from_one_A6 [Decides 0 0]);
  (1105%Z, document_test empty_predef r_rules_with_jsonpath_conditions_ALL_ANY_NOT_rules_with_jsonpath_conditions_LT_and_LT_spec_containers_ALL_EX_NOT m_messages_messages_base_jsonpath d_raw_json_data_any_all_json_raw_data_2containers_cpu_missing_from_one_A7 [Decides 0 0])] = [].
Proof. vm_compute. reflexivity. Abort.

(** MAPL_engine/check_test.go *)
Goal failing [ (* TestMaplEngineJsonConditionsOnArraysAnyAll2 *)
  (1137%Z, document_test empty_predef r_rules_with_jsonpath_conditions_ALL_ANY2_rules_with_jsonpath_EQ_on_array m_messages_messages_base_jsonpath d_raw_json_data_any_all2_json_raw_data_EQ1 [Decides 0 3]);
  (1139%Z, document_test empty_predef r_rules_with_jsonpath_conditions_ALL_ANY2_rules_with_jsonpath_EQ_on_array m_messages_messages_base_jsonpath d_raw_json_data_any_all2_json_raw_data_EQ2 [Decides 0 0]);
  (1141%Z, document_test empty_predef r_rules_with_jsonpath_conditions_ALL_ANY2_rules_with_jsonpath_EQ_on_array m_messages_messages_base_jsonpath d_raw_json_data_any_all2_json_raw_data_EQ3 [Decides 0 3]);
  (1144%Z, document_test empty_predef r_rules_with_jsonpath_conditions_ALL_ANY2_rules_with_jsonpath_NEQ_on_array m_messages_messages_base_jsonpath d_raw_json_data_any_all2_json_raw_data_EQ1 [Decides 0 0]);
  (1147%Z, document_test empty_predef r_rules_with_jsonpath_conditions_ALL_ANY2_rules_with_jsonpath_NEQ_on_array m_messages_messages_base_jsonpath d_raw_json_data_any_all2_json_raw_data_EQ2 [Decides 0 3]);
  (1149%Z, document_test empty_predef r_rules_with_jsonpath_conditions_ALL_ANY2_rules_with_jsonpath_NEQ_on_array m_messages_messages_base_jsonpath d_raw_json_data_any_all2_json_raw_data_EQ3 [Decides 0 3]);
  (1158%Z, document_test empty_predef r_rules_with_jsonpath_conditions_ALL_ANY2_rules_with_jsonpath_IN_on_array m_messages_messages_base_jsonpath d_raw_json_data_any_all2_json_raw_data_2containers_labels_a1 [Decides 0 3]);
  (1160%Z, document_test empty_predef r_rules_with_jsonpath_conditions_ALL_ANY2_rules_with_jsonpath_IN_on_array m_messages_messages_base_jsonpath d_raw_json_data_any_all2_json_raw_data_2containers_labels_a2 [Decides 0 3]);
  (1162%Z, document_test empty_predef r_rules_with_jsonpath_conditions_ALL_ANY2_rules_with_jsonpath_IN_on_array m_messages_messages_base_jsonpath d_raw_json_data_any_all2_json_raw_data_2containers_labels_a3 [Decides 0 0]);
  (1164%Z, document_test empty_predef r_rules_with_jsonpath_conditions_ALL_ANY2_rules_with_jsonpath_IN_on_array m_messages_messages_base_jsonpath d_raw_json_data_any_all2_json_raw_data_2containers_labels_a4 [Decides 0 3]);
  (1166%Z, document_test empty_predef r_rules_with_jsonpath_conditions_ALL_ANY2_rules_with_jsonpath_IN_on_array m_messages_messages_base_jsonpath d_raw_json_data_any_all2_json_raw_data_2containers_labels_a5 [Decides 0 0]);
  (1169%Z, document_test empty_predef r_rules_with_jsonpath_conditions_ALL_ANY2_rules_with_jsonpath_NIN_on_array m_messages_messages_base_jsonpath d_raw_json_data_any_all2_json_raw_data_2containers_labels_a1 [Decides 0 0]);
  (1171%Z, document_test empty_predef r_rules_with_jsonpath_conditions_ALL_ANY2_rules_with_jsonpath_NIN_on_array m_messages_messages_base_jsonpath d_raw_json_data_any_all2_json_raw_data_2containers_labels_a2 [Decides 0 3]);
  (1173%Z, document_test empty_predef r_rules_with_jsonpath_conditions_ALL_ANY2_rules_with_jsonpath_NIN_on_array m_messages_messages_base_jsonpath d_raw_json_data_any_all2_json_raw_data_2containers_labels_a3 [Decides 0 3]);
  (1175%Z, document_test empty_predef r_rules_with_jsonpath_conditions_ALL_ANY2_rules_with_jsonpath_NIN_on_array m_messages_messages_base_jsonpath d_raw_json_data_any_all2_json_raw_data_2containers_labels_a4 [Decides 0 3]);
  (1177%Z, document_test empty_predef r_rules_with_jsonpath_conditions_ALL_ANY2_rules_with_jsonpath_NIN_on_array m_messages_messages_base_jsonpath d_raw_json_data_any_all2_json_raw_data_2containers_labels_a5 [Decides 0 3]);
  (1180%Z, document_test empty_predef r_rules_with_jsonpath_conditions_ALL_ANY2_rules_with_jsonpath_IN_on_array m_messages_messages_base_jsonpath d_raw_json_data_any_all2_json_raw_data_2containers_labels_no_a_no_b1 [Decides 0 0]);
  (1182%Z, document_test empty_predef r_rules_with_jsonpath_conditions_ALL_ANY2_rules_with_jsonpath_IN_on_array m_messages_messages_base_jsonpath d_raw_json_data_any_all2_json_raw_data_2containers_labels_no_a_no_b2 [Decides 0 0]);
  (1184%Z, document_test empty_predef r_rules_with_jsonpath_conditions_ALL_ANY2_rules_with_jsonpath_IN_on_array m_messages_messages_base_jsonpath d_raw_json_data_any_all2_json_raw_data_2containers_labels_a_b [Decides 0 3]);
  (1186%Z, document_test empty_predef r_rules_with_jsonpath_conditions_ALL_ANY2_rules_with_jsonpath_IN_on_array m_messages_messages_base_jsonpath d_raw_json_data_any_all2_json_raw_data_2containers_labels_a_b2 [Decides 0 0]);
  (1188%Z, document_test empty_predef r_rules_with_jsonpath_conditions_ALL_ANY2_rules_with_jsonpath_IN_on_array m_messages_messages_base_jsonpath d_raw_json_data_any_all2_json_raw_data_2containers_labels_a_no_b [Decides 0 3]);
  (1190%Z, document_test empty_predef r_rules_with_jsonpath_conditions_ALL_ANY2_rules_with_jsonpath_IN_on_array m_messages_messages_base_jsonpath d_raw_json_data_any_all2_json_raw_data_2containers_labels_a_some_b [Decides 0 3]);
  (1192%Z, document_test empty_predef r_rules_with_jsonpath_conditions_ALL_ANY2_rules_with_jsonpath_IN_on_array m_messages_messages_base_jsonpath d_raw_json_data_any_all2_json_raw_data_2containers_labels_some_a_some_b [Decides 0 3]);
  (1195%Z, document_test empty_predef r_rules_with_jsonpath_conditions_ALL_ANY2_rules_with_jsonpath_NIN_on_array m_messages_messages_base_jsonpath d_raw_json_data_any_all2_json_raw_data_2containers_labels_no_a_no_b1 [Decides 0 0]);
  (1197%Z, document_test empty_predef r_rules_with_jsonpath_conditions_ALL_ANY2_rules_with_jsonpath_NIN_on_array m_messages_messages_base_jsonpath d_raw_json_data_any_all2_json_raw_data_2containers_labels_no_a_no_b2 [Decides 0 0]);
  (1199%Z, document_test empty_predef r_rules_with_jsonpath_conditions_ALL_ANY2_rules_with_jsonpath_NIN_on_array m_messages_messages_base_jsonpath d_raw_json_data_any_all2_json_raw_data_2containers_labels_a_b [Decides 0 0]);
  (1201%Z, document_test empty_predef r_rules_with_jsonpath_conditions_ALL_ANY2_rules_with_jsonpath_NIN_on_array m_messages_messages_base_jsonpath d_raw_json_data_any_all2_json_raw_data_2containers_labels_a_b2 [Decides 0 3]);
  (1203%Z, document_test empty_predef r_rules_with_jsonpath_conditions_ALL_ANY2_rules_with_jsonpath_NIN_on_array m_messages_messages_base_jsonpath d_raw_json_data_any_all2_json_raw_data_2containers_labels_a_no_b [Decides 0 0]);
  (1205%Z, document_test empty_predef r_rules_with_jsonpath_conditions_ALL_ANY2_rules_with_jsonpath_NIN_on_array m_messages_messages_base_jsonpath d_raw_json_data_any_all2_json_raw_data_2containers_labels_a_some_b [Decides 0 0]);
  (1207%Z, document_test empty_predef r_rules_with_jsonpath_conditions_ALL_ANY2_rules_with_jsonpath_NIN_on_array m_messages_messages_base_jsonpath d_raw_json_data_any_all2_json_raw_data_2containers_labels_some_a_some_b [Decides 0 0]);
  (1215%Z, document_test empty_predef r_rules_with_jsonpath_conditions_ALL_ANY2_rules_with_jsonpath_RE_on_array m_messages_messages_base_jsonpath d_raw_json_data_basic_jsonpath_json_raw_data0 [Decides 0 0]);
  (1217%Z, document_test empty_predef r_rules_with_jsonpath_conditions_ALL_ANY2_rules_with_jsonpath_RE_on_array m_messages_messages_base_jsonpath d_raw_json_data_any_all2_json_raw_data_2containers_no_images [Decides 0 0]);
  (1219%Z, document_test empty_predef r_rules_with_jsonpath_conditions_ALL_ANY2_rules_with_jsonpath_RE_on_array m_messages_messages_base_jsonpath d_raw_json_data_any_all2_json_raw_data_2containers_one_image_no_abc [Decides 0 0]);
  (1221%Z, document_test empty_predef r_rules_with_jsonpath_conditions_ALL_ANY2_rules_with_jsonpath_RE_on_array m_messages_messages_base_jsonpath d_raw_json_data_any_all2_json_raw_data_2containers_one_image_abc [Decides 0 3]);
  (1223%Z, document_test empty_predef r_rules_with_jsonpath_conditions_ALL_ANY2_rules_with_jsonpath_RE_on_array m_messages_messages_base_jsonpath d_raw_json_data_any_all2_json_raw_data_2containers_two_images_no_abc [Decides 0 0]);
  (1225%Z, document_test empty_predef r_rules_with_jsonpath_conditions_ALL_ANY2_rules_with_jsonpath_RE_on_array m_messages_messages_base_jsonpath d_raw_json_data_any_all2_json_raw_data_2containers_two_images_one_abc [Decides 0 3]);
  (1227%Z, document_test empty_predef r_rules_with_jsonpath_conditions_ALL_ANY2_rules_with_jsonpath_RE_on_array m_messages_messages_base_jsonpath d_raw_json_data_any_all2_json_raw_data_2containers_two_images_two_abc [Decides 0 3]);
  (1230%Z, document_test empty_predef r_rules_with_jsonpath_conditions_ALL_ANY2_rules_with_jsonpath_NRE_on_array m_messages_messages_base_jsonpath d_raw_json_data_basic_jsonpath_json_raw_data0 [Decides 0 0]);
  (1232%Z, document_test empty_predef r_rules_with_jsonpath_conditions_ALL_ANY2_rules_with_jsonpath_NRE_on_array m_messages_messages_base_jsonpath d_raw_json_data_any_all2_json_raw_data_2containers_no_images [Decides 0 0]);
  (1234%Z, document_test empty_predef r_rules_with_jsonpath_conditions_ALL_ANY2_rules_with_jsonpath_NRE_on_array m_messages_messages_base_jsonpath d_raw_json_data_any_all2_json_raw_data_2containers_one_image_no_abc [Decides 0 3]);
  (1236%Z, document_test empty_predef r_rules_with_jsonpath_conditions_ALL_ANY2_rules_with_jsonpath_NRE_on_array m_messages_messages_base_jsonpath d_raw_json_data_any_all2_json_raw_data_2containers_one_image_abc [Decides 0 0]);
  (1238%Z, document_test empty_predef r_rules_with_jsonpath_conditions_ALL_ANY2_rules_with_jsonpath_NRE_on_array m_messages_messages_base_jsonpath d_raw_json_data_any_all2_json_raw_data_2containers_two_images_no_abc [Decides 0 3]);
  (1240%Z, document_test empty_predef r_rules_with_jsonpath_conditions_ALL_ANY2_rules_with_jsonpath_NRE_on_array m_messages_messages_base_jsonpath d_raw_json_data_any_all2_json_raw_data_2containers_two_images_one_abc [Decides 0 3]);
  (1242%Z, document_test empty_predef r_rules_with_jsonpath_conditions_ALL_ANY2_rules_with_jsonpath_NRE_on_array m_messages_messages_base_jsonpath d_raw_json_data_any_all2_json_raw_data_2containers_two_images_two_abc [Decides 0 0]);
  (1245%Z, document_test empty_predef r_rules_with_jsonpath_conditions_ALL_ANY2_rules_with_jsonpath_EX_on_array m_messages_messages_base_jsonpath d_raw_json_data_any_all2_json_raw_data_2containers_cpu_not_missing [Decides 0 3]);
  (1247%Z, document_test empty_predef r_rules_with_jsonpath_conditions_ALL_ANY2_rules_with_jsonpath_NEX_on_array m_messages_messages_base_jsonpath d_raw_json_data_any_all2_json_raw_data_2containers_cpu_not_missing [Decides 0 0]);
  (1250%Z, document_test empty_predef r_rules_with_jsonpath_conditions_ALL_ANY2_rules_with_jsonpath_RE_on_array2 m_messages_messages_base_jsonpath d_raw_json_data_any_all2_json_raw_data_password_in_env [Decides 0 3])] = [].
Proof. vm_compute. reflexivity. Abort.

(** MAPL_engine/check_test.go *)
Goal failing [ (* TestMaplEngineJsonConditionsOnArraysAnyReturnValues *)
  (1279%Z, document_test empty_predef r_rules_with_jsonpath_conditions_ALL_ANY_rules_with_jsonpath_conditions_LT_and_LT_spec_containers_ANY m_messages_messages_base_jsonpath d_raw_json_data_any_all_json_raw_data_1container [Reports 0; Decides 0 3]);
  (1283%Z, document_test empty_predef r_rules_with_jsonpath_conditions_ALL_ANY_rules_with_jsonpath_conditions_LT_and_LT_spec_containers_ANY2 m_messages_messages_base_jsonpath d_raw_json_data_any_all_json_raw_data_1container [Returns 0 "name" "c1"; Decides 0 3]);
  (1288%Z, document_test empty_predef r_rules_with_jsonpath_conditions_ALL_ANY_rules_with_jsonpath_conditions_LT_and_LT_spec_containers_ANY2 m_messages_messages_base_jsonpath d_raw_json_data_any_all_json_raw_data_2containers_cpu2_mem2000 [Returns 0 "name" "c1"; Decides 0 3]);
  (1294%Z, document_test empty_predef r_rules_with_jsonpath_conditions_ALL_ANY_rules_with_jsonpath_conditions_LT_and_LT_spec_containers_ANY2 m_messages_messages_base_jsonpath d_raw_json_data_any_all_json_raw_data_2containers_cpu2_mem2000b [Reports 0; Decides 0 0]);
  (1298%Z, document_test empty_predef r_rules_with_jsonpath_conditions_ALL_ANY_rules_with_jsonpath_conditions_LT_and_LT_spec_containers_ANY2 m_messages_messages_base_jsonpath d_raw_json_data_any_all_json_raw_data_2containers_cpu2_mem2000c [Returns 0 "name" "c1"; Decides 0 3]);
  (1304%Z, document_test empty_predef r_rules_with_jsonpath_conditions_ALL_ANY_rules_with_jsonpath_conditions_LT_and_LT_spec_containers_ANY2b m_messages_messages_base_jsonpath d_raw_json_data_any_all_json_raw_data_2containers_cpu2_mem2000c [Returns 0 "name" "c1"; ReturnsJson 0 "resources" "{""limits"":{""cpu"":""2"",""memory"":""1000Mi""}}"; ReturnsJson 0 "all" "{""command"":[""sh"",""-c"",""echo 'Hello1 AppArmor!' && sleep 1h""],""image"":""busybox"",""name"":""c1"",""resources"":{""limits"":{""cpu"":""2"",""memory"":""1000Mi""}}}"; Decides 0 3]);
  (1325%Z, document_test empty_predef r_rules_with_jsonpath_conditions_ALL_ANY_rules_with_jsonpath_conditions_LT_and_LT_spec_containers_ANY2 m_messages_messages_base_jsonpath d_raw_json_data_any_all_json_raw_data_2containers_cpu2_mem2000d [Returns 0 "name" "c1"; Returns 1 "name" "c2"; Decides 0 3]);
  (1333%Z, document_test empty_predef r_rules_with_jsonpath_conditions_ALL_ANY_rules_with_jsonpath_conditions_LT_and_LT_spec_containers_ANY2b m_messages_messages_base_jsonpath d_raw_json_data_any_all_json_raw_data_2containers_cpu2_mem2000d [Returns 0 "name" "c1"; ReturnsJson 0 "resources" "{""limits"":{""cpu"":""2"",""memory"":""1000Mi""}}"; ReturnsJson 0 "all" "{""command"":[""sh"",""-c"",""echo 'Hello1 AppArmor!' && sleep 1h""],""image"":""busybox"",""name"":""c1"",""resources"":{""limits"":{""cpu"":""2"",""memory"":""1000Mi""}}}"; Returns 1 "name" "c2"; ReturnsJson 1 "resources" "{""limits"":{""cpu"":""1"",""memory"":""1100Mi""}}"; ReturnsJson 1 "all" "{""command"":[""sh"",""-c"",""echo 'Hello AppArmor!' && sleep 2h""],""image"":""busybox"",""name"":""c2"",""resources"":{""limits"":{""cpu"":""1"",""memory"":""1100Mi""}}}"; Decides 0 3]);
  (1369%Z, document_test empty_predef r_rules_with_jsonpath_conditions_ALL_ANY_rules_with_jsonpath_conditions_LT_and_LT_spec_containers_ANY2 m_messages_messages_base_jsonpath d_raw_json_data_any_all_json_raw_data_2containers_cpu2_mem2000e [Returns 0 "name" "c1"; Returns 1 "name" "c3"; Decides 0 3]);
  (1377%Z, document_test empty_predef r_rules_with_jsonpath_conditions_ALL_ANY_rules_with_jsonpath_conditions_LT_and_LT_spec_containers_ANY2b m_messages_messages_base_jsonpath d_raw_json_data_any_all_json_raw_data_2containers_cpu2_mem2000e [Returns 0 "name" "c1"; ReturnsJson 0 "resources" "{""limits"":{""cpu"":""2"",""memory"":""1000Mi""}}"; ReturnsJson 0 "all" "{""command"":[""sh"",""-c"",""echo 'Hello1 AppArmor!' && sleep 1h""],""image"":""busybox"",""name"":""c1"",""resources"":{""limits"":{""cpu"":""2"",""memory"":""1000Mi""}}}"; Returns 1 "name" "c3"; ReturnsJson 1 "resources" "{""limits"":{""cpu"":""1"",""memory"":""1100Mi""}}"; ReturnsJson 1 "all" "{""command"":[""sh"",""-c"",""echo 'Hello1 AppArmor!' && sleep 3h""],""image"":""busybox"",""name"":""c3"",""resources"":{""limits"":{""cpu"":""1"",""memory"":""1100Mi""}}}"; Decides 0 3]);
  (1408%Z, document_test empty_predef r_rules_with_jsonpath_conditions_ALL_ANY_rules_with_jsonpath_conditions_LT_and_LT_spec_containers_ANY2 m_messages_messages_base_jsonpath d_raw_json_data_any_all_json_raw_data_2containers_cpu2_mem2000f [Returns 0 "name" "c3"; Decides 0 3]);
  (1416%Z, document_test empty_predef r_rules_with_jsonpath_conditions_ALL_ANY_rules_with_jsonpath_conditions_LT_and_LT_spec_containers_ANY3 m_messages_messages_base_jsonpath d_raw_json_data_any_all_json_raw_data_1container [Returns 0 "name" "c1"; Decides 0 3]);
  (1421%Z, document_test empty_predef r_rules_with_jsonpath_conditions_ALL_ANY_rules_with_jsonpath_conditions_LT_and_LT_spec_containers_ANY3 m_messages_messages_base_jsonpath d_raw_json_data_any_all_json_raw_data_2containers_cpu2_mem2000 [Returns 0 "name" "c1"; Decides 0 3]);
  (1426%Z, document_test empty_predef r_rules_with_jsonpath_conditions_ALL_ANY_rules_with_jsonpath_conditions_LT_and_LT_spec_containers_ANY3 m_messages_messages_base_jsonpath d_raw_json_data_any_all_json_raw_data_2containers_cpu2_mem2000b [Reports 0; Decides 0 0]);
  (1430%Z, document_test empty_predef r_rules_with_jsonpath_conditions_ALL_ANY_rules_with_jsonpath_conditions_LT_and_LT_spec_containers_ANY3 m_messages_messages_base_jsonpath d_raw_json_data_any_all_json_raw_data_2containers_cpu2_mem2000c [Returns 0 "name" "c1"; Decides 0 3]);
  (1435%Z, document_test empty_predef r_rules_with_jsonpath_conditions_ALL_ANY_rules_with_jsonpath_conditions_LT_and_LT_spec_containers_ANY3 m_messages_messages_base_jsonpath d_raw_json_data_any_all_json_raw_data_2containers_cpu2_mem2000d [Returns 0 "name" "c1"; Returns 1 "name" "c2"; Decides 0 3]);
  (1442%Z, document_test empty_predef r_rules_with_jsonpath_conditions_ALL_ANY_rules_with_jsonpath_conditions_LT_and_LT_spec_containers_ANY3 m_messages_messages_base_jsonpath d_raw_json_data_any_all_json_raw_data_2containers_cpu2_mem2000e [Returns 0 "name" "c1"; Returns 1 "name" "c3"; Decides 0 3]);
  (1449%Z, document_test empty_predef r_rules_with_jsonpath_conditions_ALL_ANY_rules_with_jsonpath_conditions_LT_and_LT_spec_containers_ANY3 m_messages_messages_base_jsonpath d_raw_json_data_any_all_json_raw_data_2containers_cpu2_mem2000f [Returns 0 "name" "c3"; Decides 0 3]);
  (1456%Z, document_test empty_predef r_rules_with_jsonpath_conditions_ALL_ANY_rules_with_jsonpath_conditions_LT_and_LT_spec_containers_ANY4 m_messages_messages_base_jsonpath d_raw_json_data_any_all_json_raw_data_2containers_cpu2_mem2000g [Returns 0 "name" "c1"; Decides 0 3]);
  (1461%Z, document_test empty_predef r_rules_with_jsonpath_conditions_ALL_ANY_rules_with_jsonpath_conditions_LT_and_LT_spec_containers_ANY4 m_messages_messages_base_jsonpath d_raw_json_data_any_all_json_raw_data_2containers_cpu2_mem2000h [Returns 0 "name" "c2"; Decides 0 3]);
  (1468%Z, document_test empty_predef r_rules_with_jsonpath_conditions_ALL_ANY_rules_with_jsonpath_conditions_LT_and_LT_spec_containers_ANY7 m_messages_messages_base_jsonpath d_raw_json_data_any_all_json_raw_data_2containers_cpu2_mem2000g [Returns 0 "name2" "c2"; Decides 0 3]);
  (1475%Z, document_test empty_predef r_rules_with_jsonpath_conditions_ALL_ANY_rules_with_jsonpath_conditions_LT_and_LT_spec_containers_ANY5 m_messages_messages_base_jsonpath d_raw_json_data_any_all_json_raw_data_2containers_cpu2_mem2000h [Reports 0; Decides 0 3]);
  (1481%Z, document_test empty_predef r_rules_with_jsonpath_conditions_ALL_ANY_rules_with_jsonpath_conditions_LT_and_LT_spec_containers_ANY6 m_messages_messages_base_jsonpath d_raw_json_data_any_all_json_raw_data_2containers_cpu2_mem2000i [Reports 3; Returns 0 "name" "c2"; Returns 1 "name" "c4"; Returns 2 "name" "c6"; Decides 0 3])] = [].
Proof. vm_compute. reflexivity. Abort.

(** MAPL_engine/check_test.go *)
Goal failing [ (* TestMaplEngineJsonConditionsOnArraysMultilevel *)
  (1518%Z, document_test empty_predef r_rules_with_jsonpath_conditions_ALL_ANY_Multilevel_rules_with_jsonpath_conditions_multilevel_arrays m_messages_messages_base_jsonpath d_raw_json_data_multilevel_any_all_json_raw_data_2containers_2volumeMounts [Decides 0 0]);
  (1520%Z, document_test empty_predef r_rules_with_jsonpath_conditions_ALL_ANY_Multilevel_rules_with_jsonpath_conditions_multilevel_arrays m_messages_messages_base_jsonpath d_raw_json_data_multilevel_any_all_json_raw_data_2containers_2volumeMounts_B [Decides 0 3]);
  (1523%Z, document_test empty_predef r_rules_with_jsonpath_conditions_ALL_ANY_Multilevel_rules_with_jsonpath_conditions_multilevel_arrays2 m_messages_messages_base_jsonpath d_raw_json_data_multilevel_any_all_json_raw_data_2containers_2volumeMounts [Decides 0 3]);
  (1525%Z, document_test empty_predef r_rules_with_jsonpath_conditions_ALL_ANY_Multilevel_rules_with_jsonpath_conditions_multilevel_arrays2 m_messages_messages_base_jsonpath d_raw_json_data_multilevel_any_all_json_raw_data_2containers_2volumeMounts_B [Decides 0 3]);
  (1528%Z, document_test empty_predef r_rules_with_jsonpath_conditions_ALL_ANY_Multilevel_rules_with_jsonpath_conditions_multilevel_arrays3 m_messages_messages_base_jsonpath d_raw_json_data_multilevel_any_all_json_raw_data_2containers_2volumeMounts [Decides 0 0]);
  (1530%Z, document_test empty_predef r_rules_with_jsonpath_conditions_ALL_ANY_Multilevel_rules_with_jsonpath_conditions_multilevel_arrays3 m_messages_messages_base_jsonpath d_raw_json_data_multilevel_any_all_json_raw_data_2containers_2volumeMounts_B [Decides 0 0]);
  (1532%Z, document_test empty_predef r_rules_with_jsonpath_conditions_ALL_ANY_Multilevel_rules_with_jsonpath_conditions_multilevel_arrays3 m_messages_messages_base_jsonpath d_raw_json_data_multilevel_any_all_json_raw_data_2containers_2volumeMounts_B2 [Decides 0 3]);
  (1534%Z, document_test empty_predef r_rules_with_jsonpath_conditions_ALL_ANY_Multilevel_rules_with_jsonpath_conditions_multilevel_arrays3 m_messages_messages_base_jsonpath d_raw_json_data_multilevel_any_all_json_raw_data_2containers_2volumeMounts_C [Decides 0 0])] = [].
Proof. vm_compute. reflexivity. Abort.

(** MAPL_engine/check_test.go *)
Goal failing [ (* TestRuleValidation *)
  (1559%Z, validity_test r_rules_invalid_rules_rules_with_jsonpath_debug5a [Fails; Valid false]);
  (1564%Z, validity_test r_rules_debugging_rules_with_jsonpath_debug5b [Works; Valid true]);
  (1568%Z, validity_test r_rules_invalid_rules_rules_with_jsonpath_debug5c [Fails; Valid false]);
  (1573%Z, validity_test r_rules_invalid_rules_rules_with_jsonpath_debug5d [Fails; Valid false]);
  (1578%Z, validity_test r_rules_invalid_rules_rules_with_jsonpath_debug5e [Fails; Valid false]);
  (1583%Z, validity_test r_rules_invalid_rules_rules_with_jsonpath_debug5f [Fails; Valid false]);
  (1588%Z, validity_test r_rules_invalid_rules_rules_with_jsonpath_debug5h [Fails; Valid false]);
  (1593%Z, validity_test r_rules_invalid_rules_invalid_rule_name_list [Valid false]);
  (1597%Z, validity_test r_rules_invalid_rules_invalid_rule_RE [Valid false]);
  (1601%Z, validity_test r_rules_invalid_rules_invalid_rule_Attribute [Valid false]);
  (1605%Z, validity_test r_rules_invalid_rules_invalid_rule_Attribute2 [Valid false]);
  (1609%Z, validity_test r_rules_invalid_rules_invalid_rule_Method [Valid false]);
  (1613%Z, validity_test r_rules_invalid_rules_invalid_rule_mismatch_between_att_val [Valid false]);
  (1617%Z, validity_test r_rules_invalid_rules_invalid_rule_mismatch_between_att_val2 [Valid false]);
  (1621%Z, validity_test r_rules_invalid_rules_valid_rule_match_between_att_val [Valid true; Works]);
  (1626%Z, validity_test r_rules_invalid_rules_invalid_rule_conditions [Valid false]);
  (1630%Z, validity_test r_rules_invalid_rules_invalid_rule_conditions2 [Valid false]);
  (1634%Z, validity_test r_rules_invalid_rules_invalid_rule_conditions3 [Valid false]);
  (1638%Z, validity_test r_rules_invalid_rules_invalid_rule_conditions_ANY [Valid false]);
  (1642%Z, validity_test r_rules_invalid_rules_invalid_rule_conditions_ANY2 [Valid false]);
  (1646%Z, validity_test r_rules_invalid_rules_invalid_rule_conditions_ANY3 [Valid false]);
  (1655%Z, validity_test r_rules_invalid_rules_valid_rule_RE [Valid true]);
  (1658%Z, validity_test r_rules_invalid_rules_one_valid_one_invalid_rule_RE [Valid false])] = [].
Proof. vm_compute. reflexivity. Abort.

(** MAPL_engine/check_test.go *)
Goal failing [ (* TestRulesWithPredefinedStrings *)
  (1683%Z, messages_test p_lists_predefined_string r_rules_predefined_strings_rules_with_sender_translation_invalid m_messages_predefined_strings_messages_basic_sender_name [Fails]);
  (1687%Z, messages_test p_lists_predefined_string r_rules_predefined_strings_rules_with_sender_translation m_messages_predefined_strings_messages_basic_sender_name [Sender "abc"; Decides 0 1; Decides 1 0]);
  (1692%Z, messages_test p_lists_predefined_string r_rules_predefined_strings_rules_with_receiver_translation m_messages_predefined_strings_messages_basic_receiver_name [Receiver "abc"; Decides 0 1; Decides 1 0]);
  (1697%Z, messages_test p_lists_predefined_list r_rules_predefined_strings_rules_with_sender_translation_list m_messages_predefined_strings_messages_basic_sender_name [Sender "abc,def"; Decides 0 1; Decides 1 1]);
  (1702%Z, messages_test p_lists_predefined_list r_rules_predefined_strings_rules_with_receiver_translation_list m_messages_predefined_strings_messages_basic_receiver_name [Receiver "abc,def"; Decides 0 1; Decides 1 1]);
  (1710%Z, document_test p_lists_predefined_list_workload r_rules_predefined_strings_rules_with_condition_translation_list m_messages_messages_base_jsonpath d_raw_json_data_predefined_strings_json_raw_workload_dep [Tree "<jsonpath:$.kind-IN-Deployment,Pod>"; Decides 0 1]);
  (1710%Z, document_test p_lists_predefined_list_workload2 r_rules_predefined_strings_rules_with_condition_translation_list m_messages_messages_base_jsonpath d_raw_json_data_predefined_strings_json_raw_workload_dep [Tree "<jsonpath:$.kind-IN-Deployment,Pod>"; Decides 0 1]);
  (1710%Z, document_test p_lists_predefined_list_workload3 r_rules_predefined_strings_rules_with_condition_translation_list m_messages_messages_base_jsonpath d_raw_json_data_predefined_strings_json_raw_workload_dep [Tree "<jsonpath:$.kind-IN-Deployment,Pod>"; Decides 0 1]);
  (1710%Z, document_test p_lists_predefined_list_workload4 r_rules_predefined_strings_rules_with_condition_translation_list m_messages_messages_base_jsonpath d_raw_json_data_predefined_strings_json_raw_workload_dep [Tree "<jsonpath:$.kind-IN-Deployment,Pod>"; Decides 0 1]);
  (1716%Z, document_test p_lists_predefined_list_workload r_rules_predefined_strings_rules_with_condition_translation_list m_messages_messages_base_jsonpath d_raw_json_data_predefined_strings_json_raw_workload_pod [Decides 0 1]);
  (1716%Z, document_test p_lists_predefined_list_workload2 r_rules_predefined_strings_rules_with_condition_translation_list m_messages_messages_base_jsonpath d_raw_json_data_predefined_strings_json_raw_workload_pod [Decides 0 1]);
  (1716%Z, document_test p_lists_predefined_list_workload3 r_rules_predefined_strings_rules_with_condition_translation_list m_messages_messages_base_jsonpath d_raw_json_data_predefined_strings_json_raw_workload_pod [Decides 0 1]);
  (1716%Z, document_test p_lists_predefined_list_workload4 r_rules_predefined_strings_rules_with_condition_translation_list m_messages_messages_base_jsonpath d_raw_json_data_predefined_strings_json_raw_workload_pod [Decides 0 1]);
  (1719%Z, document_test p_lists_predefined_list_workload r_rules_predefined_strings_rules_with_condition_translation_list m_messages_messages_base_jsonpath d_raw_json_data_predefined_strings_json_raw_workload_job [Decides 0 0]);
  (1719%Z, document_test p_lists_predefined_list_workload2 r_rules_predefined_strings_rules_with_condition_translation_list m_messages_messages_base_jsonpath d_raw_json_data_predefined_strings_json_raw_workload_job [Decides 0 0]);
  (1719%Z, document_test p_lists_predefined_list_workload3 r_rules_predefined_strings_rules_with_condition_translation_list m_messages_messages_base_jsonpath d_raw_json_data_predefined_strings_json_raw_workload_job [Decides 0 0]);
  (1719%Z, document_test p_lists_predefined_list_workload4 r_rules_predefined_strings_rules_with_condition_translation_list m_messages_messages_base_jsonpath d_raw_json_data_predefined_strings_json_raw_workload_job [Decides 0 0]);
  (1724%Z, document_test p_lists_predefined_list_allowed_labels r_rules_predefined_strings_rules_with_condition_translation_foo m_messages_messages_base_jsonpath d_raw_json_data_predefined_strings_json_raw_workload_pod [Decides 0 1]);
  (1726%Z, document_test p_lists_predefined_list_allowed_labels r_rules_predefined_strings_rules_with_condition_translation_foo2 m_messages_messages_base_jsonpath d_raw_json_data_predefined_strings_json_raw_workload_pod [Decides 0 1]);
  (1729%Z, document_test p_lists_predefined_list_allowed_labels r_rules_predefined_strings_rules_with_condition_translation_foo_list m_messages_messages_base_jsonpath d_raw_json_data_predefined_strings_json_raw_workload_pod_bar [Decides 0 1]);
  (1731%Z, document_test p_lists_predefined_list_allowed_labels r_rules_predefined_strings_rules_with_condition_translation_foo_list m_messages_messages_base_jsonpath d_raw_json_data_predefined_strings_json_raw_workload_pod_XbarX [Decides 0 0]);
  (1733%Z, document_test p_lists_predefined_list_allowed_labels r_rules_predefined_strings_rules_with_condition_translation_foo_list m_messages_messages_base_jsonpath d_raw_json_data_predefined_strings_json_raw_workload_pod_xyz [Decides 0 1]);
  (1735%Z, document_test p_lists_predefined_list_allowed_labels r_rules_predefined_strings_rules_with_condition_translation_foo_list m_messages_messages_base_jsonpath d_raw_json_data_predefined_strings_json_raw_workload_pod_abc [Decides 0 0]);
  (1738%Z, document_test p_lists_predefined_list_allowed_labels r_rules_predefined_strings_rules_with_condition_translation_foo_list2 m_messages_messages_base_jsonpath d_raw_json_data_predefined_strings_json_raw_workload_pod_bar [Decides 0 1]);
  (1740%Z, document_test p_lists_predefined_list_allowed_labels r_rules_predefined_strings_rules_with_condition_translation_foo_list2 m_messages_messages_base_jsonpath d_raw_json_data_predefined_strings_json_raw_workload_pod_XbarX [Decides 0 0]);
  (1742%Z, document_test p_lists_predefined_list_allowed_labels r_rules_predefined_strings_rules_with_condition_translation_foo_list2 m_messages_messages_base_jsonpath d_raw_json_data_predefined_strings_json_raw_workload_pod_xyz [Decides 0 1]);
  (1744%Z, document_test p_lists_predefined_list_allowed_labels r_rules_predefined_strings_rules_with_condition_translation_foo_list2 m_messages_messages_base_jsonpath d_raw_json_data_predefined_strings_json_raw_workload_pod_abc [Decides 0 0]);
  (1747%Z, document_test p_lists_predefined_list_allowed_labels r_rules_predefined_strings_rules_with_condition_translation_foo_regex_list m_messages_messages_base_jsonpath d_raw_json_data_predefined_strings_json_raw_workload_pod_bar [Decides 0 1]);
  (1749%Z, document_test p_lists_predefined_list_allowed_labels r_rules_predefined_strings_rules_with_condition_translation_foo_regex_list m_messages_messages_base_jsonpath d_raw_json_data_predefined_strings_json_raw_workload_pod_XbarX [Decides 0 1]);
  (1751%Z, document_test p_lists_predefined_list_allowed_labels r_rules_predefined_strings_rules_with_condition_translation_foo_regex_list m_messages_messages_base_jsonpath d_raw_json_data_predefined_strings_json_raw_workload_pod_xyz [Decides 0 1]);
  (1753%Z, document_test p_lists_predefined_list_allowed_labels r_rules_predefined_strings_rules_with_condition_translation_foo_regex_list m_messages_messages_base_jsonpath d_raw_json_data_predefined_strings_json_raw_workload_pod_abc [Decides 0 0]);
  (1756%Z, document_test p_lists_predefined_list_allowed_labels r_rules_predefined_strings_rules_with_condition_translation_foo_regex_list2 m_messages_messages_base_jsonpath d_raw_json_data_predefined_strings_json_raw_workload_pod_bar [Decides 0 1]);
  (1758%Z, document_test p_lists_predefined_list_allowed_labels r_rules_predefined_strings_rules_with_condition_translation_foo_regex_list2 m_messages_messages_base_jsonpath d_raw_json_data_predefined_strings_json_raw_workload_pod_XbarX [Decides 0 1]);
  (1760%Z, document_test p_lists_predefined_list_allowed_labels r_rules_predefined_strings_rules_with_condition_translation_foo_regex_list2 m_messages_messages_base_jsonpath d_raw_json_data_predefined_strings_json_raw_workload_pod_xyz [Decides 0 1]);
  (1762%Z, document_test p_lists_predefined_list_allowed_labels r_rules_predefined_strings_rules_with_condition_translation_foo_regex_list2 m_messages_messages_base_jsonpath d_raw_json_data_predefined_strings_json_raw_workload_pod_abc [Decides 0 0])] = [].
Proof. vm_compute. reflexivity. Abort.

(** MAPL_engine/check_test.go *)
Goal failing [ (* TestMaplEngineJsonConditionsKeyValue *)
  (1791%Z, document_test empty_predef r_rules_key_value_rules_with_jsonpath_conditions_key1 m_messages_messages_base_jsonpath d_raw_json_data_key_value_json_raw_data_labels [Decides 0 3]);
  (1794%Z, document_test empty_predef r_rules_key_value_rules_with_jsonpath_conditions_key2 m_messages_messages_base_jsonpath d_raw_json_data_key_value_json_raw_data_labels [Decides 0 3]);
  (1797%Z, document_test empty_predef r_rules_key_value_rules_with_jsonpath_conditions_key3 m_messages_messages_base_jsonpath d_raw_json_data_key_value_json_raw_data_labels [Decides 0 0]);
  (1800%Z, document_test empty_predef r_rules_key_value_rules_with_jsonpath_conditions_value1 m_messages_messages_base_jsonpath d_raw_json_data_key_value_json_raw_data_labels [Decides 0 3]);
  (1803%Z, document_test empty_predef r_rules_key_value_rules_with_jsonpath_conditions_value2 m_messages_messages_base_jsonpath d_raw_json_data_key_value_json_raw_data_labels [Decides 0 3]);
  (1806%Z, document_test empty_predef r_rules_key_value_rules_with_jsonpath_conditions_value3 m_messages_messages_base_jsonpath d_raw_json_data_key_value_json_raw_data_labels [Decides 0 0]);
  (1809%Z, document_test empty_predef r_rules_key_value_rules_with_jsonpath_conditions_value_json m_messages_messages_base_jsonpath d_raw_json_data_key_value_json_raw_data_labels2 [Decides 0 3]);
  (1812%Z, document_test empty_predef r_rules_key_value_rules_with_jsonpath_conditions_value_json2 m_messages_messages_base_jsonpath d_raw_json_data_key_value_json_raw_data_labels2 [Decides 0 0]);
  (1815%Z, document_test empty_predef r_rules_key_value_rules_with_jsonpath_conditions_value_relative m_messages_messages_base_jsonpath d_raw_json_data_key_value_json_raw_data_labels_relative [Decides 0 3]);
  (1818%Z, document_test empty_predef r_rules_key_value_rules_with_jsonpath_conditions_value_relative2 m_messages_messages_base_jsonpath d_raw_json_data_key_value_json_raw_data_labels_relative [Decides 0 3]);
  (1821%Z, document_test empty_predef r_rules_key_value_rules_with_jsonpath_conditions_value_relative3 m_messages_messages_base_jsonpath d_raw_json_data_key_value_json_raw_data_labels_relative [Decides 0 0]);
  (1824%Z, document_test empty_predef r_rules_key_value_rules_with_jsonpath_conditions_value_relative_ALL m_messages_messages_base_jsonpath d_raw_json_data_key_value_json_raw_data_labels_relative [Decides 0 0]);
  (1827%Z, document_test empty_predef r_rules_key_value_rules_with_jsonpath_conditions_value_relative_ALL m_messages_messages_base_jsonpath d_raw_json_data_key_value_json_raw_data_labels_relative2 [Decides 0 3]);
  (1830%Z, document_test empty_predef r_rules_key_value_rules_with_jsonpath_conditions_value_relative_ALL m_messages_messages_base_jsonpath d_raw_json_data_key_value_json_raw_data_labels_relative3 [Decides 0 0]);
  (1833%Z, document_test empty_predef r_rules_key_value_rules_with_jsonpath_conditions_key_relative m_messages_messages_base_jsonpath d_raw_json_data_key_value_json_raw_data_object [Decides 0 3])] = [].
Proof. vm_compute. reflexivity. Abort.

(** MAPL_engine/check_test.go *)
Goal failing [ (* TestMaplEngineParentJsonpathAttributeList *)
  (1862%Z, document_test empty_predef r_rules_with_parentjsonpath_list_rules_with_jsonpath_conditions_LT_and_LT_spec_containers_ANY m_messages_messages_base_jsonpath d_raw_json_data_any_all_json_raw_data_1container [Decides 0 3]);
  (1864%Z, document_test empty_predef r_rules_with_parentjsonpath_list_rules_with_jsonpath_conditions_LT_and_LT_spec_containers_ANY m_messages_messages_base_jsonpath d_raw_json_data_any_all_json_raw_data_1container_dep [Decides 0 3]);
  (1867%Z, document_test empty_predef r_rules_with_parentjsonpath_list_rules_with_jsonpath_conditions_LT_and_LT_spec_containers_ANY m_messages_messages_base_jsonpath d_raw_json_data_any_all_json_raw_data_2containers_cpu2_mem2000 [Decides 0 3]);
  (1869%Z, document_test empty_predef r_rules_with_parentjsonpath_list_rules_with_jsonpath_conditions_LT_and_LT_spec_containers_ANY m_messages_messages_base_jsonpath d_raw_json_data_any_all_json_raw_data_2containers_cpu2_mem2000b [Decides 0 0]);
  (1871%Z, document_test empty_predef r_rules_with_parentjsonpath_list_rules_with_jsonpath_conditions_LT_and_LT_spec_containers_ANY m_messages_messages_base_jsonpath d_raw_json_data_any_all_json_raw_data_2containers_cpu2_mem2000c [Decides 0 3]);
  (1873%Z, document_test empty_predef r_rules_with_parentjsonpath_list_rules_with_jsonpath_conditions_LT_and_LT_spec_containers_ANY m_messages_messages_base_jsonpath d_raw_json_data_any_all_json_raw_data_2containers_cpu3_mem1100 [Decides 0 3]);
  (1875%Z, document_test empty_predef r_rules_with_parentjsonpath_list_rules_with_jsonpath_conditions_LT_and_LT_spec_containers_ANY m_messages_messages_base_jsonpath d_raw_json_data_any_all_json_raw_data_2containers_cpu5_mem1000 [Decides 0 0]);
  (1877%Z, document_test empty_predef r_rules_with_parentjsonpath_list_rules_with_jsonpath_conditions_LT_and_LT_spec_containers_ANY m_messages_messages_base_jsonpath d_raw_json_data_any_all_json_raw_data_2containers_cpu5_mem2000 [Decides 0 0]);
  (1880%Z, document_test empty_predef r_rules_with_parentjsonpath_list_rules_with_jsonpath_conditions_LT_and_LT_spec_containers_ANY m_messages_messages_base_jsonpath d_raw_json_data_any_all_json_raw_data_2containers_cpu2_mem2000_dep [Decides 0 3]);
  (1882%Z, document_test empty_predef r_rules_with_parentjsonpath_list_rules_with_jsonpath_conditions_LT_and_LT_spec_containers_ANY m_messages_messages_base_jsonpath d_raw_json_data_any_all_json_raw_data_2containers_cpu2_mem2000b_dep [Decides 0 0]);
  (1884%Z, document_test empty_predef r_rules_with_parentjsonpath_list_rules_with_jsonpath_conditions_LT_and_LT_spec_containers_ANY m_messages_messages_base_jsonpath d_raw_json_data_any_all_json_raw_data_2containers_cpu2_mem2000c_dep [Decides 0 3]);
  (1886%Z, document_test empty_predef r_rules_with_parentjsonpath_list_rules_with_jsonpath_conditions_LT_and_LT_spec_containers_ANY m_messages_messages_base_jsonpath d_raw_json_data_any_all_json_raw_data_2containers_cpu3_mem1100_dep [Decides 0 3]);
  (1888%Z, document_test empty_predef r_rules_with_parentjsonpath_list_rules_with_jsonpath_conditions_LT_and_LT_spec_containers_ANY m_messages_messages_base_jsonpath d_raw_json_data_any_all_json_raw_data_2containers_cpu5_mem1000_dep [Decides 0 0]);
  (1890%Z, document_test empty_predef r_rules_with_parentjsonpath_list_rules_with_jsonpath_conditions_LT_and_LT_spec_containers_ANY m_messages_messages_base_jsonpath d_raw_json_data_any_all_json_raw_data_2containers_cpu5_mem2000_dep [Decides 0 0]);
  (1893%Z, document_test empty_predef r_rules_with_parentjsonpath_list_rules_with_jsonpath_conditions_multilevel_arrays m_messages_messages_base_jsonpath d_raw_json_data_multilevel_any_all_json_raw_data_2containers_2volumeMounts [Decides 0 0]);
  (1895%Z, document_test empty_predef r_rules_with_parentjsonpath_list_rules_with_jsonpath_conditions_multilevel_arrays m_messages_messages_base_jsonpath d_raw_json_data_multilevel_any_all_json_raw_data_2containers_2volumeMounts_B [Decides 0 3]);
  (1898%Z, document_test empty_predef r_rules_with_parentjsonpath_list_rules_with_jsonpath_conditions_multilevel_arrays2 m_messages_messages_base_jsonpath d_raw_json_data_multilevel_any_all_json_raw_data_2containers_2volumeMounts [Decides 0 3]);
  (1900%Z, document_test empty_predef r_rules_with_parentjsonpath_list_rules_with_jsonpath_conditions_multilevel_arrays2 m_messages_messages_base_jsonpath d_raw_json_data_multilevel_any_all_json_raw_data_2containers_2volumeMounts_B [Decides 0 3]);
  (1903%Z, document_test empty_predef r_rules_with_parentjsonpath_list_rules_with_jsonpath_conditions_multilevel_arrays3 m_messages_messages_base_jsonpath d_raw_json_data_multilevel_any_all_json_raw_data_2containers_2volumeMounts [Decides 0 0]);
  (1905%Z, document_test empty_predef r_rules_with_parentjsonpath_list_rules_with_jsonpath_conditions_multilevel_arrays3 m_messages_messages_base_jsonpath d_raw_json_data_multilevel_any_all_json_raw_data_2containers_2volumeMounts_B [Decides 0 0]);
  (1907%Z, document_test empty_predef r_rules_with_parentjsonpath_list_rules_with_jsonpath_conditions_multilevel_arrays3 m_messages_messages_base_jsonpath d_raw_json_data_multilevel_any_all_json_raw_data_2containers_2volumeMounts_B2 [Decides 0 3]);
  (1909%Z, document_test empty_predef r_rules_with_parentjsonpath_list_rules_with_jsonpath_conditions_multilevel_arrays3 m_messages_messages_base_jsonpath d_raw_json_data_multilevel_any_all_json_raw_data_2containers_2volumeMounts_C [Decides 0 0]);
  (1913%Z, document_test empty_predef r_rules_with_parentjsonpath_list_rules_with_jsonpath_conditions_multilevel_arrays m_messages_messages_base_jsonpath d_raw_json_data_multilevel_any_all_json_raw_data_2containers_2volumeMounts_dep [Decides 0 0]);
  (1915%Z, document_test empty_predef r_rules_with_parentjsonpath_list_rules_with_jsonpath_conditions_multilevel_arrays m_messages_messages_base_jsonpath d_raw_json_data_multilevel_any_all_json_raw_data_2containers_2volumeMounts_B_dep [Decides 0 3]);
  (1918%Z, document_test empty_predef r_rules_with_parentjsonpath_list_rules_with_jsonpath_conditions_multilevel_arrays2 m_messages_messages_base_jsonpath d_raw_json_data_multilevel_any_all_json_raw_data_2containers_2volumeMounts_dep [Decides 0 3]);
  (1920%Z, document_test empty_predef r_rules_with_parentjsonpath_list_rules_with_jsonpath_conditions_multilevel_arrays2 m_messages_messages_base_jsonpath d_raw_json_data_multilevel_any_all_json_raw_data_2containers_2volumeMounts_B_dep [Decides 0 3]);
  (1923%Z, document_test empty_predef r_rules_with_parentjsonpath_list_rules_with_jsonpath_conditions_multilevel_arrays3 m_messages_messages_base_jsonpath d_raw_json_data_multilevel_any_all_json_raw_data_2containers_2volumeMounts_dep [Decides 0 0]);
  (1925%Z, document_test empty_predef r_rules_with_parentjsonpath_list_rules_with_jsonpath_conditions_multilevel_arrays3 m_messages_messages_base_jsonpath d_raw_json_data_multilevel_any_all_json_raw_data_2containers_2volumeMounts_B_dep [Decides 0 0]);
  (1927%Z, document_test empty_predef r_rules_with_parentjsonpath_list_rules_with_jsonpath_conditions_multilevel_arrays3 m_messages_messages_base_jsonpath d_raw_json_data_multilevel_any_all_json_raw_data_2containers_2volumeMounts_B2_dep [Decides 0 3]);
  (1929%Z, document_test empty_predef r_rules_with_parentjsonpath_list_rules_with_jsonpath_conditions_multilevel_arrays3 m_messages_messages_base_jsonpath d_raw_json_data_multilevel_any_all_json_raw_data_2containers_2volumeMounts_C_dep [Decides 0 0])] = [].
Proof. vm_compute. reflexivity. Abort.

(** MAPL_engine/check_test.go *)
Goal failing [ (* TestRulesWithPredefinedStringsZooz *)
  (1957%Z, document_test p_lists_predefined_password_list r_rules_predefined_strings_rule_zooz m_messages_messages_base_jsonpath d_raw_json_data_predefined_strings_json_raw_zooz_1 [Decides 0 3]);
  (1957%Z, document_test p_lists_predefined_password_list r_rules_predefined_strings_rule_zooz m_messages_messages_base_jsonpath d_raw_json_data_predefined_strings_json_raw_zooz_2 [Decides 0 3]);
  (1957%Z, document_test p_lists_predefined_password_list r_rules_predefined_strings_rule_zooz m_messages_messages_base_jsonpath d_raw_json_data_predefined_strings_json_raw_zooz_3 [Decides 0 3]);
  (1957%Z, document_test p_lists_predefined_password_list r_rules_predefined_strings_rule_zooz m_messages_messages_base_jsonpath d_raw_json_data_predefined_strings_json_raw_zooz_4 [Decides 0 3]);
  (1957%Z, document_test p_lists_predefined_password_list r_rules_predefined_strings_rule_zooz m_messages_messages_base_jsonpath d_raw_json_data_predefined_strings_json_raw_zooz_5 [Decides 0 3]);
  (1957%Z, document_test p_lists_predefined_password_list r_rules_predefined_strings_rule_zooz m_messages_messages_base_jsonpath d_raw_json_data_predefined_strings_json_raw_zooz_6 [Decides 0 3]);
  (1957%Z, document_test p_lists_predefined_password_list r_rules_predefined_strings_rule_zooz m_messages_messages_base_jsonpath d_raw_json_data_predefined_strings_json_raw_zooz_7 [Decides 0 3]);
  (1957%Z, document_test p_lists_predefined_password_list r_rules_predefined_strings_rule_zooz m_messages_messages_base_jsonpath d_raw_json_data_predefined_strings_json_raw_zooz_8 [Decides 0 3]);
  (1957%Z, document_test p_lists_predefined_password_list r_rules_predefined_strings_rule_zooz m_messages_messages_base_jsonpath d_raw_json_data_predefined_strings_json_raw_zooz_9 [Decides 0 3]);
  (1957%Z, document_test p_lists_predefined_password_list r_rules_predefined_strings_rule_zooz m_messages_messages_base_jsonpath d_raw_json_data_predefined_strings_json_raw_zooz_10 [Decides 0 3]);
  (1957%Z, document_test p_lists_predefined_password_list r_rules_predefined_strings_rule_zooz m_messages_messages_base_jsonpath d_raw_json_data_predefined_strings_json_raw_zooz_11 [Decides 0 3]);
  (1957%Z, document_test p_lists_predefined_password_list r_rules_predefined_strings_rule_zooz m_messages_messages_base_jsonpath d_raw_json_data_predefined_strings_json_raw_zooz_12 [Decides 0 3]);
  (1957%Z, document_test p_lists_predefined_password_list r_rules_predefined_strings_rule_zooz m_messages_messages_base_jsonpath d_raw_json_data_predefined_strings_json_raw_zooz_13 [Decides 0 3]);
  (1957%Z, document_test p_lists_predefined_password_list r_rules_predefined_strings_rule_zooz m_messages_messages_base_jsonpath d_raw_json_data_predefined_strings_json_raw_zooz_14 [Decides 0 3]);
  (1957%Z, document_test p_lists_predefined_password_list r_rules_predefined_strings_rule_zooz m_messages_messages_base_jsonpath d_raw_json_data_predefined_strings_json_raw_zooz_15 [Decides 0 3]);
  (1957%Z, document_test p_lists_predefined_password_list r_rules_predefined_strings_rule_zooz m_messages_messages_base_jsonpath d_raw_json_data_predefined_strings_json_raw_zooz_16 [Decides 0 3]);
  (1957%Z, document_test p_lists_predefined_password_list r_rules_predefined_strings_rule_zooz m_messages_messages_base_jsonpath d_raw_json_data_predefined_strings_json_raw_zooz_17 [Decides 0 3]);
  (1957%Z, document_test p_lists_predefined_password_list r_rules_predefined_strings_rule_zooz m_messages_messages_base_jsonpath d_raw_json_data_predefined_strings_json_raw_zooz_18 [Decides 0 3]);
  (1957%Z, document_test p_lists_predefined_password_list r_rules_predefined_strings_rule_zooz m_messages_messages_base_jsonpath d_raw_json_data_predefined_strings_json_raw_zooz_19 [Decides 0 3])] = [].
Proof. vm_compute. reflexivity. Abort.

(** MAPL_engine/conditions_tree_test.go *)
Goal failing [ (* TestConditionsTree2 *)
  (88%Z, loads r_rules_basic_rules_rules_basic_v2a);
  (90%Z, shown_test r_rules_basic_rules_rules_basic_v2a "<jsonpath:$.kind-EQ-Deployment>");
  (93%Z, loads r_rules_basic_rules_rules_basic_v2aa);
  (95%Z, shown_test r_rules_basic_rules_rules_basic_v2aa "(<jsonpath:$.abc-EQ-ABC> && <jsonpath:$.kind-EQ-Deployment>)");
  (98%Z, loads r_rules_basic_rules_rules_basic_v2b);
  (100%Z, shown_test r_rules_basic_rules_rules_basic_v2b "(((<jsonpath:$.abc-EQ-ABC> && <jsonpath:$.def-EQ-DEF>) || <jsonpath:$.kind-EQ-Deployment>) && (<jsonpath:$.xyz-EQ-XYZ> && <jsonpath:$.zzz-EQ-ZZZ>))");
  (106%Z, negb (loads r_rules_basic_rules_invalid_rules_basic_v2c));
  (117%Z, loads r_rules_basic_rules_rules_basic_v2e0);
  (120%Z, shown_test r_rules_basic_rules_rules_basic_v2e0 "<jsonpath:$.abc-EQ-ABC>");
  (123%Z, loads r_rules_basic_rules_rules_basic_v2e1);
  (126%Z, shown_test r_rules_basic_rules_rules_basic_v2e1 "<jsonpath:$.abc-EQ-ABC>");
  (129%Z, loads r_rules_basic_rules_rules_basic_v2e2);
  (132%Z, shown_test r_rules_basic_rules_rules_basic_v2e2 "<jsonpath:$.abc-EQ-ABC>");
  (135%Z, loads r_rules_basic_rules_rules_basic_v2e3);
  (137%Z, shown_test r_rules_basic_rules_rules_basic_v2e3 "<jsonpath:$.abc-EQ-ABC>");
  (140%Z, loads r_rules_basic_rules_rules_basic_v2f);
  (142%Z, shown_test r_rules_basic_rules_rules_basic_v2f "[ANY<jsonpath:$.spec.template.spec.containers[:];map[]>:<jsonpath:$.abc-EQ-ABC>]");
  (145%Z, loads r_rules_basic_rules_rules_basic_v2fb);
  (147%Z, shown_test r_rules_basic_rules_rules_basic_v2fb "[ANY<jsonpath:$.spec.template.spec.containers[:];map[]>:((<jsonpath:$.b-EQ-B> || <jsonpath:$.c-EQ-C>) && <jsonpath:$.a-EQ-A>)]")] = [].
Proof. vm_compute. reflexivity. Abort.

(** MAPL_engine/conditions_tree_test.go *)
Goal failing [ (* TestConditionsTree3 *)
  (174%Z, has_tree r_rules_with_return_value_rules_with_condition_keyword_and_return_value);
  (175%Z, loads r_rules_with_return_value_rules_with_condition_keyword_and_return_value);
  (178%Z, has_tree r_rules_condition_keyword_rules_with_condition_keyword);
  (179%Z, loads r_rules_condition_keyword_rules_with_condition_keyword);
  (181%Z, loads r_rules_condition_keyword_rules_with_condition_keyword2);
  (183%Z, loads r_rules_condition_keyword_rules_with_condition_keyword3);
  (185%Z, loads r_rules_condition_keyword_rules_with_condition_keyword4);
  (189%Z, yaml_and_json r_rules_condition_keyword_rules_with_condition_keyword5);
  (190%Z, yaml_and_json r_rules_condition_keyword_rules_with_condition_keyword5b);
  (191%Z, yaml_and_json r_rules_condition_keyword_rules_with_condition_keyword5c);
  (192%Z, yaml_and_json r_rules_condition_keyword_rules_with_condition_keyword5d);
  (194%Z, same_hash r_rules_condition_keyword_rules_with_condition_keyword5 r_rules_condition_keyword_rules_with_condition_keyword5b);
  (195%Z, same_hash r_rules_condition_keyword_rules_with_condition_keyword5 r_rules_condition_keyword_rules_with_condition_keyword5c);
  (196%Z, same_hash r_rules_condition_keyword_rules_with_condition_keyword5 r_rules_condition_keyword_rules_with_condition_keyword5d);
  (201%Z, yaml_and_json r_rules_condition_keyword_rules_with_condition_keyword6);
  (202%Z, yaml_and_json r_rules_condition_keyword_rules_with_condition_keyword6b);
  (203%Z, yaml_and_json r_rules_condition_keyword_rules_with_condition_keyword6c);
  (204%Z, yaml_and_json r_rules_condition_keyword_rules_with_condition_keyword6d);
  (207%Z, same_hash r_rules_condition_keyword_rules_with_condition_keyword6 r_rules_condition_keyword_rules_with_condition_keyword6b);
  (208%Z, same_hash r_rules_condition_keyword_rules_with_condition_keyword6 r_rules_condition_keyword_rules_with_condition_keyword6c);
  (209%Z, same_hash r_rules_condition_keyword_rules_with_condition_keyword6 r_rules_condition_keyword_rules_with_condition_keyword6d);
  (213%Z, negb (loads r_rules_condition_keyword_invalid_rules_with_condition_keyword))] = [].
Proof. vm_compute. reflexivity. Abort.

(** MAPL_engine/check_test.go *)
Goal failing [ (* TestMaplEngineDebugging *)
  (466%Z, text_loads "{ ""conditions"":
                      { ""conditionsTree"":
      {""AND"": 
       [
   {""condition"": {""attribute"": ""jsonpath:$.apiVersion"",""method"": ""NEQ"",""value"": ""test"",""returnValueJsonpath"": {""xyz"":""XYZ""} }}
       ]
      }
       }
     }");
  (479%Z, text_loads "{ ""conditions"":
                      { ""conditionsTree"":
      {""AND"": 
       [
   {""condition"": {""attribute"": ""jsonpath:$.apiVersion"",""method"": ""NEQ"",""value"": ""test"",""returnValueJsonpath"": null }}
       ]
      }
       }
     }")] = [].
Proof. vm_compute. reflexivity. Abort.

(** MAPL_engine/unmarshal_test.go *)
Goal failing [ (* TestJsonUnmarhshal *)
  (89%Z, text_loads "{""conditionsTree"":{""AND"":[{""ANY"":{""parentJsonpathAttribute"":""jsonpath:$.spec.containers[:]"",""condition"":{""condition"":{""attribute"":""jsonpath:$RELATIVE.securityContext.runAsUser"",""method"":""EQ"",""value"":""0""}}}},{""condition"":{""attribute"":""jsonpath:$.kind"",""method"":""RE"",""value"":""^Pod$""}}]}}");
  (94%Z, text_loads "[]");
  (100%Z, text_loads "{""conditionsTree"":{""attribute"":""encryptionType"",""method"":""EQ"",""value"":""tls""}}");
  (0%Z, copies_test true empty_predef r_rules_basic_rules_rules_basic_v1);
  (0%Z, copies_test true empty_predef r_rules_basic_rules_rules_basic_v1v2);
  (0%Z, copies_test true empty_predef r_rules_basic_rules_rules_basic_v2);
  (0%Z, copies_test true empty_predef r_rules_basic_rules_rules_basic_v2a);
  (0%Z, copies_test true empty_predef r_rules_basic_rules_rules_basic_v2aa);
  (0%Z, copies_test true empty_predef r_rules_basic_rules_rules_basic_v2b);
  (0%Z, copies_test true empty_predef r_rules_basic_rules_rules_basic_v2e0);
  (0%Z, copies_test true empty_predef r_rules_basic_rules_rules_basic_v2e1);
  (0%Z, copies_test true empty_predef r_rules_basic_rules_rules_basic_v2e2);
  (0%Z, copies_test true empty_predef r_rules_basic_rules_rules_basic_v2e3);
  (0%Z, copies_test true empty_predef r_rules_basic_rules_rules_basic_v2f);
  (0%Z, copies_test true empty_predef r_rules_basic_rules_rules_basic_v2fb);
  (0%Z, copies_test true empty_predef r_rules_condition_keyword_rules_with_condition_keyword);
  (0%Z, copies_test true empty_predef r_rules_condition_keyword_rules_with_condition_keyword2);
  (0%Z, copies_test true empty_predef r_rules_condition_keyword_rules_with_condition_keyword3);
  (0%Z, copies_test true empty_predef r_rules_condition_keyword_rules_with_condition_keyword4);
  (0%Z, copies_test true empty_predef r_rules_condition_keyword_rules_with_condition_keyword5);
  (0%Z, copies_test true empty_predef r_rules_condition_keyword_rules_with_condition_keyword5b);
  (0%Z, copies_test true empty_predef r_rules_condition_keyword_rules_with_condition_keyword5c);
  (0%Z, copies_test true empty_predef r_rules_condition_keyword_rules_with_condition_keyword5d);
  (0%Z, copies_test true empty_predef r_rules_condition_keyword_rules_with_condition_keyword6);
  (0%Z, copies_test true empty_predef r_rules_condition_keyword_rules_with_condition_keyword6b);
  (0%Z, copies_test true empty_predef r_rules_condition_keyword_rules_with_condition_keyword6c);
  (0%Z, copies_test true empty_predef r_rules_condition_keyword_rules_with_condition_keyword6d);
  (0%Z, copies_test true empty_predef r_rules_condition_keyword_rules_with_condition_keyword_and_return_value);
  (0%Z, copies_test true empty_predef r_rules_debugging_rules_with_jsonpath_debug);
  (0%Z, copies_test true empty_predef r_rules_debugging_rules_with_jsonpath_debug2);
  (0%Z, copies_test true empty_predef r_rules_debugging_rules_with_jsonpath_debug2b);
  (0%Z, copies_test true empty_predef r_rules_debugging_rules_with_jsonpath_debug2c);
  (0%Z, copies_test true empty_predef r_rules_debugging_rules_with_jsonpath_debug3);
  (0%Z, copies_test true empty_predef r_rules_debugging_rules_with_jsonpath_debug4);
  (0%Z, copies_test true empty_predef r_rules_debugging_rules_with_jsonpath_debug4b);
  (0%Z, copies_test true empty_predef r_rules_debugging_rules_with_jsonpath_debug5b);
  (0%Z, copies_test true empty_predef r_rules_debugging_rules_with_jsonpath_debug6);
  (0%Z, copies_test true empty_predef r_rules_debugging_rules_with_jsonpath_debug_with_array_index);
  (0%Z, copies_test true empty_predef r_rules_deepscan_rules_with_jsonpath_deepscan);
  (0%Z, copies_test true empty_predef r_rules_deepscan_rules_with_jsonpath_deepscan2);
  (0%Z, copies_test true empty_predef r_rules_deepscan_rules_with_jsonpath_deepscan2b);
  (0%Z, copies_test true empty_predef r_rules_hash_test_rules_with_label_conditions_for_hash_tests);
  (0%Z, copies_test true empty_predef r_rules_key_value_rules_with_jsonpath_conditions_key1);
  (0%Z, copies_test true empty_predef r_rules_key_value_rules_with_jsonpath_conditions_key2);
  (0%Z, copies_test true empty_predef r_rules_key_value_rules_with_jsonpath_conditions_key3);
  (0%Z, copies_test true empty_predef r_rules_key_value_rules_with_jsonpath_conditions_key_relative);
  (0%Z, copies_test true empty_predef r_rules_key_value_rules_with_jsonpath_conditions_value1);
  (0%Z, copies_test true empty_predef r_rules_key_value_rules_with_jsonpath_conditions_value2);
  (0%Z, copies_test true empty_predef r_rules_key_value_rules_with_jsonpath_conditions_value3);
  (0%Z, copies_test true empty_predef r_rules_key_value_rules_with_jsonpath_conditions_value_json);
  (0%Z, copies_test true empty_predef r_rules_key_value_rules_with_jsonpath_conditions_value_json2);
  (0%Z, copies_test true empty_predef r_rules_key_value_rules_with_jsonpath_conditions_value_relative);
  (0%Z, copies_test true empty_predef r_rules_key_value_rules_with_jsonpath_conditions_value_relative2);
  (0%Z, copies_test true empty_predef r_rules_key_value_rules_with_jsonpath_conditions_value_relative3);
  (0%Z, copies_test true empty_predef r_rules_key_value_rules_with_jsonpath_conditions_value_relative_ALL);
  (0%Z, copies_test true empty_predef r_rules_main_fields_rules_basic);
  (0%Z, copies_test true empty_predef r_rules_main_fields_rules_istio);
  (0%Z, copies_test true empty_predef r_rules_main_fields_rules_operation_list);
  (0%Z, copies_test true empty_predef r_rules_main_fields_rules_operations);
  (0%Z, copies_test true empty_predef r_rules_main_fields_rules_receiver_list);
  (0%Z, copies_test true empty_predef r_rules_main_fields_rules_receiver_with_wildcards);
  (0%Z, copies_test true empty_predef r_rules_main_fields_rules_resource_lists);
  (0%Z, copies_test true empty_predef r_rules_main_fields_rules_resources);
  (0%Z, copies_test true empty_predef r_rules_main_fields_rules_resources_with_wildcards);
  (0%Z, copies_test true empty_predef r_rules_main_fields_rules_sender_list);
  (0%Z, copies_test true empty_predef r_rules_main_fields_rules_sender_with_wildcards);
  (0%Z, copies_test true empty_predef r_rules_main_fields_rules_with_receiver_ips);
  (0%Z, copies_test true empty_predef r_rules_main_fields_rules_with_sender_ips);
  (0%Z, copies_test true empty_predef r_rules_mongo_plugin_and_or_not_rules_with_jsonpath_conditions_AND);
  (0%Z, copies_test true empty_predef r_rules_mongo_plugin_and_or_not_rules_with_jsonpath_conditions_AND_NOT);
  (0%Z, copies_test true empty_predef r_rules_mongo_plugin_and_or_not_rules_with_jsonpath_conditions_AND_OR);
  (0%Z, copies_test true empty_predef r_rules_mongo_plugin_and_or_not_rules_with_jsonpath_conditions_NOT);
  (0%Z, copies_test true empty_predef r_rules_mongo_plugin_and_or_not_rules_with_jsonpath_conditions_NOT_AND);
  (0%Z, copies_test true empty_predef r_rules_mongo_plugin_and_or_not_rules_with_jsonpath_conditions_OR);
  (0%Z, copies_test true empty_predef r_rules_mongo_plugin_any_all_rules_with_jsonpath_conditions_LT_and_LT_spec_containers_ALL);
  (0%Z, copies_test true empty_predef r_rules_mongo_plugin_any_all_rules_with_jsonpath_conditions_LT_and_LT_spec_containers_ALL2);
  (0%Z, copies_test true empty_predef r_rules_mongo_plugin_any_all_rules_with_jsonpath_conditions_LT_and_LT_spec_containers_ALL3);
  (0%Z, copies_test true empty_predef r_rules_mongo_plugin_any_all_rules_with_jsonpath_conditions_LT_and_LT_spec_containers_ANY);
  (0%Z, copies_test true empty_predef r_rules_mongo_plugin_any_all_rules_with_jsonpath_conditions_LT_and_LT_spec_containers_ANY2);
  (0%Z, copies_test true empty_predef r_rules_mongo_plugin_any_all_rules_with_jsonpath_conditions_LT_and_LT_spec_containers_ANY3);
  (0%Z, copies_test true empty_predef r_rules_mongo_plugin_any_all_rules_with_jsonpath_conditions_multilevel_arrays);
  (0%Z, copies_test true empty_predef r_rules_mongo_plugin_any_all_rules_with_jsonpath_conditions_multilevel_arrays2);
  (0%Z, copies_test true empty_predef r_rules_mongo_plugin_any_all_rules_with_jsonpath_conditions_multilevel_arrays2_nothing);
  (0%Z, copies_test true empty_predef r_rules_mongo_plugin_any_all_rules_with_jsonpath_conditions_multilevel_arrays2_wildcard);
  (0%Z, copies_test true empty_predef r_rules_mongo_plugin_any_all_rules_with_jsonpath_conditions_multilevel_arrays3);
  (0%Z, copies_test true empty_predef r_rules_mongo_plugin_any_all_rules_with_jsonpath_conditions_multilevel_arrays3_nothing);
  (0%Z, copies_test true empty_predef r_rules_mongo_plugin_any_all_rules_with_jsonpath_conditions_multilevel_arrays3_wildcard);
  (0%Z, copies_test true empty_predef r_rules_mongo_plugin_any_all_rules_with_jsonpath_conditions_multilevel_arrays_nothing);
  (0%Z, copies_test true empty_predef r_rules_mongo_plugin_any_all_rules_with_jsonpath_conditions_multilevel_arrays_wildcard);
  (0%Z, copies_test true empty_predef r_rules_mongo_plugin_key_value_rules_with_jsonpath_conditions_key1);
  (0%Z, copies_test true empty_predef r_rules_mongo_plugin_key_value_rules_with_jsonpath_conditions_key2);
  (0%Z, copies_test true empty_predef r_rules_mongo_plugin_key_value_rules_with_jsonpath_conditions_key3);
  (0%Z, copies_test true empty_predef r_rules_mongo_plugin_key_value_rules_with_jsonpath_conditions_key_value_AND);
  (0%Z, copies_test true empty_predef r_rules_mongo_plugin_key_value_rules_with_jsonpath_conditions_key_value_AND2);
  (0%Z, copies_test true empty_predef r_rules_mongo_plugin_key_value_rules_with_jsonpath_conditions_key_value_AND3);
  (0%Z, copies_test true empty_predef r_rules_mongo_plugin_key_value_rules_with_jsonpath_conditions_value1);
  (0%Z, copies_test true empty_predef r_rules_mongo_plugin_key_value_rules_with_jsonpath_conditions_value2);
  (0%Z, copies_test true empty_predef r_rules_mongo_plugin_key_value_rules_with_jsonpath_conditions_value3);
  (0%Z, copies_test true empty_predef r_rules_mongo_plugin_key_value_rules_with_jsonpath_conditions_value_AND);
  (0%Z, copies_test true empty_predef r_rules_mongo_plugin_key_value_rules_with_jsonpath_conditions_value_AND2);
  (0%Z, copies_test true empty_predef r_rules_mongo_plugin_key_value_rules_with_jsonpath_conditions_value_json);
  (0%Z, copies_test true empty_predef r_rules_mongo_plugin_key_value_rules_with_jsonpath_conditions_value_json2);
  (0%Z, copies_test true empty_predef r_rules_mongo_plugin_key_value_rules_with_jsonpath_conditions_value_json3);
  (0%Z, copies_test true empty_predef r_rules_mongo_plugin_key_value_rules_with_jsonpath_conditions_value_json4);
  (0%Z, copies_test true empty_predef r_rules_mongo_plugin_number_suffix_rules_with_jsonpath_conditions_EQ);
  (0%Z, copies_test true empty_predef r_rules_mongo_plugin_rules_with_jsonpath_conditions_EQ);
  (0%Z, copies_test true empty_predef r_rules_mongo_plugin_rules_with_jsonpath_conditions_EQ2);
  (0%Z, copies_test true empty_predef r_rules_mongo_plugin_rules_with_jsonpath_conditions_EQ_raw_prefix);
  (0%Z, copies_test true empty_predef r_rules_mongo_plugin_rules_with_jsonpath_conditions_GE_2);
  (0%Z, copies_test true empty_predef r_rules_mongo_plugin_rules_with_jsonpath_conditions_GT_4);
  (0%Z, copies_test true empty_predef r_rules_mongo_plugin_rules_with_jsonpath_conditions_IN);
  (0%Z, copies_test true empty_predef r_rules_mongo_plugin_rules_with_jsonpath_conditions_LE_2);
  (0%Z, copies_test true empty_predef r_rules_mongo_plugin_rules_with_jsonpath_conditions_LT_4);
  (0%Z, copies_test true empty_predef r_rules_mongo_plugin_rules_with_jsonpath_conditions_NIN);
  (0%Z, copies_test true empty_predef r_rules_mongo_plugin_rules_with_jsonpath_conditions_label_foo);
  (0%Z, copies_test true empty_predef r_rules_mongo_plugin_rules_with_jsonpath_conditions_label_foo2);
  (0%Z, copies_test true empty_predef r_rules_mongo_plugin_rules_with_jsonpath_conditions_label_foo3);
  (0%Z, copies_test true empty_predef r_rules_mongo_plugin_rules_with_jsonpath_conditions_label_foo4);
  (0%Z, copies_test true empty_predef r_rules_mongo_plugin_rules_with_jsonpath_conditions_label_foo_EX);
  (0%Z, copies_test true empty_predef r_rules_mongo_plugin_rules_with_jsonpath_conditions_label_foo_NEX);
  (0%Z, copies_test true empty_predef r_rules_mongo_plugin_rules_with_jsonpath_conditions_label_foo_ar2_NRE);
  (0%Z, copies_test true empty_predef r_rules_mongo_plugin_rules_with_jsonpath_conditions_label_foo_ar2_RE);
  (0%Z, copies_test true empty_predef r_rules_mongo_plugin_rules_with_jsonpath_conditions_replicas_EX);
  (0%Z, copies_test true empty_predef r_rules_mongo_plugin_rules_with_jsonpath_conditions_replicas_NEX);
  (0%Z, copies_test true empty_predef r_rules_with_conditions_rules_with_EX_conditions);
  (0%Z, copies_test true empty_predef r_rules_with_conditions_rules_with_IN_conditions);
  (0%Z, copies_test true empty_predef r_rules_with_conditions_rules_with_NEX_conditions);
  (0%Z, copies_test true empty_predef r_rules_with_conditions_rules_with_NIN_conditions);
  (0%Z, copies_test true empty_predef r_rules_with_conditions_rules_with_conditions);
  (0%Z, copies_test true empty_predef r_rules_with_conditions_rules_with_encryption_conditions);
  (0%Z, copies_test true empty_predef r_rules_with_conditions_rules_with_label_conditions);
  (0%Z, copies_test true empty_predef r_rules_with_conditions_rules_with_namespace_conditions);
  (0%Z, copies_test true empty_predef r_rules_with_jsonpath_conditions_rules_with_jsonpath_EX);
  (0%Z, copies_test true empty_predef r_rules_with_jsonpath_conditions_rules_with_jsonpath_NEX);
  (0%Z, copies_test true empty_predef r_rules_with_jsonpath_conditions_rules_with_jsonpath_conditions_EQ);
  (0%Z, copies_test true empty_predef r_rules_with_jsonpath_conditions_rules_with_jsonpath_conditions_GT);
  (0%Z, copies_test true empty_predef r_rules_with_jsonpath_conditions_rules_with_jsonpath_conditions_LT_and_LT_spec_containers_AND_OR);
  (0%Z, copies_test true empty_predef r_rules_with_jsonpath_conditions_rules_with_jsonpath_conditions_annotations_EQ);
  (0%Z, copies_test true empty_predef r_rules_with_jsonpath_conditions_rules_with_jsonpath_conditions_label_foo);
  (0%Z, copies_test true empty_predef r_rules_with_jsonpath_conditions_rules_with_jsonpath_conditions_label_foofoo);
  (0%Z, copies_test true empty_predef r_rules_with_jsonpath_conditions_rules_with_jsonpath_conditions_label_key_exists0);
  (0%Z, copies_test true empty_predef r_rules_with_jsonpath_conditions_rules_with_jsonpath_conditions_label_key_exists0b);
  (0%Z, copies_test true empty_predef r_rules_with_jsonpath_conditions_rules_with_jsonpath_conditions_label_key_exists1);
  (0%Z, copies_test true empty_predef r_rules_with_jsonpath_conditions_rules_with_jsonpath_conditions_label_key_exists1b);
  (0%Z, copies_test true empty_predef r_rules_with_jsonpath_conditions_rules_with_jsonpath_conditions_label_key_exists2);
  (0%Z, copies_test true empty_predef r_rules_with_jsonpath_conditions_rules_with_jsonpath_conditions_label_key_exists2b);
  (0%Z, copies_test true empty_predef r_rules_with_jsonpath_conditions_ALL_ANY_rules_with_jsonpath_conditions_LT_and_LT_spec_containers_ALL);
  (0%Z, copies_test true empty_predef r_rules_with_jsonpath_conditions_ALL_ANY_rules_with_jsonpath_conditions_LT_and_LT_spec_containers_ALL_EX);
  (0%Z, copies_test true empty_predef r_rules_with_jsonpath_conditions_ALL_ANY_rules_with_jsonpath_conditions_LT_and_LT_spec_containers_ANY);
  (0%Z, copies_test true empty_predef r_rules_with_jsonpath_conditions_ALL_ANY_rules_with_jsonpath_conditions_LT_and_LT_spec_containers_ANY2);
  (0%Z, copies_test true empty_predef r_rules_with_jsonpath_conditions_ALL_ANY_rules_with_jsonpath_conditions_LT_and_LT_spec_containers_ANY2b);
  (0%Z, copies_test true empty_predef r_rules_with_jsonpath_conditions_ALL_ANY_rules_with_jsonpath_conditions_LT_and_LT_spec_containers_ANY3);
  (0%Z, copies_test true empty_predef r_rules_with_jsonpath_conditions_ALL_ANY_rules_with_jsonpath_conditions_LT_and_LT_spec_containers_ANY4);
  (0%Z, copies_test true empty_predef r_rules_with_jsonpath_conditions_ALL_ANY_rules_with_jsonpath_conditions_LT_and_LT_spec_containers_ANY5);
  (0%Z, copies_test true empty_predef r_rules_with_jsonpath_conditions_ALL_ANY_rules_with_jsonpath_conditions_LT_and_LT_spec_containers_ANY6);
  (0%Z, copies_test true empty_predef r_rules_with_jsonpath_conditions_ALL_ANY_rules_with_jsonpath_conditions_LT_and_LT_spec_containers_ANY7);
  (0%Z, copies_test true empty_predef r_rules_with_jsonpath_conditions_ALL_ANY_rules_with_jsonpath_conditions_LT_and_LT_spec_containers_ANY_EX);
  (0%Z, copies_test true empty_predef r_rules_with_jsonpath_conditions_ALL_ANY_rules_with_jsonpath_conditions_LT_and_LT_spec_containers_ANY_EX2);
  (0%Z, copies_test true empty_predef r_rules_with_jsonpath_conditions_ALL_ANY_rules_with_jsonpath_conditions_LT_and_LT_spec_containers_ANY_EX2b);
  (0%Z, copies_test true empty_predef r_rules_with_jsonpath_conditions_ALL_ANY_rules_with_jsonpath_conditions_LT_and_LT_spec_containers_ANY_EX2c);
  (0%Z, copies_test true empty_predef r_rules_with_jsonpath_conditions_ALL_ANY_rules_with_jsonpath_conditions_LT_and_LT_spec_containers_ANYb);
  (0%Z, copies_test true empty_predef r_rules_with_jsonpath_conditions_ALL_ANY_rules_with_jsonpath_conditions_LT_and_LT_spec_containers_ANYc);
  (0%Z, copies_test true empty_predef r_rules_with_jsonpath_conditions_ALL_ANY2_rules_with_jsonpath_EQ_on_array);
  (0%Z, copies_test true empty_predef r_rules_with_jsonpath_conditions_ALL_ANY2_rules_with_jsonpath_EX_on_array);
  (0%Z, copies_test true empty_predef r_rules_with_jsonpath_conditions_ALL_ANY2_rules_with_jsonpath_IN_on_array);
  (0%Z, copies_test true empty_predef r_rules_with_jsonpath_conditions_ALL_ANY2_rules_with_jsonpath_NEQ_on_array);
  (0%Z, copies_test true empty_predef r_rules_with_jsonpath_conditions_ALL_ANY2_rules_with_jsonpath_NEX_on_array);
  (0%Z, copies_test true empty_predef r_rules_with_jsonpath_conditions_ALL_ANY2_rules_with_jsonpath_NIN_on_array);
  (0%Z, copies_test true empty_predef r_rules_with_jsonpath_conditions_ALL_ANY2_rules_with_jsonpath_NRE_on_array);
  (0%Z, copies_test true empty_predef r_rules_with_jsonpath_conditions_ALL_ANY2_rules_with_jsonpath_RE_on_array);
  (0%Z, copies_test true empty_predef r_rules_with_jsonpath_conditions_ALL_ANY2_rules_with_jsonpath_RE_on_array2);
  (0%Z, copies_test true empty_predef r_rules_with_jsonpath_conditions_ALL_ANY_Multilevel_rules_with_jsonpath_conditions_multilevel_arrays);
  (0%Z, copies_test true empty_predef r_rules_with_jsonpath_conditions_ALL_ANY_Multilevel_rules_with_jsonpath_conditions_multilevel_arrays2);
  (0%Z, copies_test true empty_predef r_rules_with_jsonpath_conditions_ALL_ANY_Multilevel_rules_with_jsonpath_conditions_multilevel_arrays3);
  (0%Z, copies_test true empty_predef r_rules_with_jsonpath_conditions_ALL_ANY_NOT_rules_with_jsonpath_conditions_LT_and_LT_spec_containers_ALL_EX_NOT);
  (0%Z, copies_test true empty_predef r_rules_with_jsonpath_conditions_ALL_ANY_NOT_rules_with_jsonpath_conditions_LT_and_LT_spec_containers_ALL_NOT);
  (0%Z, copies_test true empty_predef r_rules_with_jsonpath_conditions_ALL_ANY_NOT_rules_with_jsonpath_conditions_LT_and_LT_spec_containers_ANY_EX_NOT);
  (0%Z, copies_test true empty_predef r_rules_with_jsonpath_conditions_ALL_ANY_NOT_rules_with_jsonpath_conditions_LT_and_LT_spec_containers_ANY_NOT);
  (0%Z, copies_test true empty_predef r_rules_with_jsonpath_conditions_NOT_rules_with_jsonpath_EX_NOT);
  (0%Z, copies_test true empty_predef r_rules_with_jsonpath_conditions_NOT_rules_with_jsonpath_NEX_NOT);
  (0%Z, copies_test true empty_predef r_rules_with_jsonpath_conditions_NOT_rules_with_jsonpath_conditions_EQ_NOT);
  (0%Z, copies_test true empty_predef r_rules_with_jsonpath_conditions_NOT_rules_with_jsonpath_conditions_GT_NOT);
  (0%Z, copies_test true empty_predef r_rules_with_jsonpath_conditions_NOT_rules_with_jsonpath_conditions_LT_and_LT_spec_containers_AND_OR_NOT);
  (0%Z, copies_test true empty_predef r_rules_with_jsonpath_conditions_NOT_rules_with_jsonpath_conditions_annotations_EQ_NOT);
  (0%Z, copies_test true empty_predef r_rules_with_jsonpath_conditions_NOT_rules_with_jsonpath_conditions_label_foo_NOT);
  (0%Z, copies_test true empty_predef r_rules_with_jsonpath_conditions_NOT_rules_with_jsonpath_conditions_label_foofoo_NOT);
  (0%Z, copies_test true empty_predef r_rules_with_jsonpath_conditions_NOT_rules_with_jsonpath_conditions_label_key_exists0_NOT);
  (0%Z, copies_test true empty_predef r_rules_with_jsonpath_conditions_NOT_rules_with_jsonpath_conditions_label_key_exists0b_NOT);
  (0%Z, copies_test true empty_predef r_rules_with_jsonpath_conditions_NOT_rules_with_jsonpath_conditions_label_key_exists1_NOT);
  (0%Z, copies_test true empty_predef r_rules_with_jsonpath_conditions_NOT_rules_with_jsonpath_conditions_label_key_exists1b_NOT);
  (0%Z, copies_test true empty_predef r_rules_with_jsonpath_conditions_NOT_rules_with_jsonpath_conditions_label_key_exists2_NOT);
  (0%Z, copies_test true empty_predef r_rules_with_jsonpath_conditions_NOT_rules_with_jsonpath_conditions_label_key_exists2b_NOT);
  (0%Z, copies_test true empty_predef r_rules_with_jsonpath_conditions_NOT_rules_with_jsonpath_conditions_labels_AND_NOT);
  (0%Z, copies_test true empty_predef r_rules_with_jsonpath_conditions_NOT_rules_with_jsonpath_conditions_labels_NOT_OR_NOT);
  (0%Z, copies_test true empty_predef r_rules_with_parentjsonpath_list_rules_with_jsonpath_conditions_LT_and_LT_spec_containers_ANY);
  (0%Z, copies_test true empty_predef r_rules_with_parentjsonpath_list_rules_with_jsonpath_conditions_multilevel_arrays);
  (0%Z, copies_test true empty_predef r_rules_with_parentjsonpath_list_rules_with_jsonpath_conditions_multilevel_arrays2);
  (0%Z, copies_test true empty_predef r_rules_with_parentjsonpath_list_rules_with_jsonpath_conditions_multilevel_arrays3);
  (0%Z, copies_test true empty_predef r_rules_with_return_value_rules_with_condition_keyword_and_return_value);
  (0%Z, copies_test true empty_predef r_rules_with_return_value_rules_with_condition_keyword_and_return_value2);
  (0%Z, copies_test true empty_predef r_rules_with_return_value_rules_with_jsonpath_EQ_on_array_with_return_value)] = [].
Proof. vm_compute. reflexivity. Abort.

(** MAPL_engine/unmarshal_test.go *)
Goal failing [ (* TestJsonUnmarhshalWithPredefinedStrings *)
  (0%Z, copies_test false p_lists_predefined_string r_rules_predefined_strings_rules_with_sender_translation);
  (0%Z, copies_test false p_lists_predefined_string r_rules_predefined_strings_rules_with_receiver_translation);
  (0%Z, copies_test false p_lists_predefined_list r_rules_predefined_strings_rules_with_sender_translation_list);
  (0%Z, copies_test false p_lists_predefined_list r_rules_predefined_strings_rules_with_receiver_translation_list);
  (0%Z, copies_test false p_lists_predefined_list_allowed_labels r_rules_predefined_strings_rules_with_condition_translation_foo);
  (0%Z, copies_test false p_lists_predefined_list_allowed_labels r_rules_predefined_strings_rules_with_condition_translation_foo2);
  (0%Z, copies_test false p_lists_predefined_list_allowed_labels r_rules_predefined_strings_rules_with_condition_translation_foo_list);
  (0%Z, copies_test false p_lists_predefined_list_allowed_labels r_rules_predefined_strings_rules_with_condition_translation_foo_list2);
  (0%Z, copies_test false p_lists_predefined_list_allowed_labels r_rules_predefined_strings_rules_with_condition_translation_foo_regex_list);
  (0%Z, copies_test false p_lists_predefined_list_allowed_labels r_rules_predefined_strings_rules_with_condition_translation_foo_regex_list2);
  (0%Z, copies_test false p_lists_predefined_password_list r_rules_predefined_strings_rule_zooz);
  (0%Z, copies_test false p_lists_predefined_list_workload r_rules_predefined_strings_rules_with_condition_translation_list);
  (0%Z, copies_test false p_lists_predefined_list_workload2 r_rules_predefined_strings_rules_with_condition_translation_list);
  (0%Z, copies_test false p_lists_predefined_list_workload3 r_rules_predefined_strings_rules_with_condition_translation_list)] = [].
Proof. vm_compute. reflexivity. Abort.

(** mongo_plugin/mongo_plugin_test.go *)
Goal failing [ (* TestMongoPluginDebugging *)
  (184%Z, query_test "raw" d_raw_json_data_debugging_json_raw_data_debug_with_array_index_1 r_rules_debugging_rules_with_jsonpath_debug_with_array_index false);
  (186%Z, query_test "raw" d_raw_json_data_debugging_json_raw_data_debug_with_array_index_2 r_rules_debugging_rules_with_jsonpath_debug_with_array_index true);
  (188%Z, query_test "raw" d_raw_json_data_debugging_json_raw_data_debug_with_array_index_3 r_rules_debugging_rules_with_jsonpath_debug_with_array_index false)] = [].
Proof. vm_compute. reflexivity. Abort.

(** mongo_plugin/mongo_plugin_test.go *)
Goal failing [ (* TestMongoPluginBasic *)
  (214%Z, query_test "raw" d_raw_json_data_mongo_plugin_json_raw_data_sts r_rules_mongo_plugin_rules_with_jsonpath_conditions_EQ false);
  (216%Z, query_test "raw" d_raw_json_data_mongo_plugin_json_raw_data_dep r_rules_mongo_plugin_rules_with_jsonpath_conditions_EQ true);
  (219%Z, query_test "raw" d_raw_json_data_mongo_plugin_json_raw_data_replicas_2 r_rules_mongo_plugin_rules_with_jsonpath_conditions_EQ2 false);
  (221%Z, query_test "raw" d_raw_json_data_mongo_plugin_json_raw_data_replicas_5 r_rules_mongo_plugin_rules_with_jsonpath_conditions_EQ2 true);
  (224%Z, query_test "raw" d_raw_json_data_mongo_plugin_json_raw_data_replicas_2 r_rules_mongo_plugin_rules_with_jsonpath_conditions_GT_4 false);
  (226%Z, query_test "raw" d_raw_json_data_mongo_plugin_json_raw_data_replicas_5 r_rules_mongo_plugin_rules_with_jsonpath_conditions_GT_4 true);
  (229%Z, query_test "raw" d_raw_json_data_mongo_plugin_json_raw_data_replicas_2 r_rules_mongo_plugin_rules_with_jsonpath_conditions_GE_2 true);
  (231%Z, query_test "raw" d_raw_json_data_mongo_plugin_json_raw_data_replicas_5 r_rules_mongo_plugin_rules_with_jsonpath_conditions_GE_2 true);
  (234%Z, query_test "raw" d_raw_json_data_mongo_plugin_json_raw_data_replicas_2 r_rules_mongo_plugin_rules_with_jsonpath_conditions_LT_4 true);
  (236%Z, query_test "raw" d_raw_json_data_mongo_plugin_json_raw_data_replicas_5 r_rules_mongo_plugin_rules_with_jsonpath_conditions_LT_4 false);
  (239%Z, query_test "raw" d_raw_json_data_mongo_plugin_json_raw_data_replicas_2 r_rules_mongo_plugin_rules_with_jsonpath_conditions_LE_2 true);
  (241%Z, query_test "raw" d_raw_json_data_mongo_plugin_json_raw_data_replicas_5 r_rules_mongo_plugin_rules_with_jsonpath_conditions_LE_2 false);
  (245%Z, query_test "raw" d_raw_json_data_mongo_plugin_json_raw_data_foo_bar r_rules_mongo_plugin_rules_with_jsonpath_conditions_label_foo true);
  (247%Z, query_test "raw" d_raw_json_data_mongo_plugin_json_raw_data_foo_bar r_rules_mongo_plugin_rules_with_jsonpath_conditions_label_foo2 true);
  (249%Z, query_test "raw" d_raw_json_data_mongo_plugin_json_raw_data_foo_bar r_rules_mongo_plugin_rules_with_jsonpath_conditions_label_foo3 true);
  (251%Z, query_test "raw" d_raw_json_data_mongo_plugin_json_raw_data_foo_bar r_rules_mongo_plugin_rules_with_jsonpath_conditions_label_foo4 true);
  (254%Z, query_test "raw" d_raw_json_data_mongo_plugin_json_raw_data_foo_bar2 r_rules_mongo_plugin_rules_with_jsonpath_conditions_label_foo false);
  (256%Z, query_test "raw" d_raw_json_data_mongo_plugin_json_raw_data_foo_bar2 r_rules_mongo_plugin_rules_with_jsonpath_conditions_label_foo2 false);
  (258%Z, query_test "raw" d_raw_json_data_mongo_plugin_json_raw_data_foo_bar2 r_rules_mongo_plugin_rules_with_jsonpath_conditions_label_foo3 false);
  (260%Z, query_test "raw" d_raw_json_data_mongo_plugin_json_raw_data_foo_bar2 r_rules_mongo_plugin_rules_with_jsonpath_conditions_label_foo4 false);
  (263%Z, query_test "raw" d_raw_json_data_mongo_plugin_json_raw_data_foo_bar3 r_rules_mongo_plugin_rules_with_jsonpath_conditions_label_foo false);
  (265%Z, query_test "raw" d_raw_json_data_mongo_plugin_json_raw_data_foo_bar3 r_rules_mongo_plugin_rules_with_jsonpath_conditions_label_foo2 false);
  (267%Z, query_test "raw" d_raw_json_data_mongo_plugin_json_raw_data_foo_bar3 r_rules_mongo_plugin_rules_with_jsonpath_conditions_label_foo3 false);
  (269%Z, query_test "raw" d_raw_json_data_mongo_plugin_json_raw_data_foo_bar3 r_rules_mongo_plugin_rules_with_jsonpath_conditions_label_foo4 false);
  (272%Z, query_test "raw" d_raw_json_data_mongo_plugin_json_raw_data_foo_bar4 r_rules_mongo_plugin_rules_with_jsonpath_conditions_label_foo false);
  (274%Z, query_test "raw" d_raw_json_data_mongo_plugin_json_raw_data_foo_bar4 r_rules_mongo_plugin_rules_with_jsonpath_conditions_label_foo2 false);
  (276%Z, query_test "raw" d_raw_json_data_mongo_plugin_json_raw_data_foo_bar4 r_rules_mongo_plugin_rules_with_jsonpath_conditions_label_foo3 false);
  (278%Z, query_test "raw" d_raw_json_data_mongo_plugin_json_raw_data_foo_bar4 r_rules_mongo_plugin_rules_with_jsonpath_conditions_label_foo4 false);
  (283%Z, query_test "raw" d_raw_json_data_mongo_plugin_json_raw_data_foo_bar r_rules_mongo_plugin_rules_with_jsonpath_conditions_label_foo_EX true);
  (285%Z, query_test "raw" d_raw_json_data_mongo_plugin_json_raw_data_foo_bar r_rules_mongo_plugin_rules_with_jsonpath_conditions_label_foo_NEX false);
  (288%Z, query_test "raw" d_raw_json_data_mongo_plugin_json_raw_data_foo_bar2 r_rules_mongo_plugin_rules_with_jsonpath_conditions_label_foo_EX true);
  (290%Z, query_test "raw" d_raw_json_data_mongo_plugin_json_raw_data_foo_bar2 r_rules_mongo_plugin_rules_with_jsonpath_conditions_label_foo_NEX false);
  (293%Z, query_test "raw" d_raw_json_data_mongo_plugin_json_raw_data_foo_bar3 r_rules_mongo_plugin_rules_with_jsonpath_conditions_label_foo_EX false);
  (295%Z, query_test "raw" d_raw_json_data_mongo_plugin_json_raw_data_foo_bar3 r_rules_mongo_plugin_rules_with_jsonpath_conditions_label_foo_NEX true);
  (298%Z, query_test "raw" d_raw_json_data_mongo_plugin_json_raw_data_foo_bar3 r_rules_mongo_plugin_rules_with_jsonpath_conditions_label_foo_EX false);
  (300%Z, query_test "raw" d_raw_json_data_mongo_plugin_json_raw_data_foo_bar3 r_rules_mongo_plugin_rules_with_jsonpath_conditions_label_foo_NEX true);
  (303%Z, query_test "raw" d_raw_json_data_mongo_plugin_json_raw_data_replicas_2 r_rules_mongo_plugin_rules_with_jsonpath_conditions_replicas_EX true);
  (305%Z, query_test "raw" d_raw_json_data_mongo_plugin_json_raw_data_replicas_2 r_rules_mongo_plugin_rules_with_jsonpath_conditions_replicas_NEX false);
  (308%Z, query_test "raw" d_raw_json_data_mongo_plugin_json_raw_data_no_replicas r_rules_mongo_plugin_rules_with_jsonpath_conditions_replicas_EX false);
  (310%Z, query_test "raw" d_raw_json_data_mongo_plugin_json_raw_data_no_replicas r_rules_mongo_plugin_rules_with_jsonpath_conditions_replicas_NEX true);
  (315%Z, query_test "raw" d_raw_json_data_mongo_plugin_json_raw_data_foo_bar r_rules_mongo_plugin_rules_with_jsonpath_conditions_label_foo_ar2_RE false);
  (318%Z, query_test "raw" d_raw_json_data_mongo_plugin_json_raw_data_foo_bar r_rules_mongo_plugin_rules_with_jsonpath_conditions_label_foo_ar2_NRE true);
  (321%Z, query_test "raw" d_raw_json_data_mongo_plugin_json_raw_data_foo_bar2 r_rules_mongo_plugin_rules_with_jsonpath_conditions_label_foo_ar2_RE true);
  (323%Z, query_test "raw" d_raw_json_data_mongo_plugin_json_raw_data_foo_bar2 r_rules_mongo_plugin_rules_with_jsonpath_conditions_label_foo_ar2_NRE false);
  (326%Z, query_test "raw" d_raw_json_data_mongo_plugin_json_raw_data_foo_bar3 r_rules_mongo_plugin_rules_with_jsonpath_conditions_label_foo_ar2_RE false);
  (328%Z, query_test "raw" d_raw_json_data_mongo_plugin_json_raw_data_foo_bar3 r_rules_mongo_plugin_rules_with_jsonpath_conditions_label_foo_ar2_NRE false);
  (331%Z, query_test "raw" d_raw_json_data_mongo_plugin_json_raw_data_foo_bar4 r_rules_mongo_plugin_rules_with_jsonpath_conditions_label_foo_ar2_RE false);
  (333%Z, query_test "raw" d_raw_json_data_mongo_plugin_json_raw_data_foo_bar4 r_rules_mongo_plugin_rules_with_jsonpath_conditions_label_foo_ar2_NRE false);
  (338%Z, query_test "raw" d_raw_json_data_mongo_plugin_json_raw_data_sts r_rules_mongo_plugin_rules_with_jsonpath_conditions_IN false);
  (340%Z, query_test "raw" d_raw_json_data_mongo_plugin_json_raw_data_dep r_rules_mongo_plugin_rules_with_jsonpath_conditions_IN true);
  (342%Z, query_test "raw" d_raw_json_data_mongo_plugin_json_raw_data_no_kind r_rules_mongo_plugin_rules_with_jsonpath_conditions_IN false);
  (345%Z, query_test "raw" d_raw_json_data_mongo_plugin_json_raw_data_sts r_rules_mongo_plugin_rules_with_jsonpath_conditions_NIN true);
  (347%Z, query_test "raw" d_raw_json_data_mongo_plugin_json_raw_data_dep r_rules_mongo_plugin_rules_with_jsonpath_conditions_NIN false);
  (349%Z, query_test "raw" d_raw_json_data_mongo_plugin_json_raw_data_no_kind r_rules_mongo_plugin_rules_with_jsonpath_conditions_NIN false)] = [].
Proof. vm_compute. reflexivity. Abort.

(** mongo_plugin/mongo_plugin_test.go *)
Goal failing [ (* TestMongoPluginPrefix *)
  (375%Z, query_test "raw" d_raw_json_data_mongo_plugin_json_raw_data_sts r_rules_mongo_plugin_rules_with_jsonpath_conditions_EQ false);
  (377%Z, query_test "raw" d_raw_json_data_mongo_plugin_json_raw_data_dep r_rules_mongo_plugin_rules_with_jsonpath_conditions_EQ true);
  (380%Z, query_test "raw2" d_raw_json_data_mongo_plugin_json_raw_data_sts r_rules_mongo_plugin_rules_with_jsonpath_conditions_EQ false);
  (382%Z, query_test "raw2" d_raw_json_data_mongo_plugin_json_raw_data_dep r_rules_mongo_plugin_rules_with_jsonpath_conditions_EQ false);
  (385%Z, query_test "" d_raw_json_data_mongo_plugin_json_raw_data_sts r_rules_mongo_plugin_rules_with_jsonpath_conditions_EQ_raw_prefix false);
  (387%Z, query_test "" d_raw_json_data_mongo_plugin_json_raw_data_dep r_rules_mongo_plugin_rules_with_jsonpath_conditions_EQ_raw_prefix true)] = [].
Proof. vm_compute. reflexivity. Abort.

(** mongo_plugin/mongo_plugin_test.go *)
Goal failing [ (* TestMongoPluginAndOrNot *)
  (413%Z, query_test "raw" d_raw_json_data_mongo_plugin_and_or_not_json_raw_data_foo_bar_replicas_2 r_rules_mongo_plugin_and_or_not_rules_with_jsonpath_conditions_AND true);
  (415%Z, query_test "raw" d_raw_json_data_mongo_plugin_and_or_not_json_raw_data_foo_bar_replicas_5 r_rules_mongo_plugin_and_or_not_rules_with_jsonpath_conditions_AND false);
  (417%Z, query_test "raw" d_raw_json_data_mongo_plugin_and_or_not_json_raw_data_foo_bar2_replicas_2 r_rules_mongo_plugin_and_or_not_rules_with_jsonpath_conditions_AND false);
  (419%Z, query_test "raw" d_raw_json_data_mongo_plugin_and_or_not_json_raw_data_foo_bar2_replicas_5 r_rules_mongo_plugin_and_or_not_rules_with_jsonpath_conditions_AND false);
  (422%Z, query_test "raw" d_raw_json_data_mongo_plugin_and_or_not_json_raw_data_foo_bar_replicas_2 r_rules_mongo_plugin_and_or_not_rules_with_jsonpath_conditions_OR true);
  (424%Z, query_test "raw" d_raw_json_data_mongo_plugin_and_or_not_json_raw_data_foo_bar_replicas_5 r_rules_mongo_plugin_and_or_not_rules_with_jsonpath_conditions_OR true);
  (426%Z, query_test "raw" d_raw_json_data_mongo_plugin_and_or_not_json_raw_data_foo_bar2_replicas_2 r_rules_mongo_plugin_and_or_not_rules_with_jsonpath_conditions_OR true);
  (428%Z, query_test "raw" d_raw_json_data_mongo_plugin_and_or_not_json_raw_data_foo_bar2_replicas_5 r_rules_mongo_plugin_and_or_not_rules_with_jsonpath_conditions_OR false);
  (431%Z, query_test "raw" d_raw_json_data_mongo_plugin_and_or_not_json_raw_data_foo_bar_replicas_2 r_rules_mongo_plugin_and_or_not_rules_with_jsonpath_conditions_NOT false);
  (433%Z, query_test "raw" d_raw_json_data_mongo_plugin_and_or_not_json_raw_data_foo_bar2_replicas_2 r_rules_mongo_plugin_and_or_not_rules_with_jsonpath_conditions_NOT true);
  (438%Z, query_test "raw" d_raw_json_data_mongo_plugin_and_or_not_json_raw_data_foo_bar_replicas_2 r_rules_mongo_plugin_and_or_not_rules_with_jsonpath_conditions_NOT_AND false);
  (440%Z, query_test "raw" d_raw_json_data_mongo_plugin_and_or_not_json_raw_data_foo_bar_replicas_5 r_rules_mongo_plugin_and_or_not_rules_with_jsonpath_conditions_NOT_AND true);
  (442%Z, query_test "raw" d_raw_json_data_mongo_plugin_and_or_not_json_raw_data_foo_bar2_replicas_2 r_rules_mongo_plugin_and_or_not_rules_with_jsonpath_conditions_NOT_AND true);
  (444%Z, query_test "raw" d_raw_json_data_mongo_plugin_and_or_not_json_raw_data_foo_bar2_replicas_5 r_rules_mongo_plugin_and_or_not_rules_with_jsonpath_conditions_NOT_AND true);
  (448%Z, query_test "raw" d_raw_json_data_mongo_plugin_and_or_not_json_raw_data_foo_bar_replicas_2 r_rules_mongo_plugin_and_or_not_rules_with_jsonpath_conditions_AND_NOT false);
  (450%Z, query_test "raw" d_raw_json_data_mongo_plugin_and_or_not_json_raw_data_foo_bar_replicas_5 r_rules_mongo_plugin_and_or_not_rules_with_jsonpath_conditions_AND_NOT true);
  (452%Z, query_test "raw" d_raw_json_data_mongo_plugin_and_or_not_json_raw_data_foo_bar2_replicas_2 r_rules_mongo_plugin_and_or_not_rules_with_jsonpath_conditions_AND_NOT false);
  (454%Z, query_test "raw" d_raw_json_data_mongo_plugin_and_or_not_json_raw_data_foo_bar2_replicas_5 r_rules_mongo_plugin_and_or_not_rules_with_jsonpath_conditions_AND_NOT false)] = [].
Proof. vm_compute. reflexivity. Abort.

(** mongo_plugin/mongo_plugin_test.go *)
Goal failing [ (* TestMongoPluginAnyAll *)
  (483%Z, no_query "raw" r_rules_mongo_plugin_any_all_invalid_rules_with_jsonpath_conditions_LT_and_LT_spec_containers_ANY);
  (487%Z, no_query "raw" r_rules_mongo_plugin_any_all_invalid_rules_with_jsonpath_conditions_LT_and_LT_spec_containers_ALL);
  (490%Z, query_test "raw" d_raw_json_data_mongo_plugin_any_all_json_raw_data_2containers r_rules_mongo_plugin_any_all_rules_with_jsonpath_conditions_LT_and_LT_spec_containers_ANY true);
  (492%Z, query_test "raw" d_raw_json_data_mongo_plugin_any_all_json_raw_data_2containers_B r_rules_mongo_plugin_any_all_rules_with_jsonpath_conditions_LT_and_LT_spec_containers_ANY false);
  (495%Z, query_test "raw" d_raw_json_data_mongo_plugin_any_all_json_raw_data_2containers r_rules_mongo_plugin_any_all_rules_with_jsonpath_conditions_LT_and_LT_spec_containers_ANY2 true);
  (497%Z, query_test "raw" d_raw_json_data_mongo_plugin_any_all_json_raw_data_2containers_B r_rules_mongo_plugin_any_all_rules_with_jsonpath_conditions_LT_and_LT_spec_containers_ANY2 false);
  (500%Z, query_test "raw" d_raw_json_data_mongo_plugin_any_all_json_raw_data_2containers r_rules_mongo_plugin_any_all_rules_with_jsonpath_conditions_LT_and_LT_spec_containers_ANY3 true);
  (502%Z, query_test "raw" d_raw_json_data_mongo_plugin_any_all_json_raw_data_2containers_B r_rules_mongo_plugin_any_all_rules_with_jsonpath_conditions_LT_and_LT_spec_containers_ANY3 false);
  (506%Z, query_test "raw" d_raw_json_data_mongo_plugin_any_all_json_raw_data_2containers r_rules_mongo_plugin_any_all_rules_with_jsonpath_conditions_LT_and_LT_spec_containers_ALL false);
  (508%Z, query_test "raw" d_raw_json_data_mongo_plugin_any_all_json_raw_data_2containers_B r_rules_mongo_plugin_any_all_rules_with_jsonpath_conditions_LT_and_LT_spec_containers_ALL false);
  (510%Z, query_test "raw" d_raw_json_data_mongo_plugin_any_all_json_raw_data_2containers_C r_rules_mongo_plugin_any_all_rules_with_jsonpath_conditions_LT_and_LT_spec_containers_ALL true);
  (513%Z, query_test "raw" d_raw_json_data_mongo_plugin_any_all_json_raw_data_2containers r_rules_mongo_plugin_any_all_rules_with_jsonpath_conditions_LT_and_LT_spec_containers_ALL2 false);
  (515%Z, query_test "raw" d_raw_json_data_mongo_plugin_any_all_json_raw_data_2containers_B r_rules_mongo_plugin_any_all_rules_with_jsonpath_conditions_LT_and_LT_spec_containers_ALL2 false);
  (517%Z, query_test "raw" d_raw_json_data_mongo_plugin_any_all_json_raw_data_2containers_C r_rules_mongo_plugin_any_all_rules_with_jsonpath_conditions_LT_and_LT_spec_containers_ALL2 true);
  (520%Z, query_test "raw" d_raw_json_data_mongo_plugin_any_all_json_raw_data_2containers r_rules_mongo_plugin_any_all_rules_with_jsonpath_conditions_LT_and_LT_spec_containers_ALL3 false);
  (522%Z, query_test "raw" d_raw_json_data_mongo_plugin_any_all_json_raw_data_2containers_B r_rules_mongo_plugin_any_all_rules_with_jsonpath_conditions_LT_and_LT_spec_containers_ALL3 false);
  (524%Z, query_test "raw" d_raw_json_data_mongo_plugin_any_all_json_raw_data_2containers_C r_rules_mongo_plugin_any_all_rules_with_jsonpath_conditions_LT_and_LT_spec_containers_ALL3 true);
  (528%Z, query_test "raw" d_raw_json_data_multilevel_any_all_json_raw_data_2containers_2volumeMounts r_rules_mongo_plugin_any_all_rules_with_jsonpath_conditions_multilevel_arrays false);
  (530%Z, query_test "raw" d_raw_json_data_multilevel_any_all_json_raw_data_2containers_2volumeMounts_B r_rules_mongo_plugin_any_all_rules_with_jsonpath_conditions_multilevel_arrays true);
  (533%Z, query_test "raw" d_raw_json_data_multilevel_any_all_json_raw_data_2containers_2volumeMounts r_rules_mongo_plugin_any_all_rules_with_jsonpath_conditions_multilevel_arrays2 true);
  (535%Z, query_test "raw" d_raw_json_data_multilevel_any_all_json_raw_data_2containers_2volumeMounts_B r_rules_mongo_plugin_any_all_rules_with_jsonpath_conditions_multilevel_arrays2 true);
  (538%Z, query_test "raw" d_raw_json_data_multilevel_any_all_json_raw_data_2containers_2volumeMounts r_rules_mongo_plugin_any_all_rules_with_jsonpath_conditions_multilevel_arrays3 false);
  (540%Z, query_test "raw" d_raw_json_data_multilevel_any_all_json_raw_data_2containers_2volumeMounts_B r_rules_mongo_plugin_any_all_rules_with_jsonpath_conditions_multilevel_arrays3 false);
  (542%Z, query_test "raw" d_raw_json_data_multilevel_any_all_json_raw_data_2containers_2volumeMounts_B2 r_rules_mongo_plugin_any_all_rules_with_jsonpath_conditions_multilevel_arrays3 true);
  (544%Z, query_test "raw" d_raw_json_data_multilevel_any_all_json_raw_data_2containers_2volumeMounts_C r_rules_mongo_plugin_any_all_rules_with_jsonpath_conditions_multilevel_arrays3 false);
  (548%Z, query_test "raw" d_raw_json_data_multilevel_any_all_json_raw_data_2containers_2volumeMounts r_rules_mongo_plugin_any_all_rules_with_jsonpath_conditions_multilevel_arrays_wildcard false);
  (550%Z, query_test "raw" d_raw_json_data_multilevel_any_all_json_raw_data_2containers_2volumeMounts_B r_rules_mongo_plugin_any_all_rules_with_jsonpath_conditions_multilevel_arrays_wildcard true);
  (553%Z, query_test "raw" d_raw_json_data_multilevel_any_all_json_raw_data_2containers_2volumeMounts r_rules_mongo_plugin_any_all_rules_with_jsonpath_conditions_multilevel_arrays2_wildcard true);
  (555%Z, query_test "raw" d_raw_json_data_multilevel_any_all_json_raw_data_2containers_2volumeMounts_B r_rules_mongo_plugin_any_all_rules_with_jsonpath_conditions_multilevel_arrays2_wildcard true);
  (558%Z, query_test "raw" d_raw_json_data_multilevel_any_all_json_raw_data_2containers_2volumeMounts r_rules_mongo_plugin_any_all_rules_with_jsonpath_conditions_multilevel_arrays3_wildcard false);
  (560%Z, query_test "raw" d_raw_json_data_multilevel_any_all_json_raw_data_2containers_2volumeMounts_B r_rules_mongo_plugin_any_all_rules_with_jsonpath_conditions_multilevel_arrays3_wildcard false);
  (562%Z, query_test "raw" d_raw_json_data_multilevel_any_all_json_raw_data_2containers_2volumeMounts_B2 r_rules_mongo_plugin_any_all_rules_with_jsonpath_conditions_multilevel_arrays3_wildcard true);
  (564%Z, query_test "raw" d_raw_json_data_multilevel_any_all_json_raw_data_2containers_2volumeMounts_C r_rules_mongo_plugin_any_all_rules_with_jsonpath_conditions_multilevel_arrays3_wildcard false);
  (568%Z, query_test "raw" d_raw_json_data_multilevel_any_all_json_raw_data_2containers_2volumeMounts r_rules_mongo_plugin_any_all_rules_with_jsonpath_conditions_multilevel_arrays_nothing false);
  (570%Z, query_test "raw" d_raw_json_data_multilevel_any_all_json_raw_data_2containers_2volumeMounts_B r_rules_mongo_plugin_any_all_rules_with_jsonpath_conditions_multilevel_arrays_nothing true);
  (573%Z, query_test "raw" d_raw_json_data_multilevel_any_all_json_raw_data_2containers_2volumeMounts r_rules_mongo_plugin_any_all_rules_with_jsonpath_conditions_multilevel_arrays2_nothing true);
  (575%Z, query_test "raw" d_raw_json_data_multilevel_any_all_json_raw_data_2containers_2volumeMounts_B r_rules_mongo_plugin_any_all_rules_with_jsonpath_conditions_multilevel_arrays2_nothing true);
  (578%Z, query_test "raw" d_raw_json_data_multilevel_any_all_json_raw_data_2containers_2volumeMounts r_rules_mongo_plugin_any_all_rules_with_jsonpath_conditions_multilevel_arrays3_nothing false);
  (580%Z, query_test "raw" d_raw_json_data_multilevel_any_all_json_raw_data_2containers_2volumeMounts_B r_rules_mongo_plugin_any_all_rules_with_jsonpath_conditions_multilevel_arrays3_nothing false);
  (582%Z, query_test "raw" d_raw_json_data_multilevel_any_all_json_raw_data_2containers_2volumeMounts_B2 r_rules_mongo_plugin_any_all_rules_with_jsonpath_conditions_multilevel_arrays3_nothing true);
  (584%Z, query_test "raw" d_raw_json_data_multilevel_any_all_json_raw_data_2containers_2volumeMounts_C r_rules_mongo_plugin_any_all_rules_with_jsonpath_conditions_multilevel_arrays3_nothing false)] = [].
Proof. vm_compute. reflexivity. Abort.

(** mongo_plugin/mongo_plugin_test.go *)
Goal failing [ (* TestMongoPluginKeyValue *)
  (609%Z, query_test "raw" d_raw_json_data_key_value_json_raw_data_labels r_rules_mongo_plugin_key_value_rules_with_jsonpath_conditions_key1 true);
  (611%Z, query_test "raw" d_raw_json_data_key_value_json_raw_data_labels r_rules_mongo_plugin_key_value_rules_with_jsonpath_conditions_key2 true);
  (613%Z, query_test "raw" d_raw_json_data_key_value_json_raw_data_labels r_rules_mongo_plugin_key_value_rules_with_jsonpath_conditions_key3 false);
  (616%Z, query_test "raw" d_raw_json_data_key_value_json_raw_data_labels r_rules_mongo_plugin_key_value_rules_with_jsonpath_conditions_value1 true);
  (618%Z, query_test "raw" d_raw_json_data_key_value_json_raw_data_labels r_rules_mongo_plugin_key_value_rules_with_jsonpath_conditions_value2 true);
  (620%Z, query_test "raw" d_raw_json_data_key_value_json_raw_data_labels r_rules_mongo_plugin_key_value_rules_with_jsonpath_conditions_value3 false);
  (623%Z, query_test "raw" d_raw_json_data_key_value_json_raw_data_labels r_rules_mongo_plugin_key_value_rules_with_jsonpath_conditions_value_AND false);
  (625%Z, query_test "raw" d_raw_json_data_key_value_json_raw_data_labels r_rules_mongo_plugin_key_value_rules_with_jsonpath_conditions_value_AND2 true);
  (628%Z, query_test "raw" d_raw_json_data_key_value_json_raw_data_labels r_rules_mongo_plugin_key_value_rules_with_jsonpath_conditions_key_value_AND false);
  (630%Z, query_test "raw" d_raw_json_data_key_value_json_raw_data_labels r_rules_mongo_plugin_key_value_rules_with_jsonpath_conditions_key_value_AND2 false);
  (632%Z, query_test "raw" d_raw_json_data_key_value_json_raw_data_labels r_rules_mongo_plugin_key_value_rules_with_jsonpath_conditions_key_value_AND3 true);
  (635%Z, query_test "raw" d_raw_json_data_key_value_json_raw_data_labels2 r_rules_mongo_plugin_key_value_rules_with_jsonpath_conditions_value_json true);
  (637%Z, query_test "raw" d_raw_json_data_key_value_json_raw_data_labels2 r_rules_mongo_plugin_key_value_rules_with_jsonpath_conditions_value_json2 false);
  (639%Z, query_test "raw" d_raw_json_data_key_value_json_raw_data_labels2 r_rules_mongo_plugin_key_value_rules_with_jsonpath_conditions_value_json3 false);
  (641%Z, query_test "raw" d_raw_json_data_key_value_json_raw_data_labels2 r_rules_mongo_plugin_key_value_rules_with_jsonpath_conditions_value_json4 true);
  (646%Z, no_query "raw" r_rules_mongo_plugin_key_value_invalid_rules_with_jsonpath_conditions_value_json5);
  (651%Z, no_query "raw" r_rules_mongo_plugin_key_value_invalid_rules_with_jsonpath_conditions_key_json);
  (657%Z, no_query "raw" r_rules_mongo_plugin_key_value_invalid_rules_with_jsonpath_conditions_value_relative);
  (662%Z, no_query "raw" r_rules_mongo_plugin_key_value_invalid_rules_with_jsonpath_conditions_value_relative_ALL);
  (667%Z, no_query "raw" r_rules_mongo_plugin_key_value_invalid_rules_with_jsonpath_conditions_key_relative)] = [].
Proof. vm_compute. reflexivity. Abort.

(** mongo_plugin/mongo_plugin_test.go *)
Goal failing [ (* TestMongoPluginValidationAllRules *)
  (0%Z, queries_test r_rules_mongo_plugin_and_or_not_rules_with_jsonpath_conditions_AND);
  (0%Z, queries_test r_rules_mongo_plugin_and_or_not_rules_with_jsonpath_conditions_AND_NOT);
  (0%Z, queries_test r_rules_mongo_plugin_and_or_not_rules_with_jsonpath_conditions_AND_OR);
  (0%Z, queries_test r_rules_mongo_plugin_and_or_not_rules_with_jsonpath_conditions_NOT);
  (0%Z, queries_test r_rules_mongo_plugin_and_or_not_rules_with_jsonpath_conditions_NOT_AND);
  (0%Z, queries_test r_rules_mongo_plugin_and_or_not_rules_with_jsonpath_conditions_OR);
  (0%Z, queries_test r_rules_mongo_plugin_any_all_rules_with_jsonpath_conditions_LT_and_LT_spec_containers_ALL);
  (0%Z, queries_test r_rules_mongo_plugin_any_all_rules_with_jsonpath_conditions_LT_and_LT_spec_containers_ALL2);
  (0%Z, queries_test r_rules_mongo_plugin_any_all_rules_with_jsonpath_conditions_LT_and_LT_spec_containers_ALL3);
  (0%Z, queries_test r_rules_mongo_plugin_any_all_rules_with_jsonpath_conditions_LT_and_LT_spec_containers_ANY);
  (0%Z, queries_test r_rules_mongo_plugin_any_all_rules_with_jsonpath_conditions_LT_and_LT_spec_containers_ANY2);
  (0%Z, queries_test r_rules_mongo_plugin_any_all_rules_with_jsonpath_conditions_LT_and_LT_spec_containers_ANY3);
  (0%Z, queries_test r_rules_mongo_plugin_any_all_rules_with_jsonpath_conditions_multilevel_arrays);
  (0%Z, queries_test r_rules_mongo_plugin_any_all_rules_with_jsonpath_conditions_multilevel_arrays2);
  (0%Z, queries_test r_rules_mongo_plugin_any_all_rules_with_jsonpath_conditions_multilevel_arrays2_nothing);
  (0%Z, queries_test r_rules_mongo_plugin_any_all_rules_with_jsonpath_conditions_multilevel_arrays2_wildcard);
  (0%Z, queries_test r_rules_mongo_plugin_any_all_rules_with_jsonpath_conditions_multilevel_arrays3);
  (0%Z, queries_test r_rules_mongo_plugin_any_all_rules_with_jsonpath_conditions_multilevel_arrays3_nothing);
  (0%Z, queries_test r_rules_mongo_plugin_any_all_rules_with_jsonpath_conditions_multilevel_arrays3_wildcard);
  (0%Z, queries_test r_rules_mongo_plugin_any_all_rules_with_jsonpath_conditions_multilevel_arrays_nothing);
  (0%Z, queries_test r_rules_mongo_plugin_any_all_rules_with_jsonpath_conditions_multilevel_arrays_wildcard);
  (0%Z, queries_test r_rules_mongo_plugin_key_value_rules_with_jsonpath_conditions_key1);
  (0%Z, queries_test r_rules_mongo_plugin_key_value_rules_with_jsonpath_conditions_key2);
  (0%Z, queries_test r_rules_mongo_plugin_key_value_rules_with_jsonpath_conditions_key3);
  (0%Z, queries_test r_rules_mongo_plugin_key_value_rules_with_jsonpath_conditions_key_value_AND);
  (0%Z, queries_test r_rules_mongo_plugin_key_value_rules_with_jsonpath_conditions_key_value_AND2);
  (0%Z, queries_test r_rules_mongo_plugin_key_value_rules_with_jsonpath_conditions_key_value_AND3);
  (0%Z, queries_test r_rules_mongo_plugin_key_value_rules_with_jsonpath_conditions_value1);
  (0%Z, queries_test r_rules_mongo_plugin_key_value_rules_with_jsonpath_conditions_value2);
  (0%Z, queries_test r_rules_mongo_plugin_key_value_rules_with_jsonpath_conditions_value3);
  (0%Z, queries_test r_rules_mongo_plugin_key_value_rules_with_jsonpath_conditions_value_AND);
  (0%Z, queries_test r_rules_mongo_plugin_key_value_rules_with_jsonpath_conditions_value_AND2);
  (0%Z, queries_test r_rules_mongo_plugin_key_value_rules_with_jsonpath_conditions_value_json);
  (0%Z, queries_test r_rules_mongo_plugin_key_value_rules_with_jsonpath_conditions_value_json2);
  (0%Z, queries_test r_rules_mongo_plugin_key_value_rules_with_jsonpath_conditions_value_json3);
  (0%Z, queries_test r_rules_mongo_plugin_key_value_rules_with_jsonpath_conditions_value_json4);
  (0%Z, queries_test r_rules_mongo_plugin_number_suffix_rules_with_jsonpath_conditions_EQ);
  (0%Z, queries_test r_rules_mongo_plugin_rules_with_jsonpath_conditions_EQ);
  (0%Z, queries_test r_rules_mongo_plugin_rules_with_jsonpath_conditions_EQ2);
  (0%Z, queries_test r_rules_mongo_plugin_rules_with_jsonpath_conditions_EQ_raw_prefix);
  (0%Z, queries_test r_rules_mongo_plugin_rules_with_jsonpath_conditions_GE_2);
  (0%Z, queries_test r_rules_mongo_plugin_rules_with_jsonpath_conditions_GT_4);
  (0%Z, queries_test r_rules_mongo_plugin_rules_with_jsonpath_conditions_IN);
  (0%Z, queries_test r_rules_mongo_plugin_rules_with_jsonpath_conditions_LE_2);
  (0%Z, queries_test r_rules_mongo_plugin_rules_with_jsonpath_conditions_LT_4);
  (0%Z, queries_test r_rules_mongo_plugin_rules_with_jsonpath_conditions_NIN);
  (0%Z, queries_test r_rules_mongo_plugin_rules_with_jsonpath_conditions_label_foo);
  (0%Z, queries_test r_rules_mongo_plugin_rules_with_jsonpath_conditions_label_foo2);
  (0%Z, queries_test r_rules_mongo_plugin_rules_with_jsonpath_conditions_label_foo3);
  (0%Z, queries_test r_rules_mongo_plugin_rules_with_jsonpath_conditions_label_foo4);
  (0%Z, queries_test r_rules_mongo_plugin_rules_with_jsonpath_conditions_label_foo_EX);
  (0%Z, queries_test r_rules_mongo_plugin_rules_with_jsonpath_conditions_label_foo_NEX);
  (0%Z, queries_test r_rules_mongo_plugin_rules_with_jsonpath_conditions_label_foo_ar2_NRE);
  (0%Z, queries_test r_rules_mongo_plugin_rules_with_jsonpath_conditions_label_foo_ar2_RE);
  (0%Z, queries_test r_rules_mongo_plugin_rules_with_jsonpath_conditions_replicas_EX);
  (0%Z, queries_test r_rules_mongo_plugin_rules_with_jsonpath_conditions_replicas_NEX);
  (0%Z, queries_test r_rules_with_jsonpath_conditions_rules_with_jsonpath_EX);
  (0%Z, queries_test r_rules_with_jsonpath_conditions_rules_with_jsonpath_NEX);
  (0%Z, queries_test r_rules_with_jsonpath_conditions_rules_with_jsonpath_conditions_EQ);
  (0%Z, queries_test r_rules_with_jsonpath_conditions_rules_with_jsonpath_conditions_GT);
  (0%Z, queries_test r_rules_with_jsonpath_conditions_rules_with_jsonpath_conditions_LT_and_LT_spec_containers_AND_OR);
  (0%Z, queries_test r_rules_with_jsonpath_conditions_rules_with_jsonpath_conditions_annotations_EQ);
  (0%Z, queries_test r_rules_with_jsonpath_conditions_rules_with_jsonpath_conditions_label_foo);
  (0%Z, queries_test r_rules_with_jsonpath_conditions_rules_with_jsonpath_conditions_label_foofoo);
  (0%Z, queries_test r_rules_with_jsonpath_conditions_rules_with_jsonpath_conditions_label_key_exists0);
  (0%Z, queries_test r_rules_with_jsonpath_conditions_rules_with_jsonpath_conditions_label_key_exists0b);
  (0%Z, queries_test r_rules_with_jsonpath_conditions_rules_with_jsonpath_conditions_label_key_exists1);
  (0%Z, queries_test r_rules_with_jsonpath_conditions_rules_with_jsonpath_conditions_label_key_exists1b);
  (0%Z, queries_test r_rules_with_jsonpath_conditions_rules_with_jsonpath_conditions_label_key_exists2);
  (0%Z, queries_test r_rules_with_jsonpath_conditions_rules_with_jsonpath_conditions_label_key_exists2b);
  (0%Z, queries_test r_rules_with_jsonpath_conditions_ALL_ANY_rules_with_jsonpath_conditions_LT_and_LT_spec_containers_ALL);
  (0%Z, queries_test r_rules_with_jsonpath_conditions_ALL_ANY_rules_with_jsonpath_conditions_LT_and_LT_spec_containers_ALL_EX);
  (0%Z, queries_test r_rules_with_jsonpath_conditions_ALL_ANY_rules_with_jsonpath_conditions_LT_and_LT_spec_containers_ANY);
  (0%Z, queries_test r_rules_with_jsonpath_conditions_ALL_ANY_rules_with_jsonpath_conditions_LT_and_LT_spec_containers_ANY2);
  (0%Z, queries_test r_rules_with_jsonpath_conditions_ALL_ANY_rules_with_jsonpath_conditions_LT_and_LT_spec_containers_ANY2b);
  (0%Z, queries_test r_rules_with_jsonpath_conditions_ALL_ANY_rules_with_jsonpath_conditions_LT_and_LT_spec_containers_ANY3);
  (0%Z, queries_test r_rules_with_jsonpath_conditions_ALL_ANY_rules_with_jsonpath_conditions_LT_and_LT_spec_containers_ANY4);
  (0%Z, queries_test r_rules_with_jsonpath_conditions_ALL_ANY_rules_with_jsonpath_conditions_LT_and_LT_spec_containers_ANY5);
  (0%Z, queries_test r_rules_with_jsonpath_conditions_ALL_ANY_rules_with_jsonpath_conditions_LT_and_LT_spec_containers_ANY6);
  (0%Z, queries_test r_rules_with_jsonpath_conditions_ALL_ANY_rules_with_jsonpath_conditions_LT_and_LT_spec_containers_ANY7);
  (0%Z, queries_test r_rules_with_jsonpath_conditions_ALL_ANY_rules_with_jsonpath_conditions_LT_and_LT_spec_containers_ANY_EX);
  (0%Z, queries_test r_rules_with_jsonpath_conditions_ALL_ANY_rules_with_jsonpath_conditions_LT_and_LT_spec_containers_ANY_EX2);
  (0%Z, queries_test r_rules_with_jsonpath_conditions_ALL_ANY_rules_with_jsonpath_conditions_LT_and_LT_spec_containers_ANY_EX2b);
  (0%Z, queries_test r_rules_with_jsonpath_conditions_ALL_ANY_rules_with_jsonpath_conditions_LT_and_LT_spec_containers_ANY_EX2c);
  (0%Z, queries_test r_rules_with_jsonpath_conditions_ALL_ANY_rules_with_jsonpath_conditions_LT_and_LT_spec_containers_ANYb);
  (0%Z, queries_test r_rules_with_jsonpath_conditions_ALL_ANY_rules_with_jsonpath_conditions_LT_and_LT_spec_containers_ANYc);
  (0%Z, queries_test r_rules_with_jsonpath_conditions_ALL_ANY2_rules_with_jsonpath_EQ_on_array);
  (0%Z, queries_test r_rules_with_jsonpath_conditions_ALL_ANY2_rules_with_jsonpath_EX_on_array);
  (0%Z, queries_test r_rules_with_jsonpath_conditions_ALL_ANY2_rules_with_jsonpath_IN_on_array);
  (0%Z, queries_test r_rules_with_jsonpath_conditions_ALL_ANY2_rules_with_jsonpath_NEQ_on_array);
  (0%Z, queries_test r_rules_with_jsonpath_conditions_ALL_ANY2_rules_with_jsonpath_NEX_on_array);
  (0%Z, queries_test r_rules_with_jsonpath_conditions_ALL_ANY2_rules_with_jsonpath_NIN_on_array);
  (0%Z, queries_test r_rules_with_jsonpath_conditions_ALL_ANY2_rules_with_jsonpath_NRE_on_array);
  (0%Z, queries_test r_rules_with_jsonpath_conditions_ALL_ANY2_rules_with_jsonpath_RE_on_array);
  (0%Z, queries_test r_rules_with_jsonpath_conditions_ALL_ANY2_rules_with_jsonpath_RE_on_array2);
  (0%Z, queries_test r_rules_with_jsonpath_conditions_ALL_ANY_Multilevel_rules_with_jsonpath_conditions_multilevel_arrays);
  (0%Z, queries_test r_rules_with_jsonpath_conditions_ALL_ANY_Multilevel_rules_with_jsonpath_conditions_multilevel_arrays2);
  (0%Z, queries_test r_rules_with_jsonpath_conditions_ALL_ANY_Multilevel_rules_with_jsonpath_conditions_multilevel_arrays3);
  (0%Z, queries_test r_rules_with_jsonpath_conditions_ALL_ANY_NOT_rules_with_jsonpath_conditions_LT_and_LT_spec_containers_ALL_EX_NOT);
  (0%Z, queries_test r_rules_with_jsonpath_conditions_ALL_ANY_NOT_rules_with_jsonpath_conditions_LT_and_LT_spec_containers_ALL_NOT);
  (0%Z, queries_test r_rules_with_jsonpath_conditions_ALL_ANY_NOT_rules_with_jsonpath_conditions_LT_and_LT_spec_containers_ANY_EX_NOT);
  (0%Z, queries_test r_rules_with_jsonpath_conditions_ALL_ANY_NOT_rules_with_jsonpath_conditions_LT_and_LT_spec_containers_ANY_NOT);
  (0%Z, queries_test r_rules_with_jsonpath_conditions_NOT_rules_with_jsonpath_EX_NOT);
  (0%Z, queries_test r_rules_with_jsonpath_conditions_NOT_rules_with_jsonpath_NEX_NOT);
  (0%Z, queries_test r_rules_with_jsonpath_conditions_NOT_rules_with_jsonpath_conditions_EQ_NOT);
  (0%Z, queries_test r_rules_with_jsonpath_conditions_NOT_rules_with_jsonpath_conditions_GT_NOT);
  (0%Z, queries_test r_rules_with_jsonpath_conditions_NOT_rules_with_jsonpath_conditions_LT_and_LT_spec_containers_AND_OR_NOT);
  (0%Z, queries_test r_rules_with_jsonpath_conditions_NOT_rules_with_jsonpath_conditions_annotations_EQ_NOT);
  (0%Z, queries_test r_rules_with_jsonpath_conditions_NOT_rules_with_jsonpath_conditions_label_foo_NOT);
  (0%Z, queries_test r_rules_with_jsonpath_conditions_NOT_rules_with_jsonpath_conditions_label_foofoo_NOT);
  (0%Z, queries_test r_rules_with_jsonpath_conditions_NOT_rules_with_jsonpath_conditions_label_key_exists0_NOT);
  (0%Z, queries_test r_rules_with_jsonpath_conditions_NOT_rules_with_jsonpath_conditions_label_key_exists0b_NOT);
  (0%Z, queries_test r_rules_with_jsonpath_conditions_NOT_rules_with_jsonpath_conditions_label_key_exists1_NOT);
  (0%Z, queries_test r_rules_with_jsonpath_conditions_NOT_rules_with_jsonpath_conditions_label_key_exists1b_NOT);
  (0%Z, queries_test r_rules_with_jsonpath_conditions_NOT_rules_with_jsonpath_conditions_label_key_exists2_NOT);
  (0%Z, queries_test r_rules_with_jsonpath_conditions_NOT_rules_with_jsonpath_conditions_label_key_exists2b_NOT);
  (0%Z, queries_test r_rules_with_jsonpath_conditions_NOT_rules_with_jsonpath_conditions_labels_AND_NOT);
  (0%Z, queries_test r_rules_with_jsonpath_conditions_NOT_rules_with_jsonpath_conditions_labels_NOT_OR_NOT);
  (0%Z, queries_test r_rules_with_parentjsonpath_list_rules_with_jsonpath_conditions_LT_and_LT_spec_containers_ANY);
  (0%Z, queries_test r_rules_with_parentjsonpath_list_rules_with_jsonpath_conditions_multilevel_arrays);
  (0%Z, queries_test r_rules_with_parentjsonpath_list_rules_with_jsonpath_conditions_multilevel_arrays2);
  (0%Z, queries_test r_rules_with_parentjsonpath_list_rules_with_jsonpath_conditions_multilevel_arrays3);
  (0%Z, queries_test r_rules_with_return_value_rules_with_condition_keyword_and_return_value);
  (0%Z, queries_test r_rules_with_return_value_rules_with_condition_keyword_and_return_value2);
  (0%Z, queries_test r_rules_with_return_value_rules_with_jsonpath_EQ_on_array_with_return_value)] = [].
Proof. vm_compute. reflexivity. Abort.

(** MAPL_engine/string_utils_test.go *)
Goal failing [ (* TestRemoveDotQuotes *)
  (0%Z, quotes_test [("$.metadata.labels.foo", "$.metadata.labels.foo"); ("$.metadata.labels.'foo'", "$.metadata.labels.foo"); ("$.metadata.labels.""foo""", "$.metadata.labels.foo"); ("$.metadata.labels.[""foo""]", "$.metadata.labels.[""foo""]")])] = [].
Proof. vm_compute. reflexivity. Abort.
