-Q theories Verif
theories/Base.v
theories/GoStr.v
theories/GoFloat.v
theories/Types.v
theories/Json.v
theories/StrUtils.v
theories/Validate.v
theories/Prepare.v
theories/Parse.v
theories/Marshal.v
theories/Eval.v
theories/Lifecycle.v
theories/Check.v
theories/GoStr_facts.v
theories/Spec_Tree.v
theories/Spec_Extra.v
theories/Tree_proofs.v
theories/Tree_truth.v
theories/Spec_Decision.v
theories/Check_proofs.v
theories/Spec_Match.v
theories/Match_proofs.v
theories/Spec_Regex.v
theories/Ref_Regex.v
theories/Ref_Regex_proofs.v
theories/RefLib.v
theories/RefLib_facts.v
theories/Spec_Glob.v
theories/Glob_proofs.v
theories/Names_proofs.v
theories/Samples.v
theories/Spec_Scope.v
theories/Tree_laws.v
theories/Scope_proofs.v
theories/Extra_proofs.v
theories/Spec_Leaf.v
theories/Number_proofs.v
theories/RefLib_numbers.v
theories/Leaf_proofs.v
theories/Leaf_laws.v
theories/Attr_proofs.v
theories/Spec_Integer.v
theories/Integer_proofs.v
theories/Size_proofs.v
theories/Leaf_samples.v
theories/Props_Decision.v
theories/Props_Match.v
theories/Props_Tree.v
theories/Props_Leaf.v
theories/Spec_Validate.v
theories/Validate_proofs.v
theories/Prepare_proofs.v
theories/Spec_Lifecycle.v
theories/Lifecycle_proofs.v
theories/Props_Prepare.v
theories/Spec_Load.v
theories/Load_proofs.v
theories/Load_order.v
theories/Props_Load.v
theories/Spec_Json.v
theories/Json_proofs.v
theories/Print_proofs.v
theories/Spec_Copy.v
theories/Copy_proofs.v
theories/Props_Copy.v
theories/Strings.v
theories/Spec_Strings.v
theories/Strings_proofs.v
theories/Hash_proofs.v
theories/Props_Strings.v
theories/Spec_Coverage.v
theories/Coverage_proofs.v
theories/Props_Coverage.v
theories/Spec_Split.v
theories/Split_proofs.v
theories/Arrange_proofs.v
theories/Props_Split.v
theories/Spec_Quotes.v
theories/Quotes_proofs.v
theories/Props_Quotes.v
theories/Mongo.v
theories/Spec_Names.v
theories/MongoNames_proofs.v
theories/Spec_Mongo.v
theories/Mongo_proofs.v
theories/Props_Mongo.v
theories/Float_proofs.v
theories/Messages.v
theories/Spec_Messages.v
theories/Messages_proofs.v
theories/RefLib_time.v
theories/Props_Messages.v
theories/Spec_MongoMatch.v
theories/MongoMatch_proofs.v
theories/RefLib_paths.v
theories/Props_MongoMatch.v
theories/Spec_Outcome.v
theories/Outcome_proofs.v
theories/Outcome_laws.v
theories/Spec_Panic.v
theories/Panic_proofs.v
theories/Props_Panic.v
theories/Decode_proofs.v
theories/Concurrent.v
theories/Spec_Concurrent.v
theories/Concurrent_proofs.v
theories/Props_Concurrent.v
theories/Spec_Text.v
theories/Text_proofs.v
theories/Props_Text.v
theories/Slices.v
theories/Spec_Slices.v
theories/Slices_proofs.v
theories/Props_Slices.v
theories/Spec_Grammar.v
theories/Grammar_proofs.v
theories/Grammar_tree.v
theories/Props_Grammar.v
theories/Spec_Meaning.v
theories/Meaning_proofs.v
theories/Meaning_rules.v
theories/Props_Meaning.v
theories/Spec_Raw.v
theories/Raw_pieces.v
theories/Raw_proofs.v
theories/Raw_panic.v
theories/Props_Raw.v
theories/Spec_InPlace.v
theories/InPlace_proofs.v
theories/Props_InPlace.v
theories/Spec_Show.v
theories/Show_proofs.v
theories/Props_Show.v
theories/Spec_Accept.v
theories/Accept_proofs.v
theories/Accept_rules.v
theories/Props_Accept.v
theories/Spec_Backends.v
theories/Backends_proofs.v
theories/Backends_rules.v
theories/Text_lib.v
theories/Props_Backends.v
theories/Store.v
theories/Spec_Store.v
theories/Store_proofs.v
theories/Props_Store.v
theories/Fields.v
theories/Spec_Fields.v
theories/Fields_proofs.v
theories/Props_Fields.v
theories/Original.v
theories/Spec_Original.v
theories/Original_proofs.v
theories/Props_Original.v
theories/Spec_Crash.v
theories/Crash_proofs.v
theories/Props_Crash.v
theories/Repo_harness.v
theories/Repo_data.v
theories/Repo_tests.v
theories/Spec_Pipeline.v
theories/Pipeline_proofs.v
theories/Props_Pipeline.v
theories/Props_Entries.v
theories/Yaml.v
theories/Grammar_loads.v
theories/Spec_Yaml.v
theories/Yaml_proofs.v
theories/Yaml_rules.v
theories/Yaml_more.v
theories/Yaml_keys.v
theories/Fields_bytes.v
theories/Props_Yaml.v
theories/Spec_YamlMessages.v
theories/Yaml_messages.v
theories/Props_YamlMessages.v
theories/Spec_Early.v
theories/Early_proofs.v
theories/Props_Early.v
theories/Spec_Documented.v
theories/Documented_proofs.v
theories/Props_Documented.v
theories/JsonDoc.v
theories/Spec_JsonDoc.v
theories/JsonDoc_proofs.v
theories/JsonDoc_structs.v
theories/JsonDoc_rules.v
theories/JsonDoc_more.v
theories/Props_JsonDoc.v
theories/Spec_JsonCopy.v
theories/Compact_proofs.v
theories/JsonCopy_proofs.v
theories/JsonCopy_rules.v
theories/Props_JsonCopy.v
theories/Spec_Laws.v
theories/Laws_proofs.v
theories/Props_Laws.v
theories/Spec_Widen.v
theories/Widen_proofs.v
theories/Props_Widen.v
theories/Spec_Format.v
theories/Format_proofs.v
theories/Props_Format.v
theories/Spec_JsonKeys.v
theories/JsonDoc_keys.v
theories/Props_JsonKeys.v
theories/Spec_Returned.v
theories/Returned_proofs.v
theories/Props_Returned.v
theories/Coverage_meaning.v
theories/Spec_Formats.v
theories/Formats_proofs.v
theories/Props_Formats.v
theories/Spec_Relevant.v
theories/Relevant_proofs.v
theories/Props_Relevant.v
theories/Spec_Referred.v
theories/Referred_proofs.v
theories/Props_Referred.v
theories/Spec_Utf8.v
theories/Utf8_proofs.v
theories/Utf8_names.v
theories/Utf8_lib.v
theories/Props_Utf8.v
theories/Spec_Utf8Meaning.v
theories/Utf8_meaning.v
theories/Spec_Written.v
theories/Written_proofs.v
theories/Props_Written.v
theories/Spec_Cleaned.v
theories/Cleaned_proofs.v
theories/Props_Cleaned.v
theories/Spec_Shown.v
theories/Shown_proofs.v
theories/Props_Shown.v
theories/Spec_Encoded.v
theories/Encoded_proofs.v
theories/Props_Encoded.v
theories/Entry_proofs.v
theories/Props_Entry.v
theories/Spec_Object.v
theories/Object_proofs.v
theories/Props_Object.v
theories/ValuePath_proofs.v
theories/Props_ValuePath.v
