{"id": "C01", "title": "The decision is the most restrictive applicable one", "statement": "Check returns BLOCK if some rule evaluates to block on the message, otherwise ALERT if some rule evaluates to alert, otherwise ALLOW if some rule evaluates to allow, otherwise DEFAULT; the per-rule results vector it returns has one entry per rule, and the entry of a rule is what CheckOneRule gives for that rule alone.", "quantifier": "every message, every list of rules of any length, every map-iteration order, every behaviour of the regular-expression and jsonpath libraries", "why_tests_cant": "the number and mixture of rules is unbounded; tests only combine a handful of rules", "anchors": ["MAPL_engine/check.go:Check", "MAPL_engine/check.go:CheckOneRule"]}
{"id": "C02", "title": "The reported rule is the first rule carrying the winning decision", "statement": "When the decision is not DEFAULT, relevantRuleIndex is in range, the rule at that index produced exactly the returned decision, no earlier rule did, and ruleDescription is that rule's metadata description (empty if it has none). When the decision is DEFAULT the index is -1 and the description is empty.", "quantifier": "every message and every list of rules", "why_tests_cant": "unbounded rule lists; ties between rules at arbitrary positions", "anchors": ["MAPL_engine/check.go:Check"]}
{"id": "C03", "title": "appliedRulesIndices is exactly the strictly increasing list of matching rules", "statement": "appliedRulesIndices is strictly increasing and contains i exactly when rule i's own result is not DEFAULT.", "quantifier": "every message and every list of rules", "why_tests_cant": "unbounded rule lists", "anchors": ["MAPL_engine/check.go:Check"]}
{"id": "C04", "title": "Rule order and duplication do not change the decision; adding a rule can only make it stricter", "statement": "Permuting or duplicating rules never changes the decision or its name; the decision on a concatenation of two rule lists is the stricter of the two decisions; in particular adding a rule never weakens a decision and adding only ALLOW rules never removes a BLOCK.", "quantifier": "every message, every pair of rule lists, every permutation", "why_tests_cant": "relation between runs on different unbounded inputs (hyperproperty)", "anchors": ["MAPL_engine/check.go:Check"]}
{"id": "C05", "title": "A rule applies exactly when sender, receiver, operation, resource and conditions all match", "statement": "For a prepared rule whose evaluation does not panic, the result is ALLOW/ALERT/BLOCK according to the rule's decision string exactly when sender, receiver, operation, protocol/resource and the conditions tree (absent tree = satisfied) all match, and is DEFAULT otherwise, including when the decision string is not one of the nine recognised spellings; a DEFAULT result never carries extra data.", "quantifier": "every prepared rule and message", "why_tests_cant": "five independent unbounded dimensions", "anchors": ["MAPL_engine/check.go:CheckOneRule"]}
{"id": "C06", "title": "Checking leaves the caller's message and rules as they were", "statement": "After Check, CheckOneRule or a tree's Eval returns (without panicking), every field of the message has its previous value (in particular the relative context), and Check does not alter the rules it was given, so checking twice gives the same answer.", "quantifier": "every message, rule list, and nesting depth of ANY/ALL", "why_tests_cant": "history property over arbitrarily deep nesting and early exits", "anchors": ["MAPL_engine/check.go:Check", "MAPL_engine/conditions_tree.go:evalAnyRawInterface", "MAPL_engine/conditions_tree.go:evalAllRawInterface", "MAPL_engine/conditions_tree.go:evalAnyRawBytes", "MAPL_engine/conditions_tree.go:evalAllRawBytes"]}
{"id": "C07", "title": "Sender/receiver workload names are comma lists of glob patterns", "statement": "For a rule of sender type '*' or 'workload' whose name consists of characters without special meaning in regular expressions plus the wildcards '*' and '?' (and '.', '/', '$', '^', spaces), the sender matches exactly when the message's service name matches one of the comma separated items as a glob ('*' any sequence, '?' any single character, spaces removed, everything else literal); the same holds for receivers with the service name, and with the host name for type 'hostname'; any other type never matches.", "quantifier": "every such pattern list and every service name", "why_tests_cant": "infinitely many patterns and names; escaping interacts with the regexp engine", "anchors": ["MAPL_engine/string_utils.go:ConvertStringToExpandedSenderReceiver", "MAPL_engine/check.go:TestSender", "MAPL_engine/check.go:TestReceiver"]}
{"id": "C08", "title": "Subnet senders/receivers match by CIDR containment or exact address", "statement": "For type 'subnet', each comma separated item must be an address or a CIDR (otherwise preparation fails); an address item matches exactly the same address string, a CIDR item matches exactly the addresses of the same family whose network bits agree with it, '*' behaves as 0.0.0.0/0, and a message without a parsed address never matches a CIDR item.", "quantifier": "every list of subnets and every address", "why_tests_cant": "2^32 / 2^128 addresses and all prefix lengths", "anchors": ["MAPL_engine/string_utils.go:ConvertStringToExpandedSenderReceiver", "MAPL_engine/tools.go:isIpCIDR", "MAPL_engine/check.go:TestSender", "MAPL_engine/check.go:TestReceiver"]}
{"id": "C09", "title": "Operation matching", "statement": "Operation '*' matches every request method; read/READ matches exactly GET, HEAD, OPTIONS, TRACE, read and READ; write/WRITE matches exactly POST, PUT and DELETE; any other operation matches as a comma list of trimmed glob patterns. No method is both read and write.", "quantifier": "every operation string of the glob language and every request method", "why_tests_cant": "infinite domain of method strings", "anchors": ["MAPL_engine/string_utils.go:ConvertOperationStringToRegex", "MAPL_engine/string_utils.go:ConvertStringToRegex", "MAPL_engine/check.go:CheckOneRule"]}
{"id": "C10", "title": "Protocol and resource matching", "statement": "A rule with protocol exactly 'tcp' ignores the message protocol and compares the resource pattern with the destination port; protocol '*' ignores the resource; any other protocol must equal the message protocol ignoring case (also where a k is written as the Kelvin sign or an s as the long s), the resource type must be '*' or equal the message's context type, and the resource pattern must match the request path.", "quantifier": "every rule and message", "why_tests_cant": "combinatorial and infinite string domain", "anchors": ["MAPL_engine/check.go:CheckOneRule"]}
{"id": "C11", "title": "AND/OR/NOT have boolean semantics", "statement": "When evaluation returns, AND is true exactly when all children are, OR exactly when some child is, NOT exactly when its child is not; the empty AND is true and the empty OR false; the truth value of a tree does not depend on the order of AND/OR children as long as no child panics, and De Morgan laws hold.", "quantifier": "every tree of any depth and width, every message", "why_tests_cant": "unbounded recursive structure", "anchors": ["MAPL_engine/conditions_tree.go:And.Eval", "MAPL_engine/conditions_tree.go:Or.Eval", "MAPL_engine/conditions_tree.go:Not.Eval"]}
{"id": "C12", "title": "ANY/ALL quantify over the selected elements", "statement": "When evaluation returns, ANY is true exactly when the inner condition holds for at least one selected element (taken as the relative context), ALL exactly when it holds for every one; over no elements ANY is false and ALL is true; ALL(c) equals NOT(ANY(NOT(c))). The selected elements are the union over the comma separated parent paths of: the entries of an object as one-key objects, the concatenation of the sub-arrays if all members are arrays, otherwise the members.", "quantifier": "every tree, every document, every element count", "why_tests_cant": "unbounded documents and nesting", "anchors": ["MAPL_engine/conditions_tree.go:evalAnyRawInterface", "MAPL_engine/conditions_tree.go:evalAllRawInterface", "MAPL_engine/check.go:getArrayOfInterfaces", "MAPL_engine/check.go:ArrangeArrayInterface"]}
{"id": "C13", "title": "Relative context is scoped", "statement": "Inside ANY/ALL the relative context is the current element and it is restored on every exit path, so a sibling evaluated later sees the outer context; evaluation without $RELATIVE/$KEY/$VALUE references does not depend on the relative context at all.", "quantifier": "every tree and message", "why_tests_cant": "aliasing/restoration over all exit paths and nesting depths", "anchors": ["MAPL_engine/conditions_tree.go:evalAnyRawInterface", "MAPL_engine/conditions_tree.go:evalAllRawInterface"]}
{"id": "C14", "title": "Map iteration order does not affect the truth value", "statement": "The truth value of a conditions tree on a parsed document is the same for every map iteration order the Go runtime may choose, provided $KEY/$VALUE are only used on one-key objects (which is what ANY/ALL over an object provide); with $KEY on an object with several keys the outcome can depend on the order.", "quantifier": "every pair of iteration orders (all schedules of the runtime's randomisation), every tree, every document", "why_tests_cant": "the runtime randomises the order; a test sees one order per run", "anchors": ["MAPL_engine/check.go:ArrangeArrayInterface", "MAPL_engine/check.go:getArrayOfInterfaces", "MAPL_engine/check.go:getKeyValueFromInterface"]}
{"id": "C15", "title": "Extra data flow", "statement": "A jsonpath condition returns one extra-data record when it is true and declares return values, otherwise none; AND returns the last non-empty child data among the children evaluated, OR the concatenation of the data of its true children in order, NOT and ALL none, ANY one record per satisfying element (in element order) when it declares return values, computed from that element.", "quantifier": "every tree and message", "why_tests_cant": "unbounded structure", "anchors": ["MAPL_engine/check.go:testOneCondition", "MAPL_engine/check.go:getExtraDataFromInterface", "MAPL_engine/conditions_tree.go:And.Eval", "MAPL_engine/conditions_tree.go:Or.Eval", "MAPL_engine/conditions_tree.go:evalAnyRawInterface"]}
{"id": "C16", "title": "Missing, null and empty fields only satisfy NEX", "statement": "If the path is absent in the document, or its value is null, the empty string, or an empty array, then a jsonpath condition with method NEX is true and with every other method is false; without a document every jsonpath condition is false.", "quantifier": "every condition, message, path and value", "why_tests_cant": "all methods times all value shapes", "anchors": ["MAPL_engine/check.go:testJsonPathConditionOnInterface", "MAPL_engine/check.go:queryInterface", "MAPL_engine/check.go:whatToReturnInCaseOfEmptyResult"]}
{"id": "C17", "title": "EX/NEX, RE/NRE and EQ/NEQ are complementary on present values", "statement": "For a jsonpath condition whose extracted text is non-empty and has aligned quotes, exactly one of EX and NEX, exactly one of RE p and NRE p, exactly one of EQ v and NEQ v is true (numeric or textual comparison alike).", "quantifier": "every present value and every rule value/pattern", "why_tests_cant": "relation between different conditions over infinite domains", "anchors": ["MAPL_engine/check.go:testJsonPathConditionOnInterface", "MAPL_engine/check.go:compareRegexFunc", "MAPL_engine/check.go:compareFloatFunc", "MAPL_engine/check.go:compareStringFunc"]}
{"id": "C18", "title": "NE is not NEQ on textual jsonpath values", "statement": "On numbers NE and NEQ agree; when the rule value is not a number, or the document value is not a number, NE is always false on a jsonpath condition while NEQ is the negation of EQ.", "quantifier": "every value", "why_tests_cant": "relation between two methods over infinite domain", "anchors": ["MAPL_engine/check.go:testJsonPathConditionOnInterface", "MAPL_engine/check.go:testJsonPathCondition"]}
{"id": "C19", "title": "IN/NIN are membership in the comma list", "statement": "A jsonpath condition IN '[a,b,c]' (items free of regular-expression metacharacters, not trimmed) is true on a present value exactly when the value equals one of the items, NIN exactly when it equals none; IS behaves as IN; an empty value is rejected for IN/NIN.", "quantifier": "every list of plain items and every value", "why_tests_cant": "infinite domain; the implementation goes through a regular expression", "anchors": ["MAPL_engine/rules_load.go:ConvertConditionStringToIntFloatRegex", "MAPL_engine/validate_conditions.go:validateMethod"]}
{"id": "C20", "title": "Numeric comparison honours units on both sides", "statement": "GT/GE/LT/LE/EQ/NEQ on a numeric rule value compare the document's number times its unit factor with the rule's number times its unit factor in IEEE double precision; the unit table is exactly %, e3..e18, Ki..Ei, K..E, m; among LT, EQ, GT exactly one holds unless an operand is NaN, GE is GT or EQ, LE is LT or EQ, and a non numeric document value satisfies only NEQ.", "quantifier": "every numeric string with every unit", "why_tests_cant": "infinite domain, rounding", "anchors": ["MAPL_engine/string_utils.go:convertStringWithUnits", "MAPL_engine/check.go:compareFloatFunc", "MAPL_engine/check.go:testJsonPathConditionOnInterface", "MAPL_engine/validate_conditions.go:convertAndValidateNumericalValues"]}
{"id": "C21", "title": "Label and attribute conditions", "statement": "senderLabel[k]/receiverLabel[k] conditions are false when the label is absent (including NEQ, NRE and NEX); with a value receiverLabel[k2] EQ/NEQ compare the two labels literally and are false if the second is absent; $sender.namespace/cluster compare the corresponding message field, literally when the value is $receiver.namespace/cluster. payloadSize is compared with the whole number the value denotes: digits with at most one sign, within 64 bits; with any other value the comparisons by order or equality panic.", "quantifier": "every label map and condition", "why_tests_cant": "all combinations of presence, methods and values", "anchors": ["MAPL_engine/check.go:testSenderLabelCondition", "MAPL_engine/check.go:testReceiverLabelCondition", "MAPL_engine/check.go:testSenderAttributeCondition", "MAPL_engine/check.go:testReceiverAttributeCondition"]}
{"id": "C22", "title": "When evaluation of a prepared tree can panic", "statement": "Evaluating a loaded and prepared tree on a message carrying a parsed document panics, for some map iteration order, exactly when evaluation reaches one of the following: payloadSize compared with a value that is not an int64 literal, utcHoursFromMidnight/encryptionVersion compared with a non numeric value, encryptionVersion on a message without one, an ANY/ALL parent path that selects a scalar, a relative parent path evaluated without a relative context, '$RELATIVE*' or $KEY/$VALUE on a relative value that is not an object, or a satisfied JSON-path condition with a relative return path evaluated without a relative context whose unstripped text the JSON-path library accepts. A tree without these defects never panics, and each of them does panic for some validated condition.", "quantifier": "every loaded and prepared tree and every message with a parsed document", "why_tests_cant": "absence of a crash over all inputs", "anchors": ["MAPL_engine/check.go:testOneCondition", "MAPL_engine/check.go:compareIntFunc", "MAPL_engine/check.go:getArrayOfInterfaces", "MAPL_engine/check.go:ArrangeArrayInterface"]}
{"id": "C23", "title": "What condition validation accepts", "statement": "A condition is accepted at load time exactly when its attribute is one of the supported names or prefixed forms with well-formed jsonpath/label syntax, its method is supported for that attribute, its value is numeric for GT/GE/LT/LE, a compilable pattern for RE/NRE, and a non-empty list compilable as alternatives for IN/NIN.", "quantifier": "every (attribute, method, value) triple", "why_tests_cant": "infinite domain of strings", "anchors": ["MAPL_engine/validate_conditions.go:ValidateOneCondition"]}
{"id": "C24", "title": "Preparation never panics", "statement": "Preparing a conditions tree obtained from the loader (validated conditions, no missing inner node) returns success or an error for every set of predefined strings and lists, and never panics; validation itself never panics on any condition whatsoever.", "quantifier": "every tree, every predefined dictionary", "why_tests_cant": "absence of out-of-range slicing for all strings", "anchors": ["MAPL_engine/validate_conditions.go:validateArraysWithIndex", "MAPL_engine/rules_load.go:ConvertConditionStringToIntFloatRegex", "MAPL_engine/conditions_tree.go:PrepareAndValidate"]}
{"id": "C25", "title": "The internal rule copy is faithful", "statement": "Preparing a rule works on a copy obtained by serialising the rule to JSON and parsing it back; for every tree of non-empty AND/OR, NOT, ANY/ALL over conditions whose strings have no control characters and whose parent paths contain no quote or backslash, the copy is the same tree, so preparation of the copy equals preparation of the original. Empty AND/OR, control characters or quotes in a parent path break this.", "quantifier": "every tree of any depth", "why_tests_cant": "round-trip over an infinite recursive domain and all strings", "anchors": ["MAPL_engine/definitions_rule.go:Condition.MarshalJSON", "MAPL_engine/conditions_tree.go:Any.MarshalJSON", "MAPL_engine/conditions_tree.go:UnmarshalJSON", "MAPL_engine/rules_load.go:SetPredefinedStringsAndLists"]}
{"id": "C26", "title": "Predefined references are replaced exactly", "statement": "A condition value, sender name or receiver name starting with '#' is replaced by the named list (joined with ',' or, for methods RE/NRE in conditions, with '|'), else by the named string; lists take precedence; an undefined name makes preparation fail; anything not starting with '#' is left unchanged; nothing else in the rule changes.", "quantifier": "every rule and dictionary", "why_tests_cant": "infinite domain", "anchors": ["MAPL_engine/rules_load.go:ReplaceStringsAndListsInOneRule", "MAPL_engine/rules_load.go:ReplaceStringsAndListsInCondition", "MAPL_engine/rules_load.go:isReplaceableList", "MAPL_engine/rules_load.go:isReplaceableString"]}
{"id": "C27", "title": "Predefined lists are resolved one level", "statement": "Validation of a dictionary fails exactly when some list contains a '#name' item whose name is not a predefined string; otherwise every list is resolved by replacing each such item by the string (not further expanded) and keeping all others, in order, regardless of map iteration order.", "quantifier": "every dictionary and iteration order", "why_tests_cant": "infinite domain, map order", "anchors": ["MAPL_engine/predefined_lists_load.go:validatePredefinedString"]}
{"id": "C28", "title": "Setting the global dictionary is atomic", "statement": "SetGlobalPredefinedStringsAndLists either succeeds and installs the resolved dictionary or fails and leaves the global dictionary as it was.", "quantifier": "every history of calls", "why_tests_cant": "history property", "anchors": ["MAPL_engine/rules_load.go:SetGlobalPredefinedStringsAndLists"]}
{"id": "C29", "title": "Lifecycle of a rule's preparation", "statement": "The prepared form used by a check is the one of the last successful SetPredefinedStringsAndLists, or, if none happened, of the global dictionary at the first check through that rule object; once prepared, later changes of the global dictionary have no effect on the rule; Check over a rule list re-prepares unprepared rules on each call and so always sees the current global dictionary. A failed re-preparation leaves the previous prepared form in use for that check.", "quantifier": "every history of SetGlobal / SetPredefined / Check / TestConditions calls", "why_tests_cant": "unbounded histories", "anchors": ["MAPL_engine/rules_load.go:SetPredefinedStringsAndLists", "MAPL_engine/check.go:CheckOneRule", "MAPL_engine/check.go:TestConditions"]}
{"id": "C30", "title": "Source rule is never modified by preparation; last dictionary wins", "statement": "SetPredefinedStringsAndLists never changes the rule's own fields; setting dictionary A then B gives the same prepared rule as setting B alone.", "quantifier": "every rule, every sequence of dictionaries", "why_tests_cant": "history property", "anchors": ["MAPL_engine/rules_load.go:SetPredefinedStringsAndLists"]}
{"id": "C31", "title": "Equivalent spellings of a condition load to the same tree", "statement": "A condition written directly, under a 'condition' or 'conditionsTree' keyword, as a one-element array at top level, or as YAML-style map instead of JSON-style map loads to the same tree, and a one-key wrapper chain of these keywords is transparent. Integers and floating-point numbers may stand for each other wherever they are not the value of a condition, and a condition's value may be any value that prints alike.", "quantifier": "every condition and every wrapper chain", "why_tests_cant": "infinite recursive domain", "anchors": ["MAPL_engine/conditions_tree.go:InterpretNode", "MAPL_engine/conditions_tree.go:handleMapStringInterface", "MAPL_engine/conditions_tree.go:getNodeCondition"]}
{"id": "C32", "title": "Shape of loaded trees", "statement": "Every tree the loader returns consists of validated conditions under AND/OR/NOT/ANY/ALL, ANY/ALL always have a parent path with a legal prefix and return paths starting with jsonpath:$RELATIVE; AND/OR of an array has exactly one child per array item in order; NOT of an array keeps only the last item.", "quantifier": "every input value of any shape and depth", "why_tests_cant": "infinite recursive domain", "anchors": ["MAPL_engine/conditions_tree.go:InterpretNode", "MAPL_engine/conditions_tree.go:getAnyAllNode", "MAPL_engine/conditions_tree.go:handleInterfaceArray"]}
{"id": "C33", "title": "Loading is deterministic when ANY/ALL have at most one inner condition", "statement": "The loaded tree (or the fact that loading fails) does not depend on map iteration order provided every ANY/ALL map has at most one key besides parentJsonpathAttribute and returnValueJsonpath; with two such keys the result can depend on the order.", "quantifier": "every input value and every pair of iteration orders", "why_tests_cant": "runtime randomisation", "anchors": ["MAPL_engine/conditions_tree.go:getAnyAllNode"]}
{"id": "C34", "title": "The textual form is insensitive to AND/OR order", "statement": "Reordering the children of AND/OR nodes anywhere in the tree does not change the tree's String(), hence not the rule's hash nor ConditionsEqual.", "quantifier": "every tree, every permutation at every level", "why_tests_cant": "unbounded recursive structure", "anchors": ["MAPL_engine/conditions_tree.go:AndOrString", "MAPL_engine/rules_load.go:RuleMD5Hash", "MAPL_engine/rules_load.go:ConditionsEqual"]}
{"id": "C35", "title": "ConditionsEqual and the textual form", "statement": "ConditionsEqual is an equivalence relation that holds whenever the textual forms are equal; the textual form determines the tree up to order for trees whose strings avoid the separator characters, but in general trees with different meaning can be ConditionsEqual (empty AND/OR, '-' inside attribute and value). The text itself: true and false; <attribute-method-value> as written before preparation; !(\u2026); the texts of several children in the order of their bytes, joined by && or || in parentheses, that of a single child bare; [ANY<parent;map[name:path \u2026]>:\u2026] with the names in order.", "quantifier": "every pair of trees", "why_tests_cant": "relation over infinite domain", "anchors": ["MAPL_engine/rules_load.go:RuleConditionsToString", "MAPL_engine/definitions_rule.go:Condition.String"]}
{"id": "C36", "title": "Coverage report is exact", "statement": "Coverage has one entry per message id, describing the last message with this id: covered exactly when Check's decision is not DEFAULT, with the same decision, the ids of exactly the applied rules in order and their decisions; each rule id is listed with the ids of the messages some rule of this id applies to, in order and once per such rule, and rules that apply to nothing are listed with no message. For freshly loaded rules all this is determined by the rules as written: a message is covered, and listed for a rule id, exactly if a rule (of this id) applies to it and has a decision word, and its decision is the strictest of those.", "quantifier": "every list of messages and rules", "why_tests_cant": "unbounded lists", "anchors": ["MAPL_engine/coverage.go:Coverage"]}
{"id": "C37", "title": "Byte splitter returns the objects of a JSON array", "statement": "On the text of an array of objects whose string literals contain no braces, the byte-level splitter used by ANY/ALL on raw JSON returns exactly the texts of the objects in order; in other arrays it returns the outermost objects at any depth of arrays and skips scalars; with a brace inside a string it can split wrongly.", "quantifier": "every array of objects of any depth", "why_tests_cant": "infinite domain", "anchors": ["MAPL_engine/check.go:getArrayOfJsonsFromInterfaceArray"]}
{"id": "C38", "title": "Array-of-arrays flattening", "statement": "On a parsed document, flattening an array consisting only of arrays yields their concatenation and otherwise leaves the array unchanged; it is idempotent on arrays without nested arrays.", "quantifier": "every document", "why_tests_cant": "infinite domain", "anchors": ["MAPL_engine/check.go:ArrangeArrayInterface", "MAPL_engine/check.go:getArrayFromArrayOfArrays"]}
{"id": "C39", "title": "Label strings", "statement": "Label text '{k1:v1,k2:v2}' with labels free of quotes, colons, commas, braces, spaces and backslashes yields exactly that map, spaces between items being ignored; a value containing ':' makes the whole label text unusable.", "quantifier": "every label map", "why_tests_cant": "infinite domain", "anchors": ["MAPL_engine/messages_load.go:addQuotesToJsonString", "MAPL_engine/messages_load.go:parseLabelsJsonOfMessage"]}
{"id": "C40", "title": "Derived message fields", "statement": "The context type is 'path' for HTTP/http, 'port' for TCP/tcp and empty otherwise regardless of what was given, and is idempotent; seconds/minutes/hours from midnight are consistent with the timestamp's own clock reading.", "quantifier": "every message and timestamp", "why_tests_cant": "infinite domain", "anchors": ["MAPL_engine/messages_load.go:AddResourceType", "MAPL_engine/messages_load.go:AddTimeInfoToMessage"]}
{"id": "C41", "title": "Structure of the Mongo query", "statement": "ToMongoQuery returns an error for non-jsonpath conditions, deep scans and KEY/VALUE under ALL or in arrays; otherwise the query mirrors the tree: AND/OR/NOT become $and/$or/$nor, ANY an $elemMatch, ALL the negated $elemMatch of the negation; an aggregate result is returned exactly when some pipeline step was needed and ends with a $match of the query.", "quantifier": "every prepared tree", "why_tests_cant": "unbounded recursive structure", "anchors": ["MAPL_engine/mongo_plugin.go", "MAPL_engine/rule_mongo_plugin.go"]}
{"id": "C42", "title": "The Mongo query selects the documents the engine accepts", "statement": "For trees of AND/OR/NOT and ANY/ALL over plain jsonpath conditions in the common fragment, a document matches the Mongo query exactly when the engine evaluates the tree to true on it; outside the fragment (missing fields with NEQ, empty values, units) the two can disagree.", "quantifier": "every document and every tree of the fragment", "why_tests_cant": "equivalence of two evaluators over infinite domains", "anchors": ["MAPL_engine/mongo_plugin.go", "MAPL_engine/check.go:testJsonPathConditionOnInterface"]}
{"id": "C43", "title": "Mongo field names", "statement": "Quote and bracket removal for Mongo field names succeeds exactly when both kinds of quotes are even in number and brackets balance in number; the result has no quotes or brackets, and keeps all other characters in order up to collapsed dots; a run of three or more dots need not collapse to one.", "quantifier": "every string", "why_tests_cant": "infinite domain", "anchors": ["MAPL_engine/mongo_plugin.go:removeQuotes"]}
{"id": "C44", "title": "Raw bytes and parsed documents agree", "statement": "For a condition evaluated on the same extracted text, the raw-bytes evaluation gives the same result as the parsed-document evaluation or panics; it panics exactly when the document value is numeric while the rule value is not and the method compares.", "quantifier": "every condition and extracted text", "why_tests_cant": "equivalence of two code paths over infinite domain", "anchors": ["MAPL_engine/check.go:testJsonPathCondition", "MAPL_engine/check.go:testJsonPathConditionOnInterface"]}
{"id": "C45", "title": "Dot-quote removal", "statement": "RemoveDotQuotes leaves strings without a quote following a dot unchanged, removes exactly the quotes of .'name' and .\"name\" segments, and is idempotent on its well formed outputs.", "quantifier": "every string", "why_tests_cant": "infinite domain", "anchors": ["MAPL_engine/string_utils.go:RemoveDotQuotes"]}
{"id": "C46", "title": "Concurrent evaluation", "statement": "Calls of Check on distinct message objects do not interfere: under every interleaving of their reads and writes each call returns (or panics) as it does alone and leaves its message unchanged, and it finishes once scheduled often enough. Trees without ANY and ALL may share a message object with others. Two calls sharing one message object can interfere through the relative context: under some interleaving a rule that applies is missed, the message keeps a relative context afterwards, or the evaluation panics.", "quantifier": "every number of calls and every interleaving", "why_tests_cant": "Tests see a few schedules; the statement is about all of them.", "anchors": ["MAPL_engine/conditions_tree.go:evalAnyRawInterface", "MAPL_engine/check.go:Check"]}
{"id": "C47", "title": "JSON text round trip", "statement": "Parsing the JSON text printed for a value of strings, booleans, null, arrays and objects with distinct keys returns that value (objects sorted by key).", "quantifier": "every such value", "why_tests_cant": "infinite recursive domain", "anchors": ["MAPL_engine/conditions_tree.go:UnmarshalJSON", "MAPL_engine/check.go:testJsonPathConditionOnInterface"]}
{"id": "C48", "title": "JSON texts are read by the JSON grammar", "statement": "A text handed to the loader or used as a message document is accepted exactly when it is a JSON text in the sense of RFC 8259 (with optional white space around it), and is read as the value the grammar gives it; of repeated keys in an object the last value counts.", "quantifier": "every text and every value", "why_tests_cant": "infinitely many texts, accepted and rejected", "anchors": ["MAPL_engine/conditions_tree.go:UnmarshalJSON", "MAPL_engine/check.go:getKeyValue"]}
{"id": "C49", "title": "Rule hash", "statement": "Two rules have the same RuleMD5Hash when they agree on sender, receiver and resource names, resource type and the text of the conditions and, up to letter case, on decision, sender and receiver type, operation and protocol; id, metadata and derived fields do not matter. When the separators of the text do not occur inside the parts, rules with equal texts agree in this way. ToLower leaves the hash unchanged when the resource type has no upper case letters, and not in general. The text is <decision>-<sender type:name>-<receiver type:name>-operation-protocol-<resource type-name>-conditions, where decision, sender and receiver types, operation and protocol are in small letters and absent conditions are shown as \"no conditions\".", "quantifier": "every pair of rules", "why_tests_cant": "The hash has to separate every pair of rules that differ and join every pair that agrees; tests compare a few rules.", "anchors": ["MAPL_engine/rules_load.go:RuleToString", "MAPL_engine/rules_load.go:RuleMD5Hash", "MAPL_engine/rules_load.go:ToLower"]}
{"id": "C50", "title": "Exact set of results", "statement": "For every tree that was loaded and prepared and every message, the pairs of truth value and extra data that evaluation may give over all legal map iteration orders are exactly those of the specification. In particular AND may be true iff each child may be true, OR may take a value iff its children may take values whose disjunction it is, ALL may be true iff the elements may be chosen so that the inner tree may be true on each; the choices in different parts of the tree are independent.", "quantifier": "every loaded and prepared tree, message and iteration order", "why_tests_cant": "Go randomises map iteration; a test run sees one order per run and cannot enumerate all of them.", "anchors": ["MAPL_engine/conditions_tree.go:Eval", "MAPL_engine/check.go:testOneCondition", "MAPL_engine/check.go:getArrayOfInterfaces"]}
{"id": "C51", "title": "Preparation does not change the text of a rule", "statement": "For every loaded tree that is prepared, String() and MarshalJSON of the prepared tree are those of the loaded tree with the references to predefined texts written out; hence for rules without references RuleToString, RuleMD5Hash, RuleMD5HashConditions, ConditionsEqual and the JSON text are the same before and after preparation, and a deep copy of the prepared tree is the tree as loaded, although preparation rewrites methods, attributes and values in place. Exception: a condition IS with an empty value.", "quantifier": "every loaded tree and rule, dictionary and iteration order", "why_tests_cant": "unbounded trees and texts; preparation rewrites attribute, method and value by form and any form missed shows only for that form", "anchors": ["MAPL_engine/definitions_rule.go:String", "MAPL_engine/definitions_rule.go:MarshalJSON", "MAPL_engine/rules_load.go:ConvertConditionStringToIntFloatRegex", "MAPL_engine/rules_load.go:RuleMD5Hash"]}
{"id": "C52", "title": "Evaluation on raw bytes does not depend on whether lookups copy", "statement": "When every ANY/ALL has at most one parent path, or jsonslice.Get always returns copies, Eval on a message with RequestJsonRaw gives the result it gives when byte slices are copied, and no byte of the message changes. With two comma-separated parents whose results are parts of the document, the bytes after the first result are replaced by a comma and the second result (append in getArrayOfJsons), so that Eval changes RequestJsonRaw and a second Eval may give another answer.", "quantifier": "every tree, document, library and layout of memory", "why_tests_cant": "aliasing between the message and the results of lookups depends on layout and capacity, and shows only in later conditions", "anchors": ["MAPL_engine/check.go:getArrayOfJsons", "MAPL_engine/check.go:getArrayOfJsonsFromInterfaceArray", "MAPL_engine/conditions_tree.go:evalAnyRawBytes", "MAPL_engine/conditions_tree.go:evalAllRawBytes"]}
{"id": "C53", "title": "The loader accepts exactly the grammar of condition trees", "statement": "ParseConditionsTree (InterpretNode) yields a tree n for a decoded JSON or YAML value iff the value stands for n in a declarative grammar: which maps are conditions (attribute and method, optionally a value with its numeric forms, optionally return values, in either spelling), what is stored for them, AND/OR/NOT over lists and single items, transparent keywords, and ANY/ALL maps of two or three keys with a legal parent path, return values inside the element and at most the inner keys that can be read. Where an ANY/ALL map has two inner keys each of their trees is read in some iteration order of the map; otherwise every order reads the same tree. Of a list of conditions under NOT only the last one counts, the others only have to be readable; an empty list under NOT is read, and preparing it panics.", "quantifier": "every decoded value, iteration order and library", "why_tests_cant": "unbounded nesting and all combinations of keys; both directions (nothing else is accepted, everything described is) over all values", "anchors": ["MAPL_engine/conditions_tree.go:ParseConditionsTree", "MAPL_engine/conditions_tree.go:InterpretNode", "MAPL_engine/conditions_tree.go:handleInterfaceArray", "MAPL_engine/conditions_tree.go:handleMapStringInterface", "MAPL_engine/definitions_rule.go:isConditionNode", "MAPL_engine/conditions_tree.go:getAnyAllNode"]}
{"id": "C54", "title": "Check computes the meaning of the rules as written", "statement": "For freshly loaded rules that SetPredefinedStringsAndLists accepts, Check returns (does not panic) one result per rule, and that result is the decision named by the rule if the rule as written applies to the message and DEFAULT otherwise; the overall decision is the strictest. Whether a rule applies is defined on its texts alone: sender and receiver names or networks after replacing references, operation, protocol and resource, and the conditions tree with the usual meaning of AND, OR, NOT, ANY and ALL over what each condition says about the message (path, label, text, number, time and version attributes); on a message without a parsed document ANY and ALL range over the pieces of the raw bytes. A rule is within the statement when its conditions say something about the message, and on raw bytes no number is compared with a text and the documents for return values are there.", "quantifier": "every list of rules, predefined dictionary, message (parsed document or raw bytes), iteration order and library; rules whose conditions say something about the message (number methods with numbers, ANY/ALL parents that give arrays or objects)", "why_tests_cant": "end-to-end statement over loading, copying, preparation and evaluation of arbitrarily nested trees and all messages", "anchors": ["MAPL_engine/check.go:Check", "MAPL_engine/check.go:CheckOneRule", "MAPL_engine/rules_load.go:SetPredefinedStringsAndLists", "MAPL_engine/conditions_tree.go:Eval", "MAPL_engine/check.go:testOneCondition"]}
{"id": "C55", "title": "Rules converted or prepared before they are checked", "statement": "Calling PrepareRules on loaded rules whose names are not references does not change the result of Check, for any global dictionary. Calling PrepareRulesWithPredefinedStrings with a dictionary gives, for each rule, the result that the rule gives after SetPredefinedStringsAndLists with that dictionary, whatever the global dictionary, provided no replaced text is itself a reference or needs preparation again. Preparing twice a rule that has label, object or jsonpath conditions fails with an error. With a Go library that loses compiled expressions when a rule is copied by JSON, checking a converted rule panics on every message. A rule whose 'already converted' flag is set without its lists never applies.", "quantifier": "every list of rules, dictionary, global dictionary, message, iteration order and library (that keeps expressions, or that loses them)", "why_tests_cant": "equality of results for all rules and messages across two call sequences, and the panics depend on the version of the standard library", "anchors": ["MAPL_engine/rules_load.go:PrepareRules", "MAPL_engine/rules_load.go:PrepareRulesWithPredefinedStrings", "MAPL_engine/rules_load.go:ConvertFieldsToRegex", "MAPL_engine/rules_load.go:SetPredefinedStringsAndLists", "MAPL_engine/definitions_rule.go:Rule", "MAPL_engine/check.go:CheckOneRule"]}
{"id": "C56", "title": "ANY, ALL and panics on raw bytes", "statement": "When the message carries raw bytes, ANY and ALL range over the pieces obtained by joining the texts found for the parent paths, opening arrays in an array and cutting the result into objects (or a single object into its entries). ANY can answer true exactly when some piece makes the inner condition true after earlier pieces made it false, ALL exactly when every piece does; with nothing at the last path, deeper arrays or an unreadable object both answer false. Evaluation can panic exactly when it reaches a condition or a parent path with one of the listed causes (a number compared with a text, a missing document, a bad numeric field). With a library that reports an error for a missing path, nothing at the last parent path hides what the other paths found.", "quantifier": "every prepared condition tree, message without a parsed document, iteration order and library", "why_tests_cant": "two-way characterisation of results and panics over all trees, texts and iteration orders", "anchors": ["MAPL_engine/conditions_tree.go:Eval", "MAPL_engine/check.go:getArrayOfJsons", "MAPL_engine/check.go:getArrayOfJsonsFromInterfaceArray", "MAPL_engine/check.go:getArrayFromArrayOfArrays", "MAPL_engine/check.go:getArrayOfJsonsFromMapStringInterface", "MAPL_engine/check.go:testJsonPathCondition"]}
{"id": "C57", "title": "Texts shown for a rule", "statement": "GetRuleStrings shows each field of a rule as it is written, with the text for a missing sender or receiver type, \"default\" for an empty protocol, operation or decision and \"default:default\" for a resource without type, and the text of the conditions. It panics exactly when the rule has no conditions or an incomplete tree. Two rules with legible conditions and types without ':' get the same texts exactly when they agree up to these defaults and the order inside AND and OR. Preparing a rule without references does not change its texts. A strange sender type can be shown like a missing one.", "quantifier": "every rule and library", "why_tests_cant": "an equivalence between equality of texts and agreement of rules, over all pairs of rules", "anchors": ["MAPL_engine/tools.go:GetRuleStrings", "MAPL_engine/definitions_rule.go:String", "MAPL_engine/conditions_tree.go:String"]}
{"id": "C58", "title": "Which rules can be prepared, loaded and validated", "statement": "A condition can be prepared exactly when its value, after references are looked up, is acceptable for its attribute and method, the expression made of the value compiles, and for a path the query (after quotation marks are removed) is accepted. A rule as loaded can be given a dictionary exactly when all its conditions and parent paths can be prepared, its names are defined, and names of type subnet are addresses or networks; otherwise the call returns an error. Loading a list succeeds exactly when every rule can be prepared, and each rule ends up as if it had been loaded alone. GetPreparedRule then gives the rule with references replaced, and an empty rule after a failure. ValidateRule accepts the same rules for the empty dictionary when names are not references; a name that is a reference is accepted by ValidateRule although preparation fails. Check on such rules gives the verdicts of the rules as written.", "quantifier": "every rule, dictionary, iteration order and library with regular expressions", "why_tests_cant": "a two-way characterisation of success over all texts of rules and dictionaries", "anchors": ["MAPL_engine/rules_load.go:SetPredefinedStringsAndLists", "MAPL_engine/rules_load.go:GetPreparedRule", "MAPL_engine/rules_load.go:YamlReadRulesFromStringWithPredefinedStrings", "MAPL_engine/rules_load.go:PrepareRulesWithPredefinedStrings", "MAPL_engine/rules_load.go:ValidateRule", "MAPL_engine/rules_load.go:ConvertConditionStringToIntFloatRegex", "MAPL_engine/rules_load.go:handleJsonpathAttribute", "MAPL_engine/string_utils.go:RemoveDotQuotes", "MAPL_engine/conditions_tree.go:PrepareAndValidate"]}
{"id": "C59", "title": "A parsed document and its raw bytes give the same decisions", "statement": "Take two messages that differ only in that one carries a document parsed and the other carries a JSON text of it. For trees built from AND, OR, NOT, ANY and ALL over arrays of objects and over the entries of an object, conditions on fields and labels, on plain paths, and on $KEY and $VALUE of an entry, every prepared tree evaluates without panic to the same truth value on both, every rule has the same decision, and Check gives the same results, decision, index and descriptions. The exceptions are stated: null with EX or NEX, a string <nil>, elements that are not objects, EQ of a text with a number (panic on raw bytes), and ALL over a path where nothing is found. Each is refuted by a witness.", "quantifier": "every document without escapes or repeated keys and every JSON text of it with any white space; every tree, rule list, dictionary and iteration order of the stated form; every library meeting the stated needs", "why_tests_cant": "agreement of two evaluation paths over all documents, texts and trees", "anchors": ["MAPL_engine/check.go:testJsonPathCondition", "MAPL_engine/check.go:testJsonPathConditionOnInterface", "MAPL_engine/check.go:getArrayOfJsons", "MAPL_engine/check.go:getArrayOfInterfaces", "MAPL_engine/conditions_tree.go:evalAnyRawBytes", "MAPL_engine/conditions_tree.go:evalAllRawInterface", "MAPL_engine/definitions_message.go:MessageAttributes"]}
{"id": "C60", "title": "A tree stored as BSON is loaded back unchanged", "statement": "Let bson.Marshal and bson.Unmarshal keep documents of strings, arrays and objects up to the order of keys. For every tree the loader returns whose texts hold no control characters, whose lists are not empty and whose parent paths need no escapes, MarshalBSON succeeds and UnmarshalBSON of the result gives exactly that tree, whatever the order of keys in the store and of visiting maps; a missing tree comes back missing. Printing any value that stands for a tree (keys sorted) and loading the text gives the same tree. An empty AND loads and is stored, but what is stored cannot be loaded. Bytes that are no document, or a document that cannot be printed, are an error, and loading panics exactly where loading the printed document can. MarshalBSON succeeds exactly if the JSON text of the tree is an object (or null) and bson.Marshal accepts it, and panics exactly if writing the JSON text does.", "quantifier": "every loaded tree, every BSON codec meeting the assumption, every iteration order, every library", "why_tests_cant": "all trees, all orders in which the store may return keys", "anchors": ["MAPL_engine/conditions_tree.go:MarshalBSON", "MAPL_engine/conditions_tree.go:UnmarshalBSON", "MAPL_engine/conditions_tree.go:UnmarshalJSON", "MAPL_engine/conditions_tree.go:ParseConditionsTree"]}
{"id": "C61", "title": "Reading one message from YAML accepts exactly the countable texts", "statement": "YamlReadMessageAttributes compares the number of fields in the text with the number in the decoded message. For a text of lines `key: value` with plain values (no quotes, control characters, escapes, or words the count itself rewrites) it returns the decoded message, with its resource type added, exactly when every key is a known one, no request_type is given, request_size is not 0, and no line naming sender_label or receiver_label has a letter or digit on both sides of a colon in the first word of its value; in all other cases it returns an error. In particular a misspelt key is always reported, although decoding itself skips it. That texts with only known keys are accepted is false. Bytes in the printed message are in base64 (RFC 4648), different bytes in different texts.", "quantifier": "every list of entries in any order, every message it decodes to, every library", "why_tests_cant": "the count runs 27 successive replacements over the whole printed message; all values and all subsets of 23 keys", "anchors": ["MAPL_engine/messages_load.go:YamlReadMessageAttributes", "MAPL_engine/tools.go:compareJsonAndYaml", "MAPL_engine/tools.go:IsNumberOfFieldsEqual", "MAPL_engine/definitions_message.go:ToJson"]}
{"id": "C62", "title": "The fast array splitter agrees with the original one on arrays of objects only", "statement": "getArrayOfJsonsFromInterfaceArray replaces getArrayOfJsonsFromInterfaceArrayOriginal for speed. For JSON bytes of an array whose string literals contain no braces and whose numbers are printed as they are read, the two return texts of the same values, element by element, exactly when every element is an object. On bytes written by json.Marshal from an array of objects they return the same bytes. The original fails on all documents other than arrays and null, the fast one exactly on bytes beginning with a brace. Agreement on all inputs is false: bytes that are no JSON, arrays of scalars, nested arrays.", "quantifier": "every byte string and array, every library", "why_tests_cant": "all nestings, spacings, key orders and escapes of an array text", "anchors": ["MAPL_engine/check.go:getArrayOfJsonsFromInterfaceArray", "MAPL_engine/check.go:getArrayOfJsonsFromInterfaceArrayOriginal"]}
{"id": "C63", "title": "When loading a conditions tree can panic", "statement": "Loading a decoded JSON or YAML value as a conditions tree can panic, for some order of visiting its maps, exactly when loading reaches a map key that is not a string, or a condition, ANY or ALL whose attribute, method, parent path or return value is not a string; an array item is reached when all items before it can be loaded, an entry of ANY or ALL always, an entry below an unknown keyword only if it is itself a condition. The same holds for UnmarshalJSON on a text, through the value the text denotes. Whether it panics can depend on the order: an error may be met first.", "quantifier": "every decoded value, every text, every library, every order of visiting maps", "why_tests_cant": "all nestings of maps and arrays in both decoders' forms, and a nondeterministic map order", "anchors": ["MAPL_engine/conditions_tree.go:ParseConditionsTree", "MAPL_engine/conditions_tree.go:InterpretNode", "MAPL_engine/conditions_tree.go:getAnyAllNode", "MAPL_engine/definitions_rule.go:ReadCondition"]}
{"id": "C64", "title": "Aggregation pipelines on the entries of objects select the documents the engine accepts", "statement": "For rules whose conditions combine with AND, OR and NOT the trees of C42 and ANY over the entries of an object with one condition on $KEY or $VALUE that asks for a value (EQ, LT, LE, GT, GE, RE, IN, EX), ToMongoQuery gives a query or an aggregation pipeline, a pipeline exactly when such an ANY occurs, and MongoDB returns a stored document exactly when the engine's evaluation of the rule on it is true, without a server error. Outside this fragment the two differ: negative methods, an object inside another, conditions inside AND, OR or NOT in ANY, arrays, $VALUE with a path.", "quantifier": "every tree and document of the fragment, every predefined strings and lists, every library, every order of visiting maps", "why_tests_cant": "all combinations of trees and documents against a second evaluator", "anchors": ["MAPL_engine/mongo_plugin.go:(Any).ToMongoQuery", "MAPL_engine/mongo_plugin.go:(Condition).ToMongoQuery", "MAPL_engine/rule_mongo_plugin.go:(Rule).ToMongoQuery"]}
{"id": "C65", "title": "ANY and ALL over the entries of an object read the same keys and values from parsed and raw documents", "statement": "For ANY or ALL over the object at a plain path with a condition on $KEY or $VALUE, evaluation on the parsed document and on its raw bytes ends without panic with the same truth value: for ANY, whether the condition is satisfied by the key (value) of some entry of the object, for ALL, by that of every entry. The values must be scalars that encoding/json prints as they were written. Otherwise the two differ: a string with <, > or & is compared in its escaped form on raw bytes, and a number that encoding/json prints differently from fmt. Trees with such conditions are also part of C59.", "quantifier": "every object, every JSON text of the document with any white space, every condition, dictionary and iteration order of the stated form; every library meeting the stated needs", "why_tests_cant": "all objects and all texts of them on two evaluation paths", "anchors": ["MAPL_engine/check.go:getArrayOfJsons", "MAPL_engine/check.go:getArrayOfInterfaces", "MAPL_engine/check.go:testJsonPathCondition", "MAPL_engine/check.go:testJsonPathConditionOnInterface", "MAPL_engine/conditions_tree.go:evalAnyRawBytes"]}
{"id": "C66", "title": "Rules and dictionaries are read from YAML documents as they are written", "statement": "Reading rules from a YAML document whose mappings have scalar keys, none repeated, yields rules whose fields are the texts under their keys (empty when absent or null, numbers and booleans by their text, unknown keys ignored) and whose conditions tree is one the conditions stand for. Every document of this form that contains neither the key \"-\" nor operationRegex is read, in every iteration order, nothing the engine computes itself is set, and the result is determined unless an ANY or ALL has two inner conditions. Reading panics only where loading the conditions does. A file is read like its text except that a repeated key is an error. A dictionary is read with its lists resolved, or refused exactly when a list names an undefined string; resolved lists written in the document have no effect. From such documents Check gives the verdicts the texts of the rules call for. The key \"-\" of a rule switches the conversion of its fields off, so two documents with the same rules can lead to different decisions. An operationRegex is taken from the document if it is a text that is accepted as an expression, the flag under \"-\" if it is a boolean; other texts are errors. In values of conditions with repeated string keys the last entry counts.", "quantifier": "every YAML document tree with the stated keys, every iteration order, every external library, every message; all rule lists of all lengths", "why_tests_cant": "all documents: any number of rules, any nesting, any unknown keys and any kinds of scalars", "anchors": ["MAPL_engine/rules_load.go:YamlReadRulesFromString", "MAPL_engine/rules_load.go:YamlReadRulesFromStringWithPredefinedStrings", "MAPL_engine/rules_load.go:YamlReadRulesFromFile", "MAPL_engine/predefined_lists_load.go:YamlReadStringListsFromString", "MAPL_engine/definitions_rule.go:Rule", "MAPL_engine/conditions_tree.go:UnmarshalYAML"]}
{"id": "C67", "title": "Messages are read from YAML documents as they are written", "statement": "Reading messages from a YAML document whose mappings have scalar keys, none repeated, succeeds exactly when every field has a value of its kind (texts from scalars, the size a whole number or a decimal cut towards zero, the encryption version a number, raw bytes lists of small numbers, raw values anything, null nothing) and every message has a readable request time; then the messages are those of the document in order, each with its fields as written, the context type of its protocol, the clock values of its time, its parsed addresses and its labels. Every other such document is an error, and no document of any kind makes reading panic. Reading a single message returns the message the document says unless the count of fields objects, and then an error. Reading rules from one document and messages from another and checking them gives the verdicts the texts of the rules call for. Unlike a single message, a list of messages accepts misspelt fields; unlike files of rules, files of messages accept repeated keys.", "quantifier": "every YAML document tree with the stated keys, every external library with readable clock times, every rule document and dictionary; all lists of messages of all lengths", "why_tests_cant": "all documents: any number of messages and fields in any order, all kinds of scalars, unknown keys, all sizes including decimals beyond 64 bits", "anchors": ["MAPL_engine/messages_load.go:YamlReadMessagesFromString", "MAPL_engine/messages_load.go:YamlReadMessagesFromFile", "MAPL_engine/messages_load.go:YamlReadMessageAttributes", "MAPL_engine/definitions_message.go:MessageAttributes", "MAPL_engine/check.go:Check"]}
{"id": "C68", "title": "What a conditions tree is worth before it is prepared", "statement": "Evaluating a loaded conditions tree without calling PrepareAndValidate on it is determined by the texts of its conditions and the message alone: true and false keep their values; payloadSize, utcHoursFromMidnight and encryptionVersion are compared as usual with values that are numbers and panic on others (and on a missing version); user agent, encryption type and domain only know EX, NEX and the negated comparisons, which are always true, all other comparisons being false; conditions on labels, objects and paths and every ANY and ALL are false; AND stops at the first condition that is not true and OR does not stop. The message is left alone and nothing is returned beside the value. So preparing a tree can change its value.", "quantifier": "every loaded tree of every size, every message, every external library, every iteration order", "why_tests_cant": "all trees and all messages", "anchors": ["MAPL_engine/conditions_tree.go:Eval", "MAPL_engine/check.go:testOneCondition", "MAPL_engine/check.go:compareStringWithWildcardsFunc", "MAPL_engine/check.go:compareRegexFunc", "MAPL_engine/check.go:getArrayOfJsons"]}
{"id": "C69", "title": "Rules that match everything, and the documented types, lists and verbs", "statement": "A rule with * for both names, the protocol and the operation and without conditions gives its decision to every message whose two service names contain no line break, wherever it stands among the rules, and to no other message; so with the decision block every such message is blocked, and with the documented default_allow rule before blocking rules the decision is allow unless one of these applies. A rule whose sender type is none of *, workload and subnet, or whose receiver type is none of these and hostname, never applies whatever else it says; this includes the type service of all examples in the documentation. A name without commas, spaces and wildcards stands for itself only: the documented list separator ; separates nothing. The verbs read and write accept the documented methods except CONSUME and PRODUCE.", "quantifier": "every list of rules and position in it, every message with ASCII names, every dictionary, every external library meeting RegexSpec and CidrSpec", "why_tests_cant": "all messages, all other rules and all positions", "anchors": ["docs/MAPL_SPEC_v2.md", "MAPL_engine/check.go:Check", "MAPL_engine/check.go:TestSender", "MAPL_engine/check.go:TestReceiver", "MAPL_engine/string_utils.go:ConvertOperationStringToRegex"]}
{"id": "C70", "title": "Rules are read from JSON documents as they are written", "statement": "Unmarshalling a JSON text into Rules gives, for a text that is a document by the grammar of RFC 8259 in which no key of an object occurs twice (in whatever case), the rules the document says: names and types of sender, receiver and resource, protocol, operation, decision, metadata and hash as written or empty, and the conditions the text of the entry conditions stands for; keys are recognised in either case, unknown ones are ignored. Every document that says rules is accepted, in every order of visiting maps, with exactly those rules unless an ANY or ALL has two inner conditions; a text that is no document is an error; reading panics only where loading the conditions does. Together with preparation and Check the decision is the one the document says. Where keys occur more than once in a rule, the last entry that is not null counts; conditions and expressions are those of the last entry, and senders, receivers, resources and metadata are put together from all entries. Under operationRegex and, in a resource, \"-\", a text that is no regular expression is an error.", "quantifier": "every text, every order of visiting maps, every external library (the specifications of regular expressions, subnets and numbers for the decision), every message with ASCII names", "why_tests_cant": "all documents: any number of rules, any entries, any spacing, any nesting of conditions", "anchors": ["MAPL_engine/definitions_rule.go:Rules", "MAPL_engine/conditions_tree.go:UnmarshalJSON", "MAPL_engine/rules_load.go:69"]}
{"id": "C71", "title": "What a rule writes as JSON is read back as its copy", "statement": "Marshalling a rule gives a JSON document, with the fields that are not empty, the tree's own text compacted and strings escaped, and unmarshalling it gives exactly what the deep copy of the rule is taken to be: same texts, flags and metadata, the tree as its own text is read, and the lists and expressions as the libraries return them. So a rule as loaded, whose tree can be copied, comes back equal, whatever its names, types, metadata and hash contain; and a file made of the texts of such rules loads as these rules. Compaction of a valid JSON text keeps its value, leaves nothing to compact and only drops spaces outside of strings.", "quantifier": "every rule with parent paths that are the inside of JSON strings, every order of visiting maps, every external library; for prepared rules, whose lists and expressions are returned by encoding/json, net and regexp", "why_tests_cant": "all texts in all fields, all trees, any number of rules", "anchors": ["MAPL_engine/definitions_rule.go:92", "MAPL_engine/definitions_rule.go:284", "MAPL_engine/conditions_tree.go:259", "MAPL_engine/rules_load.go:SetPredefinedStringsAndLists"]}
{"id": "C72", "title": "Rewriting conditions by the laws of logic does not change decisions", "statement": "Replacing parts of conditions trees, anywhere inside, by de Morgan's laws, double negation, reordering, flattening, repetition, distribution of AND and OR, ANY over OR, ALL over AND, and on parsed documents NOT ALL by ANY NOT and NOT EX by NEX, keeps loaded trees preparable and gives the same truth value for every order of visiting maps; a Check of rules with such replaced conditions gives the same results and the same decision. So the two conditions that the documentation (6a, 6b) calls equivalent are so, unless a value has a quotation mark at one end only. ANY does not distribute over AND, NOT GT is not LE nor NOT EQ NEQ on a missing value, and returned data may change.", "quantifier": "every pair of trees connected by the laws, every message whose documents the conditions can be asked of, parsed or raw, every order, every list of rules, every external library", "why_tests_cant": "all trees, all chains of rewriting steps at any depth, all documents", "anchors": ["MAPL_engine/conditions_tree.go:125", "MAPL_engine/conditions_tree.go:226", "MAPL_engine/check.go:34", "docs/MAPL_Conditions_v2.md:137"]}
{"id": "C73", "title": "Wider rules can only make the decision stricter", "statement": "If the rules of a list are made wider or given a stricter decision, and rules are added, the decision of Check on a message is at least as strict as before. Wider are: longer comma lists of senders, receivers, operations and resources, also when the lists have grown in the dictionary of predefined strings, * for the operation, the resource type or the protocol, no conditions, and conditions in which, anywhere and turned around below NOT, conjuncts are dropped, alternatives added, IN lists extended, NIN lists shortened, bounds of numbers moved, equality replaced by a bound, a comparison by EX, and ALL by ANY where there are elements. Adding an item to a verb (read to read,POST) is not a widening, nor is ALL to ANY without elements.", "quantifier": "every pair of rule lists and dictionaries so related, every message, parsed or raw, whose documents the conditions can be asked of, every order, every external library", "why_tests_cant": "all lists of rules, all trees with changes at any depth, all numbers and documents", "anchors": ["MAPL_engine/check.go:34", "MAPL_engine/check.go:101", "MAPL_engine/conditions_tree.go:125", "MAPL_engine/rules_load.go:215", "docs/SUPPORTED_METHODS.md"]}
{"id": "C74", "title": "The extra data is what the declared return values find", "statement": "The extra data of evaluating a tree, and of each rule in a check, is determined by the tree as it is written and the message, on parsed documents and on raw bytes alike. A true condition on a jsonpath that declares return values gives one record, ANY one record for every element that satisfies the inner condition, AND the data of its last child that has some (children after the first false one do not count), OR the data of all true children in order, NOT and ALL none; a rule that does not decide gives none. A record has an entry for every declared name whose path finds something: on parsed documents the whole document or element for $*, otherwise what the path selects (no entry if the path finds no such key, null for any path that cannot be prepared as a query), on raw bytes the parsed value of what the path selects in the document or element. The data is unique up to the order of the elements of maps. A return value of a condition that refers to the current element is null on parsed documents. TestConditions returns the truth of the rule's own conditions with that data, whatever the rule's other fields say; a rule without conditions fails it and returns no data.", "quantifier": "every tree and rule that a loader produced, every message whose documents the conditions can be asked of, every order, every external library", "why_tests_cant": "all trees, all documents, all declared return values and orders of map elements", "anchors": ["MAPL_engine/check.go:getExtraData", "MAPL_engine/conditions_tree.go:125", "MAPL_engine/conditions_tree.go:219", "MAPL_engine/check.go:34", "MAPL_engine/check.go:TestConditions"]}
{"id": "C75", "title": "The same rules in JSON and in YAML", "statement": "A JSON text and a YAML document that are the same entry by entry say the same rules: whatever list of rules is read from the JSON text (ids, sides, decisions, metadata, conditions tree) is read from the YAML document, and conversely if whatever is read as a text is written as one. Asked of the documents: no repeated keys, known keys written in their exact case, conditions (where given) neither null nor empty, no object as the value of a condition, numbers that print alike as float64 and as YAML reads them, at most one inner condition per ANY or ALL. Without these it fails: empty conditions are no conditions in JSON and an error in YAML, 'ruleId' is found in JSON only, a number is a text in YAML and an error in JSON, and a whole number from a million on, as the value of a condition, becomes 1e+06 in JSON, so that checking the rule panics, while from YAML it works.", "quantifier": "every JSON text, every YAML document equal to it, every order of visiting maps, every external library", "why_tests_cant": "all documents of unbounded size and nesting in two formats", "anchors": ["MAPL_engine/rules_load.go", "MAPL_engine/conditions_tree.go:39", "MAPL_engine/definitions_rule.go:15", "MAPL_engine/conditions_tree.go:InterpretNode"]}
{"id": "C76", "title": "Only the fields that rules name matter", "statement": "Two messages that agree on what the rules name are checked alike: same decision, same per-rule results, same extra data, same panics; so are coverage reports and TestConditions. What a rule names: the sender's service or address according to the sender type, the receiver's service, host or address according to the receiver type, the method, the destination port for protocol tcp, otherwise (unless the protocol is *) protocol and path, and the context type unless the resource type is *; and per condition the field of its attribute: one label of the sender or receiver, namespace or cluster, the documents only for JSON paths and ANY/ALL, plus the receiver's label or attribute when the value (after replacement) names one. The time, the id, the label texts and the seconds and minutes of a message are read by no rule at all.", "quantifier": "every list of loaded rules, dictionary, pair of messages that agree, order of visiting maps, external library", "why_tests_cant": "non-interference over all pairs of messages and all rules", "anchors": ["MAPL_engine/check.go:34", "MAPL_engine/check.go:101", "MAPL_engine/check.go:178", "MAPL_engine/check.go:210", "MAPL_engine/check.go:265", "MAPL_engine/check.go:409", "MAPL_engine/check.go:446", "MAPL_engine/coverage.go:14"]}
{"id": "C77", "title": "Only the dictionary entries that rules refer to matter", "statement": "Once two dictionaries have been accepted, rules behave alike under both if the dictionaries agree on the names the rules refer to: the sender name, the receiver name and the values of conditions of the form #name. To agree on a name is to have the same list of that name with the same texts for the names its items refer to, or, if there is no such list, the same text of that name. Then Check returns the same decision, results and extra data and Coverage the same report, SetPredefinedStringsAndLists and loading with a dictionary succeed or fail alike with the same prepared rules, and TestConditions returns the same. Rules without references do not depend on the dictionary at all. (A list with an unknown #name makes SetGlobalPredefinedStringsAndLists refuse the whole dictionary even if no rule refers to it.)", "quantifier": "every list of loaded rules, pair of accepted dictionaries, message, order of visiting maps, external library", "why_tests_cant": "non-interference over all pairs of dictionaries and all rules", "anchors": ["MAPL_engine/rules_load.go:237", "MAPL_engine/rules_load.go:267", "MAPL_engine/rules_load.go:304", "MAPL_engine/rules_load.go:64", "MAPL_engine/rules_load.go:98", "MAPL_engine/predefined_lists_load.go:42"]}
{"id": "C78", "title": "Name patterns and lists on UTF-8 texts", "statement": "Patterns are not limited to ASCII. For rules and messages whose texts are well-formed UTF-8, a sender or receiver name, host, method, path or port is accepted exactly by the comma separated items in which * stands for any sequence of characters and ? for any one character (of one to four bytes, not for one byte), other than newlines, and every other character stands for itself; around the items of operations and resources the white space of Unicode is ignored; such names are always accepted by the loader. A JSON-path condition IN (NIN) with a list of plain UTF-8 items holds exactly if the text found is (is not) one of the items. Check returns for every freshly loaded rule of this kind the verdict that this reading of the rule gives, and the strictest of them (as C54 for ASCII texts). For ASCII texts this is the reading of C07, C09, C10 and C19.", "quantifier": "every rule, dictionary, message, pattern and text in UTF-8, external library whose regular expressions read UTF-8 as RE2 does", "why_tests_cant": "all texts over all Unicode characters, against all patterns", "anchors": ["MAPL_engine/string_utils.go:46", "MAPL_engine/string_utils.go:75", "MAPL_engine/string_utils.go:114", "MAPL_engine/rules_load.go:328", "MAPL_engine/check.go:840"]}
{"id": "C79", "title": "References written out by hand", "statement": "A rule with references to the dictionary (#name as sender, receiver or value of a condition) behaves as the rule in which each reference is replaced by hand by the text of the dictionary (a list by its items joined with commas, or with | for RE and NRE), provided that no text so written is a reference itself: both are accepted or refused alike, with any dictionary for the second rule, the prepared rules are equal, Check and Coverage on them return the same in every respect, and Check on rules prepared on first use gives the same results wherever these do not depend on the order of maps. Writing out happens once: a text of the dictionary that is a reference itself is not looked up again.", "quantifier": "every rule or list of rules, dictionary, message, external library in which a text with a leading # is no number, iteration order", "why_tests_cant": "all rules with all dictionaries and all messages", "anchors": ["MAPL_engine/rules_load.go:215", "MAPL_engine/rules_load.go:237", "MAPL_engine/rules_load.go:267", "MAPL_engine/rules_load.go:304", "MAPL_engine/validate_conditions.go:150"]}
{"id": "C80", "title": "The text a JSON-path condition compares", "statement": "A JSON-path condition compares the text of the result (scalars as printed, lists and objects as JSON; in raw documents the text found) after this cleaning and no other: from left to right [[ becomes [, ]] becomes ], and a bracket next to a quotation mark on its inner side disappears; the empty list counts as empty; quotation marks around the text are removed twice. An empty rest counts as missing (only NEX holds), a rest with a quotation mark on one side only (other than a lone quotation mark) makes every condition false, and any other rest is compared. Replacing means replacing all occurrences from left to right without overlaps; counting (for units), replacing the first occurrence and splitting at a separator are meant accordingly. A list of values for IN, IS and NIN stands for the alternatives of its comma separated items without brackets, each anchored at both ends.", "quantifier": "every text and value found, every condition, parsed or raw message, external library", "why_tests_cant": "all texts with all combinations of brackets and quotation marks", "anchors": ["MAPL_engine/string_utils.go:161", "MAPL_engine/string_utils.go:177", "MAPL_engine/check.go:541", "MAPL_engine/check.go:641", "MAPL_engine/rules_load.go:334", "MAPL_engine/validate_conditions.go:137"]}
{"id": "C81", "title": "The text of a value in a rule", "statement": "The value of a condition is a text. If the rule gives a value that is no text, its text is the one Go prints: null as <nil>, true and false, whole numbers in decimal digits without needless zeros, lists between brackets with blanks between the items, maps as map[key:value ...] in the order of the keys, and so on inwards; without a value it is the empty text. This is so in every order of visiting maps.", "quantifier": "every condition, value, order of visiting maps and external library (which prints floating-point numbers)", "why_tests_cant": "all values, nested to any depth", "anchors": ["MAPL_engine/definitions_rule.go:177", "MAPL_engine/definitions_rule.go:179"]}
{"id": "C82", "title": "The text of an array or object found in a document", "statement": "If the JSON path of a condition finds an array or an object in a parsed document, the condition compares its JSON text: no blanks, whole numbers in decimal digits, the entries of an object in the order of their keys however the document is written, and texts between quotation marks with quotation marks, backslashes, control characters and the signs <, > and & escaped. If there is no JSON text it compares the empty text. Other values have the text Go prints for them.", "quantifier": "every condition, document, found value, text and external library (which prints floating-point numbers)", "why_tests_cant": "all values, nested to any depth, and all texts in them", "anchors": ["MAPL_engine/check.go:630", "MAPL_engine/check.go:631", "MAPL_engine/check.go:634"]}
{"id": "C83", "title": "The text of the key and the value of an entry", "statement": "A condition on $KEY or $VALUE below ANY or ALL looks at the only entry of the current object. $KEY compares the key. $VALUE compares, in a parsed document, the text of the value (arrays and objects as JSON text, other values as Go prints them) and, in a raw document, always its JSON text, however the raw text is written. From this text outer brackets and quotation marks are removed as for every path, and the condition holds exactly if its method accepts what remains.", "quantifier": "every condition on $KEY or $VALUE, key, value, text of the document, order of visiting maps and external library", "why_tests_cant": "all keys and values, nested to any depth, and all spellings of the raw text", "anchors": ["MAPL_engine/check.go:510", "MAPL_engine/check.go:609", "MAPL_engine/check.go:702", "MAPL_engine/check.go:715", "MAPL_engine/check.go:758"]}
{"id": "C84", "title": "Paths below the value of an entry", "statement": "A condition on a path $VALUE.name... below ANY or ALL does not look up its path in a parsed document: it compares what the path $.* finds in the value of the entry, so that conditions that differ only in the names of the path give the same result. In a raw document it compares what its own path finds in the JSON text of the value.", "quantifier": "every path without quotation marks, condition, value of an entry, document text, order of visiting maps and external library", "why_tests_cant": "all paths and values; two conditions on any two paths always agree", "anchors": ["MAPL_engine/conditions_tree.go:389", "MAPL_engine/check.go:512", "MAPL_engine/check.go:513", "MAPL_engine/check.go:720"]}
