(** Preparation of conditions, trees and rules: rules_load.go, conditions_tree.go *)
From Coq Require Import List String Ascii Bool Arith ZArith.
From Verif Require Import Base GoStr GoFloat Types StrUtils Validate.
Import ListNotations.
Open Scope string_scope.

(** rules_load.go:304-313 isReplaceableString *)
Definition replaceable_string (x : string) (p : predef) : option string :=
  if has_prefix x "#" then assoc (replace_first x "#" "") (p_strings p) else None.

(** rules_load.go:315-326 isReplaceableList: the list if found, and whether [x] is a reference *)
Definition replaceable_list (x : string) (p : predef) : option (list string) * bool :=
  if has_prefix x "#" then (assoc (replace_first x "#" "") (p_resolved p), true)
  else (None, false).

Section WithLib.
Variable L : Lib.
Notation cond := (cond L).
Notation node := (node L).
Notation rule := (rule L).

Definition set_value (c : cond) (v : string) : cond :=
  mkCond (c_attr c) (c_method c) v (c_num c) (c_lab c) (c_obj c) (c_jp c) (c_ret c) (c_orig c).

(** rules_load.go:267-292 ReplaceStringsAndListsInCondition
    (294-302: convertListToString joins with ",", convertListToRegexString with "|") *)
Definition replace_in_condition (p : predef) (c : cond) : res cond :=
  match replaceable_list (c_value c) p with
  | (Some l, _) =>
    if is_any (c_method c) ["RE"; "NRE"] then
      let v := join "|" l in
      if is_some (re_compile L v) then Ok (set_value c v) else Err
    else Ok (set_value c (join "," l))
  | (None, isref) =>
    match replaceable_string (c_value c) p with
    | Some v => Ok (set_value c v)
    | None => if isref then Err else Ok c
    end
  end.

Definition slice_res (s : string) (i j : Z) : res string :=
  match slice s i j with Some x => Ok x | None => Panic end.

(** rules_load.go:391-422 handleSenderReceiverLabelsAttribute *)
Definition label_key (s : string) : res string :=
  slice_res s (index s "[" + 1) (index s "]").

Definition handle_labels (c : cond) : res cond :=
  do (att, lab) <-
    (if has_prefix (c_attr c) "senderLabel[" then
       do k <- label_key (c_attr c);
       Ok ("senderLabel", mkLab true k (l_is_receiver (c_lab c)) (l_receiver_key (c_lab c))
                            (l_value_is_receiver (c_lab c)) (l_value_key (c_lab c)))
     else Ok (c_attr c, c_lab c));
  do (att, lab) <-
    (if has_prefix att "receiverLabel[" then
       do k <- label_key att;
       Ok ("receiverLabel", mkLab (l_is_sender lab) (l_sender_key lab) true k
                              (l_value_is_receiver lab) (l_value_key lab))
     else Ok (att, lab));
  do (val, lab) <-
    (if has_prefix (c_value c) "receiverLabel[" then
       do k <- label_key (c_value c);
       Ok ("receiverLabel", mkLab (l_is_sender lab) (l_sender_key lab)
                              (l_is_receiver lab) (l_receiver_key lab) true k)
     else Ok (c_value c, lab));
  Ok (mkCond att (c_method c) val (c_num c) lab (c_obj c) (c_jp c) (c_ret c) (c_orig c)).

(** rules_load.go:424-450 handleSenderReceiverAttributes *)
Definition after_dot (s : string) : res string :=
  slice_res s (index s "." + 1) (Z.of_nat (String.length s)).

Definition handle_objects (c : cond) : res cond :=
  do (att, obj) <-
    (if has_prefix (c_attr c) "$sender." then
       do k <- after_dot (c_attr c);
       Ok ("$sender", mkObj true (o_is_receiver (c_obj c)) (o_value_is_receiver (c_obj c))
                        k (o_receiver_attr (c_obj c)) (o_value_attr (c_obj c)))
     else Ok (c_attr c, c_obj c));
  do (att, obj) <-
    (if has_prefix att "$receiver." then
       do k <- after_dot att;
       Ok ("$receiver", mkObj (o_is_sender obj) true (o_value_is_receiver obj)
                          (o_sender_attr obj) k (o_value_attr obj))
     else Ok (att, obj));
  do (val, obj) <-
    (if has_prefix (c_value c) "$receiver." then
       do k <- after_dot (c_value c);
       Ok ("$receiver", mkObj (o_is_sender obj) (o_is_receiver obj) true
                          (o_sender_attr obj) (o_receiver_attr obj) k)
     else Ok (c_value c, obj));
  Ok (mkCond att (c_method c) val (c_num c) (c_lab c) obj (c_jp c) (c_ret c) (c_orig c)).

(** rules_load.go:452-486 handleJsonpathAttribute *)
Definition handle_jsonpath (c : cond) : res cond :=
  if has_prefix (c_attr c) "jsonpath:" then
    do net <- slice_res (c_attr c) (index (c_attr c) ":" + 1) (Z.of_nat (String.length (c_attr c)));
    let '(net, rel) :=
      if slice_has_prefix ["$RELATIVE."; "$KEY"; "$VALUE"] net
      then (replace_first net "$RELATIVE." "$.", true)
      else if String.eqb net "$RELATIVE" then ("$", true) else (net, false) in
    do net <- (match first_char net with
               | None => Panic
               | Some ch => Ok (if Ascii.eqb ch "." then "$" ++ net else net)
               end);
    let net := remove_dot_quotes net in
    let net := replace_all net sqs dqs in
    let net := replace_all net ".[" "[" in
    Ok (mkCond "jsonpath" (c_method c) (c_value c) (c_num c) (c_lab c) (c_obj c)
          (mkJp true rel net (j_prep (c_jp c))) (c_ret c) (c_orig c))
  else Ok c.

(** rules_load.go:328-389 ConvertConditionStringToIntFloatRegex *)
Definition convert_condition (c : cond) : res cond :=
  let orig := mkOrig (c_attr c) (c_method c) (c_value c) in
  let '(method, value) :=
    if is_any (c_method c) ["IN"; "NIN"; "IS"] then
      (if is_any (c_method c) ["IN"; "IS"] then "RE" else "NRE", list_to_alternatives (c_value c))
    else (c_method c, c_value c) in
  let f := or_else (float_with_units L value) (n_float (c_num c)) in
  let i := or_else (parse_int value) (n_int (c_num c)) in
  let re := re_compile L value in
  let re' := or_else re (n_regex (c_num c)) in
  if negb (is_some re) && contains_string regex_methods method then Err else
  let sre := re_compile L (convert_string_to_regex value (og_method orig)) in
  let c1 := mkCond (c_attr c) method value (mkNum i f re' sre) (c_lab c) (c_obj c) (c_jp c) (c_ret c) orig in
  do c2 <- handle_labels c1;
  do c3 <- handle_objects c2;
  do c4 <- handle_jsonpath c3;
  if j_is (c_jp c4) || j_rel (c_jp c4) then Ok c4
  else if negb (is_some sre) then Err else Ok c4.

(** conditions_tree.go:384-399 prepareJsonpathQuery; [Ok None] is a nil FilterFunc without error *)
Definition prepare_query (query : string) : res (option (JQ L)) :=
  let query := replace_all query "$RELATIVE" "$" in
  let query := if String.eqb query "$*" then "$.*" else query in
  if contains query "$KEY" || contains query "$VALUE" then Ok (jp_prepare L "$.*")
  else match jp_prepare L query with
       | Some q => Ok (Some q)
       | None => Err
       end.

(** conditions_tree.go:673-701 (Condition).PrepareAndValidate *)
Definition prepare_condition (p : predef) (c : cond) : res cond :=
  do c <- replace_in_condition p c;
  do c <- validate_condition L c;
  do c <- convert_condition c;
  if j_is (c_jp c) then
    do q <- prepare_query (j_query (c_jp c));
    Ok (mkCond (c_attr c) (c_method c) (c_value c) (c_num c) (c_lab c) (c_obj c)
          (mkJp (j_is (c_jp c)) (j_rel (c_jp c)) (j_query (c_jp c)) q) (c_ret c) (c_orig c))
  else Ok c.

(** conditions_tree.go:365-382 and 551-568: the part of Any/All.PrepareAndValidate after the inner
    node was prepared; queries are appended to the existing ones *)
Definition prepare_aa (a : aanode L) : res (aanode L) :=
  let parents := split_char "," (a_parent a) in
  do qs <- rmapM prepare_query parents;
  Ok (mkAA (a_parent a) parents (a_orig a) (a_ret a) (a_prep a ++ qs)%list).

(** sequence of the children's outcomes, stopping at the first error or panic *)
Fixpoint rseq {A} (l : list (res A)) : res (list A) :=
  match l with
  | [] => Ok []
  | r :: l' => do a <- r; do al <- rseq l'; Ok (a :: al)
  end.

(** PrepareAndValidate: conditions_tree.go:142-150 (And), 206-214 (Or), 233-238 (Not),
    365-382 (Any), 551-568 (All), 635-637, 655-657 (True, False), 673-701 (Condition).
    A nil inner node is a nil-interface method call: panic.
    Simplification: on an error the Go code leaves the tree partly updated; the model returns only
    the error (the tree being prepared is a private copy that is then dropped). *)
Fixpoint prepare_node (p : predef) (n : node) : res node :=
  match n with
  | NAnd ns => rmap NAnd (rseq (map (prepare_node p) ns))
  | NOr ns => rmap NOr (rseq (map (prepare_node p) ns))
  | NNot m => rmap NNot (prepare_node p m)
  | NQuant q a m =>
    do m' <- prepare_node p m;
    do a' <- prepare_aa a;
    Ok (NQuant q a' m')
  | NTrue => Ok NTrue
  | NFalse => Ok NFalse
  | NCond c => rmap NCond (prepare_condition p c)
  | NNil => Panic
  end.

(** rules_load.go:239-250 and 252-263: one name *)
Definition replace_name (p : predef) (name : string) : res string :=
  match replaceable_list name p with
  | (Some l, _) => Ok (join "," l)
  | (None, isref) =>
    match replaceable_string name p with
    | Some v => Ok v
    | None => if isref then Err else Ok name
    end
  end.

(** rules_load.go:237-265 ReplaceStringsAndListsInOneRule *)
Definition replace_in_rule (p : predef) (r : rule) : res rule :=
  do s <- replace_name p (ru_sender_name r);
  do v <- replace_name p (ru_receiver_name r);
  Ok (mkRule (ru_id r) s (ru_sender_type r) (ru_sender_list r)
        v (ru_receiver_type r) (ru_receiver_list r)
        (ru_protocol r) (ru_resource_type r) (ru_resource_name r) (ru_resource_regex r)
        (ru_operation r) (ru_tree r) (ru_decision r) (ru_metadata r) (ru_hash r)
        (ru_operation_regex r) (ru_converted r)).

(** rules_load.go:147-180 ConvertFieldsToRegex *)
Definition convert_fields (r : rule) : res rule :=
  if ru_converted r then Ok r else
  do sl <- expand L (ru_sender_name r) (ru_sender_type r);
  do rl <- expand L (ru_receiver_name r) (ru_receiver_type r);
  match re_compile L (convert_operation (ru_operation r)) with
  | None => Err
  | Some ore =>
    match re_compile L (convert_string_to_regex (ru_resource_name r) "WithWildcards") with
    | None => Err
    | Some rre =>
      Ok (mkRule (ru_id r) (ru_sender_name r) (ru_sender_type r) sl
            (ru_receiver_name r) (ru_receiver_type r) rl
            (ru_protocol r) (ru_resource_type r) (ru_resource_name r) (Some rre)
            (ru_operation r) (ru_tree r) (ru_decision r) (ru_metadata r) (ru_hash r)
            (Some ore) true)
    end
  end.

Definition set_tree (r : rule) (t : option node) : rule :=
  mkRule (ru_id r) (ru_sender_name r) (ru_sender_type r) (ru_sender_list r)
    (ru_receiver_name r) (ru_receiver_type r) (ru_receiver_list r)
    (ru_protocol r) (ru_resource_type r) (ru_resource_name r) (ru_resource_regex r)
    (ru_operation r) t (ru_decision r) (ru_metadata r) (ru_hash r)
    (ru_operation_regex r) (ru_converted r).

(** rules_load.go:215-235 PrepareOneRuleWithPredefinedStrings *)
Definition prepare_rule (p : predef) (r : rule) : res rule :=
  do r <- (match ru_tree r with
           | None => Ok r
           | Some t => do t' <- prepare_node p t; Ok (set_tree r (Some t'))
           end);
  do r <- replace_in_rule p r;
  convert_fields r.

End WithLib.
