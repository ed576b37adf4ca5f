(** validate_conditions.go *)
From Coq Require Import List String Ascii Bool Arith ZArith.
From Verif Require Import Base GoStr GoFloat Types StrUtils.
Import ListNotations.
Open Scope string_scope.

(** validate_conditions.go:11-16 *)
Definition supported_methods : list string :=
  ["ge"; "GE"; "gt"; "GT"; "le"; "LE"; "lt"; "LT"; "re"; "RE"; "nre"; "NRE"; "in"; "IN"; "nin"; "NIN";
   "eq"; "EQ"; "neq"; "NEQ"; "ne"; "NE"; "ex"; "EX"; "nex"; "NEX"; "IS"].
Definition regex_methods : list string := ["re"; "nre"; "RE"; "NRE"].
Definition number_methods : list string := ["ge"; "GE"; "gt"; "GT"; "le"; "LE"; "lt"; "LT"].
Definition attribute_prefixes : list string :=
  ["$sender."; "$receiver."; "senderLabel["; "receiverLabel["; "jsonpath:"].
Definition attribute_names : list string :=
  ["true"; "TRUE"; "false"; "FALSE"; "payloadSize"; "requestUseragent"; "utcHoursFromMidnight";
   "encryptionType"; "encryptionVersion"; "domain"].
Definition encryption_version_methods : list string :=
  ["eq"; "lt"; "le"; "gt"; "ge"; "EQ"; "LT"; "LE"; "GT"; "GE"].

Definition opt_char_is (o : option ascii) (c : ascii) : bool :=
  match o with Some a => Ascii.eqb a c | None => false end.

(** validate_conditions.go:99-125 validateArraysWithIndex.  [start] is startIndex, [i] the loop
    index, [fuel] the number of remaining characters; None is a run-time panic. *)
Fixpoint validate_arrays_from (att : string) (start i : Z) (s : string) : option bool :=
  match s with
  | EmptyString => Some true
  | String c s' =>
    let start := if Ascii.eqb c "[" then i else start in
    if Ascii.eqb c "]" then
      match slice att (start + 1) i with
      | None => None
      | Some inside =>
        match first_char inside with
        | None => None                      (* insideBrackets[0] *)
        | Some f =>
          let l := last_char inside in
          if Ascii.eqb f dq && opt_char_is l dq then validate_arrays_from att start (i + 1) s'
          else if Ascii.eqb f sq && opt_char_is l sq then validate_arrays_from att start (i + 1) s'
          else match parse_int inside with
               | None => Some false
               | Some n => if (n <? 0)%Z then Some false
                           else validate_arrays_from att start (i + 1) s'
               end
        end
      end
    else validate_arrays_from att start (i + 1) s'
  end.
Definition validate_arrays_with_index (att : string) : option bool :=
  validate_arrays_from att 0 0 att.

(** validate_conditions.go:58-83: the jsonpath part of validateAttribute *)
Definition validate_jsonpath (att : string) : res unit :=
  if negb (has_prefix att "jsonpath:$") && negb (has_prefix att "jsonpath:.") then Err else
  if has_prefix att "jsonpath:$" && negb (has_prefix att "jsonpath:$.")
     && negb (slice_has_prefix ["jsonpath:$RELATIVE."; "jsonpath:$KEY"; "jsonpath:$VALUE"] att)
     && negb (String.eqb att "jsonpath:$RELATIVE") then Err else
  if has_prefix att "jsonpath:$KEY." then Err else
  if contains att "[:]" then Err else
  if contains att "[]" then Err else
  match validate_arrays_with_index att with
  | None => Panic
  | Some true => Ok tt
  | Some false => Err
  end.

(** validate_conditions.go:179-207 validateConditionOnLabels *)
Definition label_format_ok (s : string) : bool :=
  negb (index s "]" <? Z.of_nat (String.length s) - 1)%Z.
Definition validate_labels (att method value : string) : res unit :=
  if (index att "senderLabel[" =? 0)%Z && (negb (label_format_ok att) || contains_string number_methods method)
  then Err else
  if (index att "receiverLabel[" =? 0)%Z && (negb (label_format_ok att) || contains_string number_methods method)
  then Err else
  if (index value "receiverLabel[" =? 0)%Z && negb (label_format_ok value)
  then Err else Ok tt.

(** validate_conditions.go:209-223 validateConditionOnSenderReceiverAttributes *)
Definition validate_objects (att method : string) : res unit :=
  if has_prefix att "$sender." && contains_string number_methods method then Err else
  if has_prefix att "$receiver." && contains_string number_methods method then Err else
  Ok tt.

(** validate_conditions.go:38-97 validateAttribute *)
Definition validate_attribute (att method value : string) : res unit :=
  let flag := existsb (String.eqb att) attribute_names
              || existsb (fun p => (index att p =? 0)%Z) attribute_prefixes in
  if negb flag then Err else
  if String.eqb att "encryptionVersion" && negb (contains_string encryption_version_methods method)
  then Err else
  do _ <- (if has_prefix att "jsonpath:" then validate_jsonpath att else Ok tt);
  do _ <- validate_labels att method value;
  validate_objects att method.

(** rules_load.go:334-337 = validate_conditions.go:137-140: a list as alternatives *)
Definition list_to_alternatives (value : string) : string :=
  let s := replace_all value "[" "" in
  let s := replace_all s "]" "" in
  let s := replace_all s "," "$|^" in
  "^" ++ s ++ "$".

Section WithLib.
Variable L : Lib.

Definition is_some {A} (o : option A) : bool := match o with Some _ => true | None => false end.

(** validate_conditions.go:127-148 validateMethod *)
Definition validate_method (method value : string) : res unit :=
  if negb (contains_string supported_methods method) then Err else
  if is_any method ["IN"; "NIN"] then
    if (String.length value =? 0)%nat then Err else
    if is_some (re_compile L (list_to_alternatives value)) then Ok tt else Err
  else Ok tt.

(** string value with units to float64: validate_conditions.go:152-155, rules_load.go:348-350 *)
Definition float_with_units (s : string) : option f64 :=
  let (t, factor) := convert_string_with_units s in
  match parse_float L t with
  | Some x => Some (fmul x factor)
  | None => None
  end.

(** [if err == nil { field = &v }]: keep the old content otherwise *)
Definition or_else {A} (n o : option A) : option A := match n with Some _ => n | None => o end.

(** validate_conditions.go:150-177 convertAndValidateNumericalValues *)
Definition validate_numerical (c : cond L) : res (cond L) :=
  let f := float_with_units (c_value c) in
  let i := parse_int (c_value c) in
  let num := mkNum (or_else i (n_int (c_num c))) (or_else f (n_float (c_num c)))
                   (n_regex (c_num c)) (n_string_regex (c_num c)) in
  if negb (is_some f || is_some i) && contains_string number_methods (c_method c) then Err else
  if negb (is_some (re_compile L (c_value c))) && contains_string regex_methods (c_method c) then Err else
  Ok (mkCond (c_attr c) (c_method c) (c_value c) num (c_lab c) (c_obj c) (c_jp c) (c_ret c) (c_orig c)).

(** validate_conditions.go:19-36 ValidateOneCondition *)
Definition validate_condition (c : cond L) : res (cond L) :=
  do _ <- validate_attribute (c_attr c) (c_method c) (c_value c);
  do _ <- validate_method (c_method c) (c_value c);
  validate_numerical c.

End WithLib.
