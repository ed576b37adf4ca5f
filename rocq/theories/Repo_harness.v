(** How the repository's own tests are run on the model over the reference library.  Tests, not theorems. *)
From Coq Require Import List String Ascii Bool Arith ZArith.
From Verif Require Import Base GoStr GoFloat Types Json StrUtils Validate Prepare Parse Marshal Lifecycle Eval Check
  Messages Strings Mongo Spec_MongoMatch Spec_Pipeline RefLib Samples.
Import ListNotations.
Open Scope string_scope.

(** a float64 from its text *)
Definition fl (s : string) : f64 := the f_zero (ref_parse_float s).

(** a rule in a YAML file *)
Record written := mkYR {
  y_id : string; y_sender_name : string; y_sender_type : string; y_receiver_name : string; y_receiver_type : string;
  y_protocol : string; y_resource_type : string; y_resource_name : string; y_operation : string; y_decision : string;
  y_hash : string; y_metadata : list (string * string); y_tree : option iface }.
Definition with_tree (y : written) (t : option (node RefLib)) : rule RefLib :=
  mkRule (y_id y) (y_sender_name y) (y_sender_type y) [] (y_receiver_name y) (y_receiver_type y) [] (y_protocol y)
    (y_resource_type y) (y_resource_name y) None (y_operation y) t (y_decision y) (y_metadata y) (y_hash y) None false.
Definition tree_from (r : option (node RefLib) -> rule RefLib) (p : P (option (node RefLib))) : res (rule RefLib) :=
  match fst (p 0) with Ok t => Ok (r t) | Err => Err | Panic => Panic end.

(** the rule read by the YAML library, and by the JSON library after conversion to JSON *)
Definition from_yaml (y : written) : res (rule RefLib) :=
  match y_tree y with
  | None => Ok (with_tree y None)
  | Some v => tree_from (with_tree y) (unmarshal_yaml_tree RefLib in_order v)
  end.
Fixpoint to_json (v : iface) : iface :=
  match v with
  | GInt z => GFloat (f64_of_Z z)
  | GArr l => GArr (map to_json l)
  | GMapI l => GMapS (map (fun kx => (match fst kx with
                                      | GStr s => s
                                      | GInt z => fmt_int z
                                      | GBool b => if b then "true" else "false"
                                      | _ => "?" end, to_json (snd kx))) l)
  | v => v
  end.
Definition from_json (y : written) : res (rule RefLib) :=
  match y_tree y with
  | None => Ok (with_tree y None)
  | Some v => match json_marshal RefLib (to_json v) with
              | None => Err
              | Some s => tree_from (with_tree y) (unmarshal_json_tree RefLib in_order s)
              end
  end.
Definition all_from_yaml (ys : list written) : res (list (rule RefLib)) := rseq (map from_yaml ys).
Definition isOk {A} (r : res A) : bool := match r with Ok _ => true | _ => false end.
Definition loads (ys : list written) : bool := isOk (all_from_yaml ys).
Definition text_loads (s : string) : bool := isOk (fst (unmarshal_json_tree RefLib in_order s 0)).

(** LoadRules with predefined strings and lists *)
Definition loaded (p : predef) (ys : list written) : res (list (rstate RefLib)) :=
  do rs <- all_from_yaml ys;
  do p' <- validate_predef p;
  fst (load_with_predefined RefLib in_order p' rs 0).

(** what a test expects *)
Inductive expect :=
| Decides (message decision : nat)
| Holds (message rule : nat) (b : bool)
| Valid (b : bool)
| Fails
| Works
| Reports (n : nat)
| ReportsAt (i n : nat)
| Returns (i : nat) (k v : string)
| ReturnsJson (i : nat) (k v : string)
| Same (i j : nat)
| Differ (i j : nat)
| Sender (s : string)
| Receiver (s : string)
| Tree (s : string).

Definition bytes_or_value (m : message) (d : string) : message :=
  match json_parse RefLib d with Some v => set_raw m (Some v) | None => set_json m (Some d) end.
Definition outcome_of (rs : list (rstate RefLib)) (m : message) : option outcome :=
  fst (check RefLib in_order empty_predef rs (mkEst m 0)).
Definition extra_text (e : extra) : string := the "?" (json_marshal RefLib (GArr (map GMapS e))).
Definition numbers (l : list nat) : string := String.concat "," (map (fun n => fmt_int (Z.of_nat n)) l).
Definition outcome_text (o : option outcome) : string :=
  match o with
  | None => "panic"
  | Some o => numbers [out_decision o] ++ "|" ++ out_string o ++ "|" ++ fmt_int (out_index o) ++ "|"
                ++ numbers (out_applied o) ++ "|" ++ String.concat "," (map extra_text (out_extra o))
  end.

Definition first_extra (os : list (option outcome)) : extra :=
  match os with Some o :: _ => hd [] (out_extra o) | _ => [] end.
Definition shown (r : rule RefLib) : string :=
  match ru_tree r with Some n => the "?" (node_string RefLib n) | None => "" end.
Definition first_prepared (rs : list (rstate RefLib)) (f : rule RefLib -> string) (s : string) : bool :=
  match rs with
  | x :: _ => match get_prepared RefLib x with Some r => String.eqb (f r) s | None => false end
  | [] => false
  end.
Definition meets (rs : list (rstate RefLib)) (os : list (option outcome)) (e : expect) : bool :=
  match e with
  | Decides m d => match nth_error os m with Some (Some o) => Nat.eqb (out_decision o) d | _ => false end
  | Works => true
  | Reports n => Nat.eqb (List.length (first_extra os)) n
  | ReportsAt i n => match nth_error (first_extra os) i with Some x => Nat.eqb (List.length x) n | None => false end
  | Returns i k v => match nth_error (first_extra os) i with
                     | Some x => match assoc k x with Some (GStr t) => String.eqb t v | _ => false end
                     | None => false
                     end
  | ReturnsJson i k v => match nth_error (first_extra os) i with
                         | Some x => match assoc k x, json_parse RefLib v with
                                     | Some t, Some u => String.eqb (the "?" (json_marshal RefLib t)) (the "!" (json_marshal RefLib u))
                                     | _, _ => false
                                     end
                         | None => false
                         end
  | Sender s => first_prepared rs (@ru_sender_name RefLib) s
  | Receiver s => first_prepared rs (@ru_receiver_name RefLib) s
  | Tree s => first_prepared rs shown s
  | _ => false
  end.
(** the rules are refused when the test expects that *)
Definition refused (es : list expect) : bool := forallb (fun e => match e with Fails => true | _ => false end) es.

(** check_test.go test_CheckMessages… *)
Definition messages_test (p : predef) (ys : list written) (ms : list message) (es : list expect) : bool :=
  match loaded p ys, complete_messages RefLib ms with
  | Ok rs, Ok ms => forallb (meets rs (map (outcome_of rs) ms)) es
  | Err, _ => refused es
  | _, _ => false
  end.
(** test_CheckMessagesWithRawData…: as bytes and as a parsed document, with the same outcome *)
Definition document_test (p : predef) (ys : list written) (ms : list message) (d : string) (es : list expect) : bool :=
  match loaded p ys, complete_messages RefLib ms with
  | Ok rs, Ok ms =>
    forallb (fun m => String.eqb (outcome_text (outcome_of rs (set_json m (Some d))))
                                 (outcome_text (outcome_of rs (bytes_or_value m d)))) ms
    && forallb (meets rs (map (fun m => outcome_of rs (set_json m (Some d))) ms)) es
    && forallb (meets rs (map (fun m => outcome_of rs (bytes_or_value m d)) ms)) es
  | Err, _ => refused es
  | _, _ => false
  end.
(** test_ConditionsWithJsonRaw *)
Definition condition_holds (s : rstate RefLib) (m : message) : option bool :=
  match fst (test_conditions RefLib in_order empty_predef s (mkEst m 0)) with Some ((b, _), _) => Some b | None => None end.
Definition conditions_test (ys : list written) (ms : list message) (d : string) (es : list expect) : bool :=
  match loaded empty_predef ys, complete_messages RefLib ms with
  | Ok rs, Ok ms =>
    forallb (fun e => match e with
      | Holds i j b => match nth_error ms i, nth_error rs j with
                       | Some m, Some s =>
                         match condition_holds s (set_json m (Some d)), condition_holds s (bytes_or_value m d) with
                         | Some x, Some y => Bool.eqb x b && Bool.eqb y b
                         | _, _ => false
                         end
                       | _, _ => false
                       end
      | _ => false
      end) es
  | _, _ => false
  end.
(** test_RuleValidity *)
Definition validity_test (ys : list written) (es : list expect) : bool :=
  forallb (fun e => match e with
    | Valid b => Bool.eqb (isOk (loaded empty_predef ys)) b
    | Fails => negb (isOk (loaded empty_predef ys))
    | Works => isOk (loaded empty_predef ys)
    | _ => false
    end) es.

(** the text that is hashed *)
Definition hashed (r : res (rule RefLib)) : option string := match r with Ok r => rule_string RefLib r | _ => None end.
Definition same_text (a b : option string) : bool :=
  match a, b with Some x, Some y => String.eqb x y | _, _ => false end.
(** test_MD5Hash *)
Definition hash_test (ys : list written) (es : list expect) : bool :=
  let h := map (fun y => hashed (from_yaml y)) ys in
  forallb (fun e => match e with
    | Same i j => same_text (nth i h None) (nth j h None)
    | Differ i j => negb (same_text (nth i h None) (nth j h None))
    | _ => false
    end) es.

(** conditions_tree_test.go *)
Definition first_rule (ys : list written) : res (rule RefLib) := match ys with y :: _ => from_yaml y | [] => Err end.
Definition shown_test (ys : list written) (s : string) : bool :=
  match first_rule ys with Ok r => String.eqb (shown r) s | _ => false end.
Definition has_tree (ys : list written) : bool :=
  match first_rule ys with Ok r => match ru_tree r with Some _ => true | None => false end | _ => false end.
Definition yaml_and_json (ys : list written) : bool :=
  match ys with y :: _ => same_text (hashed (from_yaml y)) (hashed (from_json y)) | [] => false end.
Definition same_hash (xs ys : list written) : bool := same_text (hashed (first_rule xs)) (hashed (first_rule ys)).

(** unmarshal_test.go: reading, copying and preparing, in all the ways of the test, keep the hash; it
    may change once, when predefined strings are replaced *)
Definition copied (r : res (rule RefLib)) : res (rule RefLib) := do r <- r; fst (copy_rule RefLib in_order r 0).
Definition prepared (p : predef) (r : res (rule RefLib)) : res (rule RefLib) :=
  do r <- r; do rs <- prepare_rules RefLib p [r]; match rs with [x] => Ok x | _ => Err end.
Definition all_same (l : list (option string)) : bool :=
  match l with x :: l' => same_text x x && forallb (same_text x) l' | [] => true end.
Definition copies_test (same : bool) (p : predef) (ys : list written) : bool :=
  match validate_predef p with Ok p => forallb (fun y =>
    let a := from_yaml y in
    let b := from_json y in
    let before := [a; b; copied a; copied b; copied (copied a); copied (copied b)] in
    let after := map (prepared p) before in
    let again := map copied after in
    let later := (after ++ again ++ map (prepared p) again ++ map (prepared p) (map copied again))%list in
    if same then all_same (map hashed (before ++ later)%list)
    else all_same (map hashed before) && all_same (map hashed later)) ys
  | _ => false end.

(** mongo_plugin_test.go: the collection holds one document *)
Definition query_of (prefix : string) (s : rstate RefLib) : res mongo_result :=
  let '(o, _, _) := rule_to_mongo RefLib in_order empty_predef prefix s 0 in o.
Definition states (ys : list written) : res (list (rstate RefLib)) :=
  do rs <- all_from_yaml ys; Ok (map (load_rule RefLib) rs).
Definition finds (q : mongo_result) (d : iface) : bool := match aggregates RefLib q d with Kept _ => true | _ => false end.
(** a file that is not JSON is not stored *)
Definition query_test (prefix d : string) (ys : list written) (b : bool) : bool :=
  match states ys with
  | Ok (s :: _) =>
    match query_of prefix s with
    | Ok q => Bool.eqb b (match json_parse RefLib d with
                          | Some v => finds q (GMapS [("id", GStr "x"); ("raw", v)])
                          | None => false
                          end)
    | _ => false
    end
  | _ => false
  end.
Definition no_query (prefix : string) (ys : list written) : bool :=
  match states ys with
  | Ok rs => existsb (fun s => match query_of prefix s with Err => true | _ => false end) rs
  | Err => true
  | Panic => false
  end.
Definition queries_test (ys : list written) : bool :=
  match states ys with
  | Ok rs => forallb (fun s => match ru_tree (rs_rule s), query_of "raw" s with
                               | None, Ok (Simple (BDoc [])) => true
                               | Some _, Ok _ => true
                               | _, _ => false
                               end) rs
  | _ => false
  end.

(** string_utils_test.go *)
Definition quotes_test (l : list (string * string)) : bool :=
  forallb (fun x => String.eqb (remove_dot_quotes (fst x)) (snd x)) l.

(** the lines of the tests that do not hold *)
Definition failing (l : list (Z * bool)) : list Z := map fst (filter (fun x => negb (snd x)) l).
