(** Evaluation of condition trees: check.go:265-1123, conditions_tree.go:125-237, 291-357, 502-545 *)
From Coq Require Import List String Ascii Bool Arith ZArith.
From Verif Require Import Base GoStr GoFloat Types Json StrUtils Validate.
Import ListNotations.
Open Scope string_scope.

(** Evaluation may update the two relative fields of the message and may panic.  The state after a
    panic is the state at that point (a caller may recover). [e_tick] numbers map iterations. *)
Record est := mkEst { e_msg : message; e_tick : nat }.
Definition M (A : Type) := est -> option A * est.
Definition mret {A} (a : A) : M A := fun s => (Some a, s).
Definition mpanic {A} : M A := fun s => (None, s).
Definition mbind {A B} (x : M A) (f : A -> M B) : M B :=
  fun s => match x s with
           | (Some a, s') => f a s'
           | (None, s') => (None, s')
           end.
Notation "'mdo' x <- e ; k" := (mbind e (fun x => k))
  (at level 200, x pattern, e at level 100, k at level 200, right associativity).
(** a result that may be a panic *)
Definition mopt {A} (o : option A) : M A := fun s => (o, s).
Definition mmsg : M message := fun s => (Some (e_msg s), s).
Definition mset (m : message) : M unit := fun s => (Some tt, mkEst m (e_tick s)).

(** [for k := range m] *)
Definition mrange {A} (ord : order) (m : list (string * A)) : M (list string) :=
  fun s => (Some (ord (e_tick s) (keys m)), mkEst (e_msg s) (S (e_tick s))).

Section WithLib.
Variable L : Lib.
Variable ord : order.
Notation cond := (cond L).
Notation node := (node L).

(** ** Comparisons (check.go:790-886). [None] is a nil-pointer panic. *)

(** check.go:790-807 compareIntFunc *)
Definition compare_int (v1 : Z) (method : string) (v2 : option Z) : option bool :=
  let cmp (f : Z -> Z -> bool) := match v2 with Some x => Some (f v1 x) | None => None end in
  if is_any method ["EQ"; "eq"] then cmp Z.eqb
  else if is_any method ["NEQ"; "neq"; "ne"; "NE"] then cmp (fun a b => negb (Z.eqb a b))
  else if is_any method ["LE"; "le"] then cmp Z.leb
  else if is_any method ["LT"; "lt"] then cmp Z.ltb
  else if is_any method ["GE"; "ge"] then cmp (fun a b => Z.leb b a)
  else if is_any method ["GT"; "gt"] then cmp (fun a b => Z.ltb b a)
  else Some false.

(** check.go:809-826 compareFloatFunc *)
Definition compare_float (v1 : f64) (method : string) (v2 : option f64) : option bool :=
  let cmp (f : f64 -> f64 -> bool) := match v2 with Some x => Some (f v1 x) | None => None end in
  if is_any method ["EQ"; "eq"] then cmp feqb
  else if is_any method ["NEQ"; "neq"; "ne"; "NE"] then cmp (fun a b => negb (feqb a b))
  else if is_any method ["LE"; "le"] then cmp fleb
  else if is_any method ["LT"; "lt"] then cmp fltb
  else if is_any method ["GE"; "ge"] then cmp (fun a b => fleb b a)
  else if is_any method ["GT"; "gt"] then cmp (fun a b => fltb b a)
  else Some false.

(** check.go:828-837 compareStringFunc *)
Definition compare_string (v1 method v2 : string) : bool :=
  if is_any method ["EQ"; "eq"] then String.eqb v1 v2
  else if is_any method ["NEQ"; "neq"; "ne"; "NE"] then negb (String.eqb v1 v2)
  else false.

(** check.go:839-865 compareStringWithWildcardsFunc *)
Definition compare_wild (v1 method : string) (v2 : option (RE L)) : bool :=
  if is_any method ["EX"; "ex"] then negb (String.eqb v1 "")
  else if is_any method ["NEX"; "nex"] then String.eqb v1 ""
  else if is_any method ["EQ"; "eq"] then
    match v2 with Some r => re_match L r v1 | None => false end
  else if is_any method ["NEQ"; "neq"; "ne"; "NE"] then
    match v2 with Some r => negb (re_match L r v1) | None => true end
  else false.

(** check.go:867-886 compareRegexFunc *)
Definition compare_regex (v1 method : string) (v2 : option (RE L)) : bool :=
  if is_any method ["RE"; "re"] then
    match v2 with Some r => re_match L r v1 | None => false end
  else if is_any method ["NRE"; "nre"] then
    match v2 with Some r => negb (re_match L r v1) | None => true end
  else false.

(** the method test repeated at check.go:287, 300, 313, 417, 424, 438, 455, 462, 484 *)
Definition is_re_method (method : string) : bool := is_any method ["RE"; "re"; "NRE"; "nre"].

(** check.go:287-291, 300-304, 313-317, 424-428, 438-442 *)
Definition compare_text_attr (c : cond) (v : string) : bool :=
  if is_re_method (c_method c) then compare_regex v (c_method c) (n_regex (c_num c))
  else compare_wild v (c_method c) (n_string_regex (c_num c)).

(** check.go:770-788 getAttribute; [sender] is sender_receiver == "$sender" *)
Definition get_attribute (sender : bool) (att : string) (m : message) : string :=
  if String.eqb att "namespace" then
    if sender then m_source_namespace m else m_dest_namespace m
  else if String.eqb att "cluster" then
    if sender then m_source_cluster m else m_dest_cluster m
  else "".

(** check.go:409-431 testSenderAttributeCondition *)
Definition test_sender_attr (c : cond) (m : message) : bool :=
  let a := get_attribute true (o_sender_attr (c_obj c)) m in
  if o_value_is_receiver (c_obj c) then
    let v := get_attribute false (o_value_attr (c_obj c)) m in
    if is_re_method (c_method c) then false else compare_string a (c_method c) v
  else compare_text_attr c a.

(** check.go:433-444 testReceiverAttributeCondition *)
Definition test_receiver_attr (c : cond) (m : message) : bool :=
  compare_text_attr c (get_attribute false (o_receiver_attr (c_obj c)) m).

(** check.go:461-470, 484-491 *)
Definition compare_label (c : cond) (v : string) : bool :=
  if is_re_method (c_method c) then compare_regex v (c_method c) (n_regex (c_num c))
  else if is_any (c_method c) ["EX"; "ex"] then true
  else compare_wild v (c_method c) (n_string_regex (c_num c)).

(** check.go:446-474 testSenderLabelCondition *)
Definition test_sender_label (c : cond) (m : message) : bool :=
  if negb (l_is_sender (c_lab c)) then false else
  match assoc (l_sender_key (c_lab c)) (m_source_labels m) with
  | None => false
  | Some v1 =>
    if l_value_is_receiver (c_lab c) then
      match assoc (l_value_key (c_lab c)) (m_dest_labels m) with
      | None => false
      | Some v2 => if is_re_method (c_method c) then false else compare_string v1 (c_method c) v2
      end
    else compare_label c v1
  end.

(** check.go:476-493 testReceiverLabelCondition *)
Definition test_receiver_label (c : cond) (m : message) : bool :=
  if negb (l_is_receiver (c_lab c)) then false else
  match assoc (l_receiver_key (c_lab c)) (m_dest_labels m) with
  | None => false
  | Some v => compare_label c v
  end.

(** ** JSON-path conditions *)

(** check.go:739-744 whatToReturnInCaseOfEmptyResult, and the same test on an error
    (529-534, 623-628) *)
Definition empty_result (c : cond) : bool := is_any (c_method c) ["NEX"; "nex"].

Definition numeric_methods : list string := ["GE"; "GT"; "LE"; "LT"; "EQ"; "NEQ"; "NE"].

(** check.go:581-586, 685-690 *)
Definition exists_result (method text : string) : bool :=
  if String.eqb text "" then String.eqb method "NEX" else String.eqb method "EX".

(** check.go:536-592: text of the result to truth value, byte backend *)
Definition compare_bytes (c : cond) (text : string) : option bool :=
  if String.eqb text "" then Some (empty_result c) else
  let text := remove_quotes_and_brackets text in
  if String.eqb text "" then Some (empty_result c) else
  match remove_quotes_from_result text with   (* 548-561 is the same code as removeQuotesFromResult *)
  | None => Some false
  | Some text =>
    let method := to_upper (c_method c) in
    if is_any method numeric_methods then
      match float_with_units L text with
      | None => if is_any method ["EQ"; "NEQ"] then Some (compare_string text (c_method c) (c_value c))
                else Some false
      | Some f => compare_float f (c_method c) (n_float (c_num c))
      end
    else if is_any method ["RE"; "NRE"] then Some (compare_regex text (c_method c) (n_regex (c_num c)))
    else if is_any method ["EX"; "NEX"] then Some (exists_result method text)
    else Some false
  end.

(** check.go:639-696: text of the result to truth value, interface backend *)
Definition compare_iface (c : cond) (text : string) : option bool :=
  if String.eqb text "" || String.eqb text "<nil>" then Some (empty_result c) else
  let text := remove_quotes_and_brackets text in
  if String.eqb text "" then Some (empty_result c) else
  match remove_quotes_from_result text with
  | None => Some false
  | Some text =>
    let method := to_upper (c_method c) in
    if is_any method numeric_methods then
      match n_int (c_num c), n_float (c_num c) with
      | None, None =>
        if is_any method ["EQ"; "NEQ"] then Some (compare_string text (c_method c) (c_value c))
        else Some false
      | _, _ =>
        match float_with_units L text with
        | None => Some (String.eqb method "NEQ")
        | Some f => compare_float f (c_method c) (n_float (c_num c))
        end
      end
    else if is_any method ["RE"; "NRE"] then Some (compare_regex text (c_method c) (n_regex (c_num c)))
    else if is_any method ["EX"; "NEX"] then Some (exists_result method text)
    else Some false
  end.

(** check.go:746-768 getKeyValue; [None] is an error *)
Definition get_key_value (raw att : string) : option string :=
  match json_parse_map L raw with
  | None => None
  | Some [(k, v)] => if String.eqb att "$KEY" then Some k else json_marshal L v
  | Some _ => Some ""
  end.

(** jsonslice.Get with an error as [None] *)
Definition js_get_opt (data path : string) : option string :=
  let '(bytes, failed) := js_get L data path in
  if failed then None else Some bytes.

(** check.go:495-593 testJsonPathCondition *)
Definition test_json_bytes (c : cond) (m : message) : option bool :=
  if negb (j_is (c_jp c)) then Some false else
  let query := j_query (c_jp c) in
  let found : option (option string) :=      (* None: return false; Some None: err != nil *)
    if j_rel (c_jp c) then
      match m_json_rel m with
      | None | Some "" => None
      | Some data =>
        if String.eqb query "$KEY" || has_prefix query "$VALUE" then
          let v := get_key_value data query in
          if has_prefix query "$VALUE." then
            Some (js_get_opt (match v with Some x => x | None => "" end) (replace_first query "$VALUE." "$."))
          else Some v
        else Some (js_get_opt data query)
      end
    else
      match m_json m with
      | None | Some "" => None
      | Some data => Some (js_get_opt data query)
      end in
  match found with
  | None => Some false
  | Some None => Some (empty_result c)
  | Some (Some text) => compare_bytes c text
  end.

(** check.go:728-737 queryInterface: value and whether an error remains *)
Definition query_interface (q : JQ L) (v : iface) : iface * bool :=
  let '(r, err) := jp_query L q v in
  (r, match err with
      | None => false
      | Some e => negb (contains e "not found in JSON object at")
      end).

(** check.go:699-726 getKeyValueFromInterface: value and error flag; the first key visited is used *)
Definition get_key_value_iface (c : cond) (q : JQ L) (v : iface) : M (iface * bool) :=
  match v with
  | GMapS m =>
    mdo ks <- mrange ord m;
    match ks with
    | [] => mret (GNil, false)
    | k :: _ =>
      if String.eqb (j_query (c_jp c)) "$KEY" then mret (GStr k, false)
      else match assoc k m with
           | None => mpanic     (* unreachable: the key comes from the map *)
           | Some x =>
             if String.eqb (j_query (c_jp c)) "$VALUE" then mret (x, false)
             else mret (query_interface q x)
           end
    end
  | _ => mpanic
  end.

(** check.go:630-637: text of an interface value (a marshalling error leaves the empty text) *)
Definition iface_text (v : iface) : string :=
  match v with
  | GMapS _ | GArr _ => match json_marshal L v with Some s => s | None => "" end
  | _ => go_fmt L v
  end.

(** check.go:595-697 testJsonPathConditionOnInterface *)
Definition test_json_iface (c : cond) (q : JQ L) (m : message) : M bool :=
  if negb (j_is (c_jp c)) then mret false else
  let query := j_query (c_jp c) in
  let finish (r : iface * bool) : M bool :=
    if snd r then mret (empty_result c) else mopt (compare_iface c (iface_text (fst r))) in
  if j_rel (c_jp c) then
    match m_raw_rel m with
    | None => mret false
    | Some v =>
      if String.eqb query "$KEY" || has_prefix query "$VALUE"
      then mdo r <- get_key_value_iface c q v; finish r
      else finish (query_interface q v)
    end
  else
    match m_raw m with
    | None => mret false
    | Some v => finish (query_interface q v)
    end.

(** ** Extra data *)

(** m[k] on a Go map *)
Definition get_str (k : string) (m : list (string * string)) : string :=
  match assoc k m with Some s => s | None => "" end.
Definition get_flag (k : string) (m : list (string * bool)) : bool :=
  match assoc k m with Some b => b | None => false end.

(** check.go:358-383: one entry; outer [None] = panic, inner [None] = no entry *)
Definition extra_iface_one (r : retpart L) (m : message) (e : string * option (JQ L))
  : option (option (string * iface)) :=
  let paths := match r_paths r with Some p => p | None => [] end in
  let doc := if get_flag (fst e) (r_rel r) then m_raw_rel m else m_raw m in
  if String.eqb (get_str (fst e) paths) "$*" then
    match doc with None => None | Some d => Some (Some (fst e, d)) end
  else
    match snd e with
    | Some q =>
      match doc with
      | None => None
      | Some d => let '(v, err) := query_interface q d in
                  Some (if err then None else Some (fst e, v))
      end
    | None => Some (Some (fst e, GNil))
    end.

(** Entries of the record, in the order of the map representation (the result is a Go map, so the
    iteration order is irrelevant: keys are distinct and all failures are the same panic). *)
Fixpoint collect {A B} (f : A -> option (option B)) (l : list A) : option (list B) :=
  match l with
  | [] => Some []
  | x :: l' =>
    match f x with
    | None => None
    | Some y =>
      match collect f l' with
      | None => None
      | Some ys => Some (match y with Some b => b :: ys | None => ys end)
      end
    end
  end.

(** check.go:355-385 getExtraDataFromInterface *)
Definition extra_iface (r : retpart L) (m : message) : option (list (string * iface)) :=
  collect (extra_iface_one r m) (r_prep r).

(** check.go:387-407 getExtraDataFromByteArray *)
Definition extra_bytes_one (r : retpart L) (m : message) (e : string * string)
  : option (option (string * iface)) :=
  let doc := if get_flag (fst e) (r_rel r) then m_json_rel m else m_json m in
  match doc with
  | None => None
  | Some d => Some (match json_parse L (fst (js_get L d (snd e))) with
                    | Some v => Some (fst e, v)
                    | None => None
                    end)
  end.
Definition extra_bytes (r : retpart L) (m : message) : option (list (string * iface)) :=
  collect (extra_bytes_one r m) (match r_paths r with Some p => p | None => [] end).

(** check.go:348-353 getExtraData *)
Definition get_extra (c : cond) (m : message) : option (list (string * iface)) :=
  match m_raw m with
  | Some _ => extra_iface (c_ret c) m
  | None => extra_bytes (c_ret c) m
  end.

(** check.go:265-347 testOneCondition *)
Definition test_condition (c : cond) : M (bool * extra) :=
  mdo m <- mmsg;
  let plain (b : bool) : M (bool * extra) := mret (b, []) in
  let plaino (b : option bool) : M (bool * extra) := mdo x <- mopt b; mret (x, []) in
  let att := c_attr c in
  if is_any att ["true"; "TRUE"] then plain true
  else if is_any att ["false"; "FALSE"] then plain false
  else if String.eqb att "payloadSize" then plaino (compare_int (m_size m) (c_method c) (n_int (c_num c)))
  else if String.eqb att "requestUseragent" then plain (compare_text_attr c (m_useragent m))
  else if String.eqb att "utcHoursFromMidnight" then
    plaino (compare_float (m_t_hours m) (c_method c) (n_float (c_num c)))
  else if String.eqb att "encryptionType" then plain (compare_text_attr c (m_enc_type m))
  else if String.eqb att "encryptionVersion" then
    match m_enc_version m with
    | None => mpanic
    | Some v => plaino (compare_float v (c_method c) (n_float (c_num c)))
    end
  else if String.eqb att "domain" then plain (compare_text_attr c (m_domain m))
  else if String.eqb att "$sender" then plain (test_sender_attr c m)
  else if String.eqb att "$receiver" then plain (test_receiver_attr c m)
  else if String.eqb att "senderLabel" then plain (test_sender_label c m)
  else if String.eqb att "receiverLabel" then plain (test_receiver_label c m)
  else if String.eqb att "jsonpath" then
    mdo flag <- (match m_raw m, j_prep (c_jp c) with
                 | Some _, Some q => test_json_iface c q m
                 | _, _ => mopt (test_json_bytes c m)
                 end);
    match r_paths (c_ret c) with
    | Some _ => if flag then mdo e <- mopt (get_extra c m); mret (flag, [e]) else mret (flag, [])
    | None => mret (flag, [])
    end
  else plain false.

(** ** Elements of ANY/ALL *)

(** check.go:900, 976: does the path refer to the current element *)
Definition relative_parent (p : string) : bool :=
  has_prefix p "$RELATIVE." || String.eqb p "$RELATIVE*" || has_prefix p "$KEY." || has_prefix p "$VALUE.".

(** one single-entry object per entry, in iteration order (check.go:906-910, 943-945) *)
Definition singletons (m : list (string * iface)) (ks : list string) : list iface :=
  map (fun k => GMapS [(k, match assoc k m with Some v => v | None => GNil end)]) ks.

(** check.go:951-963: an array of arrays is flattened by one level; any other array is itself *)
Fixpoint flatten_arrays (l : list iface) : option (list iface) :=
  match l with
  | [] => Some []
  | GArr x :: l' => match flatten_arrays l' with Some r => Some (x ++ r)%list | None => None end
  | _ :: _ => None
  end.

(** check.go:938-966 ArrangeArrayInterface *)
Definition arrange (v : iface) : M (list iface) :=
  match v with
  | GMapS m => mdo ks <- mrange ord m; mret (singletons m ks)
  | GNil => mret []
  | GArr l => mret (match flatten_arrays l with Some r => r | None => l end)
  | _ => mpanic
  end.

(** check.go:914-921, 924-931: results of all the parent queries, concatenated *)
Fixpoint query_all (qs : list (option (JQ L))) (doc : option iface) : M (list iface) :=
  match qs with
  | [] => mret []
  | q :: qs' =>
    match q, doc with
    | Some q, Some d =>
      mdo x <- arrange (fst (jp_query L q d));
      mdo xs <- query_all qs' doc;
      mret (x ++ xs)%list
    | _, _ => mpanic
    end
  end.

(** check.go:892-936 getArrayOfInterfaces (never returns an error) *)
Definition elements_iface (a : aanode L) : M (list iface) :=
  mdo m <- mmsg;
  if relative_parent (a_parent a) then
    if String.eqb (a_parent a) "$RELATIVE*" then
      match m_raw_rel m with
      | Some (GMapS x) => mdo ks <- mrange ord x; mret (singletons x ks)
      | _ => mpanic
      end
    else query_all (a_prep a) (m_raw_rel m)
  else query_all (a_prep a) (m_raw m).

(** check.go:977-982 *)
Definition bytes_parent (p : string) : string :=
  let p := replace_first p "$RELATIVE." "$." in
  let p := replace_first p "$KEY." "$." in
  let p := replace_first p "$VALUE." "$." in
  if String.eqb p "$RELATIVE*" then "$*" else p.

(** check.go:975-996: accumulated bytes and whether the last lookup failed; outer [None] = panic.
    Simplification: byte slices are values; the append at line 990 is modelled as a fresh slice. *)
Fixpoint gather (ps : list string) (m : message) (acc : string) (failed : bool) : option (string * bool) :=
  match ps with
  | [] => Some (acc, failed)
  | p :: ps' =>
    let '(doc, path) := if relative_parent p then (m_json_rel m, bytes_parent p) else (m_json m, p) in
    match doc with
    | None => None
    | Some d =>
      match js_get_opt d path with
      | None => gather ps' m acc true
      | Some t =>
        let acc' := if String.eqb acc "" then t
                    else if String.eqb t "" then acc else acc ++ "," ++ t in
        gather ps' m acc' false
      end
    end
  end.

(** check.go:1094-1123 getArrayFromArrayOfArrays; outer [None] = index out of range, [Some None] = error *)
Definition unnest (data : string) : option (option string) :=
  if (String.length data <? 2)%nat then Some (Some data) else
  let d := ugly L data in
  match d with
  | String c0 rest =>
    if negb (Ascii.eqb c0 "[") then Some (Some d) else
    match rest with
    | String c1 _ =>
      if negb (Ascii.eqb c1 "[") then Some (Some d) else
      let d := replace_first d "[[" "[" in
      let d := replace_first d "]]" "]" in
      let d := replace_all d "],[" "," in
      if contains d "[[" || contains d "]]" then Some None else Some (Some d)
    | EmptyString => None
    end
  | EmptyString => None
  end.

(** check.go:1050-1070: scan for top-level { } pairs; [i] index, [c] depth, [start] as in the code
    (None = -1), [rest] the bytes from index i on, [data] the whole array *)
Fixpoint split_objects_from (data rest : string) (i : nat) (c : Z) (start : option nat) : list string :=
  match rest with
  | EmptyString => []
  | String ch rest' =>
    let '(c, start) := if Ascii.eqb ch "{" then ((c + 1)%Z, if (c =? 0)%Z then Some i else start)
                       else (c, start) in
    let c := if Ascii.eqb ch "}" then (c - 1)%Z else c in
    match (c =? 0)%Z, start with
    | true, Some st => take (i + 1 - st) (drop st data) :: split_objects_from data rest' (S i) c None
    | _, _ => split_objects_from data rest' (S i) c start
    end
  end.

(** check.go:1037-1073 getArrayOfJsonsFromInterfaceArray; [None] = error *)
Definition split_objects (data : string) : option (list string) :=
  match data with
  | EmptyString => Some []
  | String ch _ => if Ascii.eqb ch "{" then None else Some (split_objects_from data data 0 0%Z None)
  end.

(** check.go:1075-1092 getArrayOfJsonsFromMapStringInterface; [None] = error *)
Definition objects_of_map (data : string) : M (option (list string)) :=
  match json_parse_map L data with
  | None => mret None
  | Some m =>
    mdo ks <- mrange ord m;
    mret (all_some (map (json_marshal L) (singletons m ks)))
  end.

(** check.go:968-1018 getArrayOfJsons; [None] = error *)
Definition elements_bytes (a : aanode L) : M (option (list string)) :=
  mdo m <- mmsg;
  mdo (data, failed) <- mopt (gather (a_parents a) m "" true);
  if failed then mret None else
  mdo d <- mopt (unnest data);
  match d with
  | None => mret None
  | Some d =>
    match split_objects d with
    | Some l => mret (Some l)
    | None => objects_of_map d
    end
  end.

(** ** Nodes *)

(** conditions_tree.go:125-137 (And).Eval *)
Fixpoint and_loop (es : list (M (bool * extra))) (acc : extra) : M (bool * extra) :=
  match es with
  | [] => mret (true, acc)
  | e :: es' =>
    mdo (flag, x) <- e;
    let acc := match x with [] => acc | _ => x end in
    if flag then and_loop es' acc else mret (false, acc)
  end.

(** conditions_tree.go:186-202 (Or).Eval *)
Fixpoint or_loop (es : list (M (bool * extra))) (out : bool) (acc : extra) : M (bool * extra) :=
  match es with
  | [] => mret (out, acc)
  | e :: es' =>
    mdo (flag, x) <- e;
    or_loop es' (out || flag) (if flag then acc ++ x else acc)%list
  end.

(** conditions_tree.go:311-327, 346-361: loop of ANY.  [set] points the relative field at an element,
    [getx] collects the return values. *)
Fixpoint any_loop {V} (set : V -> M unit) (getx : option (M (list (string * iface)))) (all_values : bool)
    (inner : M (bool * extra)) (vals : list V) (result : bool) (acc : extra) : M (bool * extra) :=
  match vals with
  | [] => mret (result, acc)
  | v :: vals' =>
    mdo _ <- set v;
    mdo (flag, _) <- inner;
    if flag then
      mdo acc <- (match getx with
                  | Some g => mdo x <- g; mret (acc ++ [x])%list
                  | None => mret acc
                  end);
      if all_values then any_loop set getx all_values inner vals' true acc
      else mret (true, acc)
    else any_loop set getx all_values inner vals' result acc
  end.

(** conditions_tree.go:518-527, 540-548: loop of ALL *)
Fixpoint all_loop {V} (set : V -> M unit) (inner : M (bool * extra)) (vals : list V) : M (bool * extra) :=
  match vals with
  | [] => mret (true, [])
  | v :: vals' =>
    mdo _ <- set v;
    mdo (flag, _) <- inner;
    if flag then all_loop set inner vals' else mret (false, [])
  end.

Definition set_raw_relative (v : option iface) : M unit := mdo m <- mmsg; mset (set_raw_rel m v).
Definition set_json_relative (v : option string) : M unit := mdo m <- mmsg; mset (set_json_rel m v).

Definition quant_loop {V} (q : quant) (a : aanode L) (set : V -> M unit)
    (getx : M (list (string * iface))) (inner : M (bool * extra)) (vals : list V) : M (bool * extra) :=
  match q with
  | QAny =>
    any_loop set (match r_paths (a_ret a) with Some _ => Some getx | None => None end)
      (match r_paths (a_ret a) with Some (_ :: _) => true | _ => false end) inner vals false []
  | QAll => all_loop set inner vals
  end.

(** conditions_tree.go:291-333 (Any), 502-535 (All): the field is restored on every normal return *)
Definition quant_iface (q : quant) (a : aanode L) (inner : M (bool * extra)) : M (bool * extra) :=
  mdo vals <- elements_iface a;
  mdo m <- mmsg;
  mdo r <- quant_loop q a (fun v => set_raw_relative (Some v))
             (mdo m <- mmsg; mopt (extra_iface (a_ret a) m)) inner vals;
  mdo _ <- set_raw_relative (m_raw_rel m);
  mret r.

(** conditions_tree.go:334-361 (Any), 536-553 (All) *)
Definition quant_bytes (q : quant) (a : aanode L) (inner : M (bool * extra)) : M (bool * extra) :=
  mdo vals <- elements_bytes a;
  match vals with
  | None => mret (false, [])
  | Some vals =>
    mdo m <- mmsg;
    mdo r <- quant_loop q a (fun v => set_json_relative (Some v))
               (mdo m <- mmsg; mopt (extra_bytes (a_ret a) m)) inner vals;
    mdo _ <- set_json_relative (m_json_rel m);
    mret r
  end.

(** Eval: conditions_tree.go:125-137, 186-202, 226-229, 291-297, 502-508, 629-631, 649-651, 667-669 *)
Fixpoint eval (n : node) : M (bool * extra) :=
  match n with
  | NAnd ns => and_loop (map eval ns) []
  | NOr ns => or_loop (map eval ns) false []
  | NNot n' => mdo (flag, _) <- eval n'; mret (negb flag, [])
  | NQuant q a n' =>
    mdo m <- mmsg;
    match m_raw m, a_prep a with
    | Some _, _ :: _ => quant_iface q a (eval n')
    | _, _ => quant_bytes q a (eval n')
    end
  | NTrue => mret (true, [])
  | NFalse => mret (false, [])
  | NCond c => test_condition c
  | NNil => mpanic
  end.

End WithLib.
