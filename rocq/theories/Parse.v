(** Loading of condition trees: conditions_tree.go:706-984, definitions_rule.go:132-239 *)
From Coq Require Import List String Ascii Bool Arith ZArith.
From Verif Require Import Base GoStr GoFloat Types Json StrUtils Validate Prepare.
Import ListNotations.
Open Scope string_scope.

(** Computations that iterate over maps: the counter numbers the iterations. *)
Definition P (A : Type) := nat -> res A * nat.
Definition pret {A} (r : res A) : P A := fun t => (r, t).
Definition pbind {A B} (x : P A) (f : A -> P B) : P B :=
  fun t => match x t with
           | (Ok a, t') => f a t'
           | (Err, t') => (Err, t')
           | (Panic, t') => (Panic, t')
           end.
Notation "'pdo' x <- e ; k" := (pbind e (fun x => k))
  (at level 200, x pattern, e at level 100, k at level 200, right associativity).

(** [for k := range m]: the keys in the order chosen for this iteration *)
Definition prange {A} (ord : order) (m : list (string * A)) : P (list string) :=
  fun t => (Ok (ord t (keys m)), S t).

Section WithLib.
Variable L : Lib.
Variable ord : order.
Notation cond := (cond L).
Notation node := (node L).

(** definitions_rule.go:124-130 ConditionNode (its ReturnValueJsonpathOriginal is never filled) *)
Record condnode := mkCondnode {
  cn_attr : string; cn_method : string; cn_value : string;
  cn_ret : option (list (string * string))
}.

(** the value as a string: Go type assertion [val.(string)] *)
Definition as_string (v : iface) : res string :=
  match v with GStr s => Ok s | _ => Panic end.

(** definitions_rule.go:184-194: entries of a return-value map *)
Definition strings_of_map (m : list (string * iface)) : res (list (string * string)) :=
  rmapM (fun kv => do s <- as_string (snd kv); Ok (fst kv, s)) m.

(** conditions_tree.go:917-923 mapInterfaceToMapString *)
Fixpoint map_to_string_keys {A} (m : list (iface * A)) (acc : list (string * A)) : res (list (string * A)) :=
  match m with
  | [] => Ok acc
  | (k, v) :: m' => do s <- as_string k; map_to_string_keys m' (upsert s v acc)
  end.

(** definitions_rule.go:167-198 ReadCondition.  The iteration order over the map is irrelevant here
    (a recognised condition has one key per field, and every failure is the same panic), so
    the entries are visited in list order. *)
Fixpoint read_condition (v : list (string * iface)) (c : condnode) : res condnode :=
  match v with
  | [] => Ok c
  | (k, val) :: v' =>
    do c' <-
      (if is_any k ["attribute"; "Attribute"] then
         do s <- as_string val; Ok (mkCondnode s (cn_method c) (cn_value c) (cn_ret c))
       else if is_any k ["method"; "Method"] then
         do s <- as_string val; Ok (mkCondnode (cn_attr c) s (cn_value c) (cn_ret c))
       else if is_any k ["value"; "Value"] then
         Ok (mkCondnode (cn_attr c) (cn_method c) (go_fmt L val) (cn_ret c))
       else if is_any k ["returnValueJsonpath"; "ReturnValueJsonpath"] then
         do m <- (match val with
                  | GMapS m => strings_of_map m
                  | GMapI m => do m' <- map_to_string_keys m []; strings_of_map m'
                  | _ => Ok []
                  end);
         Ok (mkCondnode (cn_attr c) (cn_method c) (cn_value c) (Some m))
       else Ok c);
    read_condition v' c'
  end.

(** definitions_rule.go:208-239 isConditionNode *)
Definition is_condition_node {A} (v : list (string * A)) : bool :=
  let ks := keys v in
  let has a b := contains_string ks a || contains_string ks b in
  let att := has "Attribute" "attribute" in
  let met := has "Method" "method" in
  let val := has "Value" "value" in
  let val2 := has "ValueInt" "valueInt" in
  let val3 := has "ValueFloat" "valueFloat" in
  let extra := if has "ReturnValueJsonpath" "returnValueJsonpath" then 1%nat else 0%nat in
  let n := List.length ks in
  ((n =? 2 + extra)%nat && att && met)
  || ((n =? 3 + extra)%nat && att && met && val)
  || ((n =? 4 + extra)%nat && att && met && val && val2)
  || ((n =? 4 + extra)%nat && att && met && val && val3)
  || ((n =? 5 + extra)%nat && att && met && val && val2 && val3).

(** definitions_rule.go:145-161: the return values of a plain condition.  The second Replace (line 151)
    starts again from the original text, so the first one (line 150) is lost. *)
Definition cond_ret_path (v : string) : string := replace_first v "jsonpath:$" "$".

(** definitions_rule.go:132-165 ConditionFromConditionNode; deepcopy of a map[string]string
    is the identity *)
Definition condition_from_node (c : condnode) : cond :=
  let ret :=
    match cn_ret c with
    | None => mkRet None None [] []
    | Some m =>
      mkRet (Some (map (fun kv => (fst kv, cond_ret_path (snd kv))) m))
            (Some m)
            (map (fun kv => (fst kv, jp_prepare L (cond_ret_path (snd kv)))) m)
            (map (fun kv => (fst kv, has_prefix (snd kv) "jsonpath:$RELATIVE")) m)
    end in
  mkCond (cn_attr c) (cn_method c) (cn_value c) no_num no_lab no_obj no_jp ret no_orig.

(** conditions_tree.go:966-984 getNodeByParentString and Append of the given children
    (Append on NOT keeps the last one, conditions_tree.go:230-232) *)
Definition node_by_parent (parent : string) (children : list node) : res node :=
  if is_any parent ["AND"] then Ok (NAnd children)
  else if is_any parent ["OR"] then Ok (NOr children)
  else if is_any parent ["NOT"] then Ok (NNot (last children NNil))
  else Err.

(** conditions_tree.go:787-806 getNodeCondition, 936-947 prepareOneConditionNode *)
Definition node_condition (v : list (string * iface)) (parent : string) : res node :=
  do cn <- read_condition v (mkCondnode "" "" "" None);
  do c <- validate_condition L (condition_from_node cn);
  if is_any parent [""; "condition"; "conditionsTree"] then Ok (NCond c)
  else node_by_parent parent [NCond c].

(** conditions_tree.go:904-915 isValidParentJsonpathAttribute *)
Definition valid_parent (s : string) : bool :=
  has_prefix s "jsonpath:." || has_prefix s "jsonpath:$." || has_prefix s "jsonpath:$RELATIVE".

(** conditions_tree.go:427-445, 596-615 SetReturnValueJsonpath *)
Definition aa_ret_path (v : string) : string := replace_first v "jsonpath:$RELATIVE" "$".
Definition set_return_values (m : list (string * string)) : retpart L :=
  mkRet (Some (map (fun kv => (fst kv, aa_ret_path (snd kv))) m))
        (Some m)
        (map (fun kv => (fst kv, match prepare_query L (aa_ret_path (snd kv)) with
                                 | Ok q => q | _ => None end)) m)
        (map (fun kv => (fst kv, has_prefix (snd kv) "jsonpath:$RELATIVE")) m).

(** conditions_tree.go:854-862: checks while iterating over the return values *)
Fixpoint check_return_values (m : list (string * iface)) (ks : list string) : res unit :=
  match ks with
  | [] => Ok tt
  | k :: ks' =>
    do s <- as_string (match assoc k m with Some v => v | None => GNil end);
    if has_prefix s "jsonpath:$RELATIVE" then check_return_values m ks' else Err
  end.

(** conditions_tree.go:842-862: the returnValueJsonpath key of ANY/ALL.  The resulting Go map does not
    depend on the iteration order; it is listed in the order of the source map.  SetReturnValueJsonpath
    is only called inside the loop, so an empty map leaves the field nil. *)
Definition aa_return (val : iface) (old : retpart L) : P (retpart L) :=
  pdo m <- pret (match val with
                 | GMapS m => Ok m
                 | GMapI m => map_to_string_keys m []
                 | _ => Err
                 end);
  pdo ks <- prange ord m;
  pdo _ <- pret (check_return_values m ks);
  pret (match m with
        | [] => Ok old
        | _ => do m' <- strings_of_map m; Ok (set_return_values m')
        end).

Definition empty_aa : aanode L := mkAA "" [] "" no_ret [].

(** A map value as seen by the loader: each entry with its recursive interpretation. *)
Definition kids := list (string * (iface * (string -> P node))).
Definition plain (v : kids) : list (string * iface) := map (fun kv => (fst kv, fst (snd kv))) v.

(** conditions_tree.go:833-870: loop over the keys of an ANY/ALL map *)
Fixpoint aa_loop (v : kids) (ks : list string) (a : aanode L) (inner : node) : P (aanode L * node) :=
  match ks with
  | [] => pret (Ok (a, inner))
  | k :: ks' =>
    match assoc k v with
    | None => pret Panic     (* unreachable: the keys come from the map *)
    | Some (val, interp) =>
      if String.eqb k "parentJsonpathAttribute" then
        pdo s <- pret (as_string val);
        if valid_parent s
        then aa_loop v ks' (mkAA (replace_all s "jsonpath:" "") (a_parents a) s (a_ret a) (a_prep a)) inner
        else pret Err
      else if String.eqb k "returnValueJsonpath" then
        pdo r <- aa_return val (a_ret a);
        aa_loop v ks' (mkAA (a_parent a) (a_parents a) (a_orig a) r (a_prep a)) inner
      else
        pdo n <- interp k;
        aa_loop v ks' a n
    end
  end.

(** conditions_tree.go:808-876 isValidAnyAllNode, getAnyAllNode *)
Definition any_all_node (q : quant) (v : kids) : P node :=
  let n := List.length v in
  if negb ((n =? 2)%nat || (n =? 3)%nat) then pret Err else
  if negb (contains_string (keys v) "parentJsonpathAttribute") then pret Err else
  pdo ks <- prange ord v;
  pdo (a, inner) <- aa_loop v ks empty_aa NNil;
  if String.eqb (a_parent a) "" then pret Err else pret (Ok (NQuant q a inner)).

(** conditions_tree.go:750-785 handleMapStringInterface, with 886-902 getNotNode and
    925-934 getNodeValType *)
Definition handle_map (v : kids) (parent : string) : P node :=
  if is_condition_node v then pret (node_condition (plain v) parent)
  else if is_any parent ["ANY"] then any_all_node QAny v
  else if is_any parent ["ALL"] then any_all_node QAll v
  else if is_any parent ["NOT"] then
    match v with
    | [(k, (_, interp))] => pdo n <- interp k; pret (Ok (NNot n))
    | _ => pret Err
    end
  else if is_any parent ["OR"; "AND"; ""; "condition"; "conditions"; "conditionsTree"] then
    match v with
    | [(k, (_, interp))] => interp k
    | _ => pret Err
    end
  else pret Err.

(** conditions_tree.go:956-962: the items of an array, in order *)
Fixpoint pseq {A} (l : list (P A)) : P (list A) :=
  match l with
  | [] => pret (Ok [])
  | x :: l' => pdo a <- x; pdo al <- pseq l'; pret (Ok (a :: al))
  end.

(** conditions_tree.go:949-964 handleInterfaceArray: the parent keyword is looked up first *)
Definition handle_array (items : list (P node)) (parent : string) : P node :=
  if is_any parent ["AND"; "OR"; "NOT"] then
    pdo ns <- pseq items; pret (node_by_parent parent ns)
  else pret Err.

(** conditions_tree.go:716-741 InterpretNode, 743-748 handleMapInterfaceInterface *)
Fixpoint interpret (v : iface) (parent : string) : P node :=
  match v with
  | GMapS m => handle_map (map (fun kv => (fst kv, (snd kv, interpret (snd kv)))) m) parent
  | GMapI m =>
    pdo m' <- pret (map_to_string_keys (map (fun kv => (fst kv, (snd kv, interpret (snd kv)))) m) []);
    handle_map m' parent
  | GArr l =>
    if String.eqb parent "" then
      match l with
      | [x] => interpret x ""
      | _ => pret Err
      end
    else handle_array (map (fun x => interpret x "") l) parent
  | _ => pret Err
  end.

(** conditions_tree.go:706-714 ParseConditionsTree *)
Definition parse_conditions_tree (v : iface) : P node := interpret v "".

(** conditions_tree.go:39-65 (ConditionsTree).UnmarshalJSON; [Ok None] is a nil tree *)
Definition unmarshal_json_tree (data : string) : P (option node) :=
  if String.eqb data "{}" || String.eqb data "[]" then pret (Ok None)
  else match json_parse L data with
       | None => pret Err
       | Some v => pdo n <- parse_conditions_tree v; pret (Ok (Some n))
       end.

(** conditions_tree.go:22-37 (ConditionsTree).UnmarshalYAML on the already decoded value *)
Definition unmarshal_yaml_tree (v : iface) : P (option node) :=
  pdo n <- parse_conditions_tree v; pret (Ok (Some n)).

End WithLib.
