(** Translation of condition trees into MongoDB queries: mongo_plugin.go, rule_mongo_plugin.go *)
From Coq Require Import List String Ascii Bool Arith ZArith.
From Verif Require Import Base GoStr GoFloat Types Json StrUtils Validate Prepare Parse Marshal Lifecycle.
Import ListNotations.
Open Scope string_scope.

(** The bson values the plugin builds.  Simplification: bson.M is a Go map; every literal has distinct
    keys (at most one), so it is a list of pairs. *)
Inductive bson : Type :=
| BStr (s : string)
| BNum (f : f64)
| BBool (b : bool)
| BArr (l : list bson)
| BDoc (m : list (string * bson)).
(** bson.M{k: v} *)
Definition bone (k : string) (v : bson) : bson := BDoc [(k, v)].

(** mongo_plugin.go:252-259: the loop, at most [n] times *)
Fixpoint collapse_dots (n : nat) (s : string) : string :=
  match n with
  | O => s
  | S n' =>
    let s' := replace_all s ".." "." in
    if (count s' ".." =? 0)%nat then s' else collapse_dots n' s'
  end.

(** mongo_plugin.go:231-262 removeQuotes *)
Definition remove_quotes (s : string) : res string :=
  if negb (Nat.even (count s dqs)) || negb (Nat.even (count s sqs)) then Err else
  if negb (count s "[" =? count s "]")%nat then Err else
  let s := replace_all s dqs "" in
  let s := replace_all s sqs "" in
  let s := replace_all s "[" "." in
  let s := replace_all s "]" "" in
  Ok (collapse_dots (count s "..") s).

Section WithLib.
Variable L : Lib.
Variable ord : order.
Notation node := (node L).
Notation cond := (cond L).

(** a query and the pipeline steps to run before it *)
Definition translation := (bson * list bson)%type.

(** mongo_plugin.go:224-229 isNumber and 177-183: the value compared with *)
Definition mongo_value (v : string) : bson :=
  match parse_float L v with
  | Some x => BNum x
  | None => BStr v
  end.

(** mongo_plugin.go:185-219: the query of one condition on [field] *)
Definition method_query (method field value : string) : res bson :=
  let v := mongo_value value in
  let m := to_upper method in
  if String.eqb m "EQ" then Ok (bone field (bone "$eq" v))
  else if is_any m ["NEQ"; "NE"] then Ok (bone field (bone "$ne" v))
  else if String.eqb m "GT" then Ok (bone field (bone "$gt" v))
  else if String.eqb m "GE" then Ok (bone field (bone "$gte" v))
  else if String.eqb m "LT" then Ok (bone field (bone "$lt" v))
  else if String.eqb m "LE" then Ok (bone field (bone "$lte" v))
  else if String.eqb m "EX" then Ok (bone field (bone "$exists" (BBool true)))
  else if String.eqb m "NEX" then Ok (bone field (bone "$exists" (BBool false)))
  else if String.eqb m "RE" then Ok (bone field (bone "$regex" (BStr value)))
  else if String.eqb m "NRE" then
    Ok (bone "$and" (BArr [bone field (bone "$not" (bone "$regex" (BStr value)));
                           bone field (bone "$exists" (BBool true))]))
  else if is_any m ["IN"; "NIN"] then Err
  else Ok (BDoc []).

(** the step of lines 145 and 165: {$addFields: {added: {$objectToArray: "$"+parent}}} *)
Definition add_fields (parent : string) : bson :=
  bone "$addFields" (bone ("addedField." ++ parent) (bone "$objectToArray" (BStr ("$" ++ parent)))).

(** mongo_plugin.go:129-171: field and initial steps.  The prefixes tested exclude each other. *)
Definition mongo_field (base parent : string) (depth : nat) (att : string) : res (string * list bson) :=
  if has_prefix att "jsonpath:$RELATIVE" then Ok (replace_first att "jsonpath:$RELATIVE." "", [])
  else if has_prefix att "jsonpath:$VALUE" then
    if (2 <=? depth)%nat then Err else
    Ok ("addedField." ++ parent ++ ".v" ++ replace_first att "jsonpath:$VALUE" "", [add_fields parent])
  else if has_prefix att "jsonpath:$KEY" then
    if (2 <=? depth)%nat then Err else
    if contains att "jsonpath:$KEY." then Err else
    Ok ("addedField." ++ parent ++ ".k", [add_fields parent])
  else if has_prefix att "jsonpath:$." then
    Ok (replace_first att "jsonpath:$." (if nonempty base then base ++ "." else ""), [])
  else Ok ("", []).

(** mongo_plugin.go:119-222 (Condition).ToMongoQuery *)
Definition mongo_cond (base parent : string) (depth : nat) (c : cond) : res translation :=
  if negb (String.eqb (c_attr c) "jsonpath") then Err else
  do fs <- mongo_field base parent depth (og_attr (c_orig c));
  do field <- remove_quotes (fst fs);
  do q <- method_query (c_method c) field (c_value c);
  Ok (q, snd fs).

(** mongo_plugin.go:70-73 and 100-103 *)
Definition parent_field (base orig : string) : string :=
  let f := replace_first orig "jsonpath:$." (base ++ ".") in
  let f := replace_first f "jsonpath:$RELATIVE." "" in
  let f := replace_all f "[:]" "" in
  replace_all f "[*]" "".

(** lines 64-66 and 93-95 *)
Definition array_depth (orig : string) (depth : nat) : nat :=
  if has_suffix orig "[:]" || has_suffix orig "[*]" then S depth else depth.

(** ToMongoQuery: mongo_plugin.go:10-29 (And), 31-49 (Or), 51-61 (Not), 63-89 (All), 91-117 (Any),
    119-222 (Condition), conditions_tree.go:641-643, 661-663 (True, False).  A nil inner node is a
    nil-interface method call: panic. *)
Fixpoint to_mongo (base parent : string) (depth : nat) (n : node) : res translation :=
  match n with
  | NAnd ns =>
    do qs <- rseq (map (to_mongo base "" depth) ns);
    Ok (bone "$and" (BArr (map fst qs)), List.concat (map snd qs))
  | NOr ns =>
    do qs <- rseq (map (to_mongo base "" depth) ns);
    Ok (bone "$or" (BArr (map fst qs)), List.concat (map snd qs))
  | NNot m =>
    do q <- to_mongo base "" depth m;
    Ok (bone "$nor" (BArr [fst q]), snd q)
  | NQuant QAll a m =>
    if has_prefix (a_orig a) "jsonpath:$.." then Err else
    let field := parent_field base (a_orig a) in
    do q <- to_mongo base "" (S (array_depth (a_orig a) depth)) m;
    match snd q with
    | [] => Ok (bone "$nor" (BArr [bone field (bone "$elemMatch" (bone "$nor" (BArr [fst q])))]), [])
    | _ => Err
    end
  | NQuant QAny a m =>
    if has_prefix (a_orig a) "jsonpath:$.." then Err else
    let field := parent_field base (a_orig a) in
    do q <- to_mongo base field (S (array_depth (a_orig a) depth)) m;
    match snd q with
    | [] => Ok (bone field (bone "$elemMatch" (fst q)), [])
    | p => Ok (fst q, p)
    end
  | NTrue => Err
  | NFalse => Err
  | NCond c => mongo_cond base parent depth c
  | NNil => Panic
  end.

(** rule_mongo_plugin.go:12-15 MaplToMongoResult *)
Inductive mongo_result :=
| Simple (q : bson)
| Aggregate (pipeline : list bson).

(** rule_mongo_plugin.go:17-44 (Rule).ToMongoQuery: outcome and the rule afterwards.  The error of the
    preparation is ignored; a rule that was never prepared is then a nil pointer. *)
Definition prepared_query (parentField : string) (r : rule L) : res mongo_result :=
  match ru_tree r with
  | None => Ok (Simple (BDoc []))
  | Some n =>
    do q <- to_mongo parentField "" 0 n;
    match snd q with
    | [] => Ok (Simple (fst q))
    | p => Ok (Aggregate (p ++ [bone "$match" (fst q)])%list)
    end
  end.
Definition rule_to_mongo (g : predef) (parentField : string) (s : rstate L) (t : nat)
  : res mongo_result * rstate L * nat :=
  let '(o, s', t') := if rs_ready s then (Ok tt, s, t) else set_predefined L ord g s t in
  match o with
  | Panic => (Panic, s', t')
  | _ => (match rs_prepared s' with
          | None => Panic
          | Some r => prepared_query parentField r
          end, s', t')
  end.
End WithLib.
