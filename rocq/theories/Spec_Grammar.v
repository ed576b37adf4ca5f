(** The grammar of condition trees: which decoded values stand for which trees. *)
From Coq Require Import List String Ascii Bool Arith ZArith Permutation.
From Verif Require Import Base GoStr GoFloat Types Json Spec_Tree Spec_Leaf Spec_Validate Spec_Load Spec_Names.
Import ListNotations.
Open Scope string_scope.

(** the entries of a map, whichever decoder made it *)
Definition entries_of (v : iface) (es : list (string * iface)) : Prop :=
  v = GMapS es \/ v = GMapI (map (fun e => (GStr (fst e), snd e)) es).

(** ** Conditions *)
Definition spelled (k lower upper : string) : Prop := k = lower \/ k = upper.
Definition att_key (k : string) : Prop := spelled k "attribute" "Attribute".
Definition method_key (k : string) : Prop := spelled k "method" "Method".
Definition value_key (k : string) : Prop := spelled k "value" "Value".
Definition int_key (k : string) : Prop := spelled k "valueInt" "ValueInt".
Definition float_key (k : string) : Prop := spelled k "valueFloat" "ValueFloat".
Definition return_key (k : string) : Prop := spelled k "returnValueJsonpath" "ReturnValueJsonpath".

Inductive value_keys : list string -> Prop :=
| vk_none : value_keys []
| vk_value v : value_key v -> value_keys [v]
| vk_int v i : value_key v -> int_key i -> value_keys [v; i]
| vk_float v f : value_key v -> float_key f -> value_keys [v; f]
| vk_both v i f : value_key v -> int_key i -> float_key f -> value_keys [v; i; f].
(** the maps that are conditions: an attribute and a method, perhaps a value, perhaps return values *)
Definition condition_keys (ks : list string) : Prop :=
  exists a m vs rs, att_key a /\ method_key m /\ value_keys vs /\
    (rs = [] \/ exists r, rs = [r] /\ return_key r) /\ Permutation ks (a :: m :: vs ++ rs)%list.

Definition given (is : string -> Prop) (es : list (string * iface)) (v : iface) : Prop := exists k, is k /\ In (k, v) es.
Definition lacks (is : string -> Prop) (es : list (string * iface)) : Prop := forall v, ~ given is es v.

Section WithLib.
Variable L : Lib.

(** the texts of a condition; return values that are not a map count as none *)
Record condition_text (es : list (string * iface)) (att method value : string) (ret : option (list (string * string))) : Prop := {
  ct_att : given att_key es (GStr att);
  ct_method : given method_key es (GStr method);
  ct_value : (lacks value_key es /\ value = "") \/ (exists v, given value_key es v /\ value = go_fmt L v);
  ct_ret : (lacks return_key es /\ ret = None) \/
    (exists v, given return_key es v /\
       ((exists ts, entries_of v (map (fun e => (fst e, GStr (snd e))) ts) /\ ret = Some ts) \/
        (~ is_map v /\ ret = Some [])))
}.

(** what is stored for the return values of a condition *)
Definition returns_stored (strip : string -> string) (query : string -> option (JQ L) -> Prop)
    (m : list (string * string)) (r : retpart L) : Prop :=
  r_orig r = Some m /\ r_paths r = Some (map (fun e => (fst e, strip (snd e))) m) /\
  Forall2 (fun e q => fst q = fst e /\ query (strip (snd e)) (snd q)) m (r_prep r) /\
  Forall2 (fun e b => fst b = fst e /\ (snd b = true <-> starts "jsonpath:$RELATIVE" (snd e))) m (r_rel r).
Definition condition_returns (ret : option (list (string * string))) (r : retpart L) : Prop :=
  match ret with
  | None => r = no_ret
  | Some m => returns_stored (fun s => replace_first s "jsonpath:$" "$") (fun path q => q = jp_prepare L path) m r
  end.

(** what is stored for a condition: its texts, and the value as a number if it is one *)
Record condition_stored (att method value : string) (ret : option (list (string * string))) (c : cond L) : Prop := {
  cs_ok : acceptable L att method value;
  cs_att : c_attr c = att;
  cs_method : c_method c = method;
  cs_value : c_value c = value;
  cs_int : n_int (c_num c) = parse_int value;
  cs_float : (exists x, quantity L value x /\ n_float (c_num c) = Some x) \/ (not_number L value /\ n_float (c_num c) = None);
  cs_regex : n_regex (c_num c) = None /\ n_string_regex (c_num c) = None;
  cs_rest : c_lab c = no_lab /\ c_obj c = no_obj /\ c_jp c = no_jp /\ c_orig c = no_orig;
  cs_ret : condition_returns ret (c_ret c)
}.

(** ** ANY and ALL *)
(** the query a path stands for *)
Inductive query_for (path : string) : option (JQ L) -> Prop :=
| qf_entry : (let p := replace_all path "$RELATIVE" "$" in occurs "$KEY" p \/ occurs "$VALUE" p) -> query_for path (jp_prepare L "$.*")
| qf_all : replace_all path "$RELATIVE" "$" = "$*" -> query_for path (jp_prepare L "$.*")
| qf_path : (let p := replace_all path "$RELATIVE" "$" in ~ occurs "$KEY" p /\ ~ occurs "$VALUE" p /\ p <> "$*") ->
    query_for path (jp_prepare L (replace_all path "$RELATIVE" "$")).

Inductive quant_returns (es : list (string * iface)) : retpart L -> Prop :=
| qr_absent : ~ In "returnValueJsonpath" (map fst es) -> quant_returns es no_ret
| qr_empty v : In ("returnValueJsonpath", v) es -> entries_of v [] -> quant_returns es no_ret
| qr_given v ts r : In ("returnValueJsonpath", v) es -> entries_of v (map (fun e => (fst e, GStr (snd e))) ts) -> ts <> [] ->
    Forall (fun e => starts "jsonpath:$RELATIVE" (snd e)) ts ->
    returns_stored (fun s => replace_first s "jsonpath:$RELATIVE" "$") query_for ts r -> quant_returns es r.

Definition quant_words : list (string * quant) := [("ANY", QAny); ("ALL", QAll)].
Definition list_words : list (string * (list (node L) -> node L)) :=
  [("AND", NAnd); ("OR", NOr); ("NOT", fun ns => NNot (last ns NNil))].

(** ** Trees: the value [v] found under the keyword [kw] (none at the root and in arrays) stands for [n] *)
Inductive reads (kw : string) : iface -> node L -> Prop :=
| rd_condition v es att method value ret c :
    entries_of v es -> condition_keys (map fst es) -> condition_text es att method value ret -> condition_stored att method value ret c ->
    In kw [""; "condition"; "conditionsTree"] -> reads kw v (NCond c)
| rd_one_condition v es att method value ret c f :
    entries_of v es -> condition_keys (map fst es) -> condition_text es att method value ret -> condition_stored att method value ret c ->
    In (kw, f) list_words -> reads kw v (f [NCond c])
| rd_keyword v k w n : entries_of v [(k, w)] -> In kw [""; "condition"; "conditions"; "conditionsTree"; "AND"; "OR"] ->
    reads k w n -> reads kw v n
| rd_not v k w n : entries_of v [(k, w)] -> kw = "NOT" -> reads k w n -> reads kw v (NNot n)
| rd_single x n : kw = "" -> reads "" x n -> reads kw (GArr [x]) n
| rd_list l ns f : In (kw, f) list_words -> Forall2 (reads "") l ns -> reads kw (GArr l) (f ns)
| rd_quant v es q s r inner :
    In (kw, q) quant_words -> entries_of v es -> ~ condition_keys (map fst es) -> (List.length es = 2 \/ List.length es = 3)%nat ->
    In ("parentJsonpathAttribute", GStr s) es -> legal_parent s -> quant_returns es r ->
    (forall k w, In (k, w) es -> inner_key k -> exists n, reads k w n) ->
    ((exists k w, In (k, w) es /\ inner_key k /\ reads k w inner) \/ (inner = NNil /\ forall k, In k (map fst es) -> ~ inner_key k)) ->
    reads kw v (NQuant q (mkAA (replace_all s "jsonpath:" "") [] s r []) inner).
End WithLib.
