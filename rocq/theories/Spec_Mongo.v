(** Specification of the translation of trees into Mongo queries. *)
From Coq Require Import List String Ascii Bool Arith ZArith.
From Verif Require Import Base GoStr GoFloat Types Mongo Spec_Tree Spec_Leaf Spec_Quotes Spec_Names.
Import ListNotations.
Open Scope string_scope.

(** ** Names *)
(** brackets and quotes come in pairs *)
Definition well_quoted (s : string) : Prop :=
  Nat.Even (occurrences dq s) /\ Nat.Even (occurrences sq s) /\ occurrences "[" s = occurrences "]" s.
(** [f] is [s] without quotes and brackets and with double dots made single *)
Definition clean_name (s f : string) : Prop :=
  exists t, field_text s t /\ dots_shrunk t f /\ (~ occurs "..." t -> ~ occurs ".." f).

(** [f] is [s] without the marks [:] and [*] (and no mark arises from removing others) *)
Inductive without_marks : string -> string -> Prop :=
| wm_end : without_marks "" ""
| wm_colon s t : without_marks s t -> without_marks ("[:]" ++ s) t
| wm_star s t : without_marks s t -> without_marks ("[*]" ++ s) t
| wm_keep c s t : (c = "["%char -> forall x r, s = String x r -> ~ In x [":"%char; "*"%char; "["%char]) ->
    without_marks s t -> without_marks (String c s) (String c t).

(** the field holding the elements of ANY/ALL *)
Inductive parent_name (base : string) : string -> string -> Prop :=
| pn_root p f : ~ occurs "jsonpath:$" (base ++ "." ++ p) -> without_marks (base ++ "." ++ p) f -> parent_name base ("jsonpath:$." ++ p) f
| pn_relative p f : ~ occurs "jsonpath:$" p -> without_marks p f -> parent_name base ("jsonpath:$RELATIVE." ++ p) f.

(** the text a condition's field name is made from; [parent] is the field of the entries of an object *)
Inductive cond_name (base parent : string) : string -> string -> Prop :=
| cn_bare p : base = "" -> cond_name base parent ("jsonpath:$." ++ p) p
| cn_root p : base <> "" -> cond_name base parent ("jsonpath:$." ++ p) (base ++ "." ++ p)
| cn_relative p : cond_name base parent ("jsonpath:$RELATIVE." ++ p) p
| cn_element r : ~ occurs "jsonpath:$RELATIVE." ("jsonpath:$RELATIVE" ++ r) ->
    cond_name base parent ("jsonpath:$RELATIVE" ++ r) ("jsonpath:$RELATIVE" ++ r)
| cn_value r : cond_name base parent ("jsonpath:$VALUE" ++ r) ("addedField." ++ parent ++ ".v" ++ r)
| cn_key r : cond_name base parent ("jsonpath:$KEY" ++ r) ("addedField." ++ parent ++ ".k")
| cn_other a : ~ starts "jsonpath:$." a -> ~ starts "jsonpath:$RELATIVE" a -> ~ starts "jsonpath:$VALUE" a ->
    ~ starts "jsonpath:$KEY" a -> cond_name base parent a "".

(** ** Operators *)
Definition operators : list (kind * string) :=
  [(KEq, "$eq"); (KNeq, "$ne"); (KNe, "$ne"); (KGt, "$gt"); (KGe, "$gte"); (KLt, "$lt"); (KLe, "$lte")].

Section WithLib.
Variable L : Lib.
Notation cond := (cond L).
Notation node := (node L).

(** numbers are compared as numbers *)
Inductive compared (value : string) : bson -> Prop :=
| co_number x : parse_float L value = Some x -> compared value (BNum x)
| co_text : parse_float L value = None -> compared value (BStr value).

Inductive operation (f value : string) : kind -> bson -> Prop :=
| op_compare k o b : In (k, o) operators -> compared value b -> operation f value k (BDoc [(f, BDoc [(o, b)])])
| op_exists : operation f value KEx (BDoc [(f, BDoc [("$exists", BBool true)])])
| op_missing : operation f value KNex (BDoc [(f, BDoc [("$exists", BBool false)])])
| op_regex : operation f value KRe (BDoc [(f, BDoc [("$regex", BStr value)])])
| op_no_regex : operation f value KNre (BDoc [("$and", BArr
    [BDoc [(f, BDoc [("$not", BDoc [("$regex", BStr value)])])]; BDoc [(f, BDoc [("$exists", BBool true)])]])]).

(** conditions on the key or the value of an entry *)
Definition entry_cond (c : cond) : Prop :=
  starts "jsonpath:$KEY" (og_attr (c_orig c)) \/ starts "jsonpath:$VALUE" (og_attr (c_orig c)).
Inductive reads_entries : node -> Prop :=
| re_cond c : entry_cond c -> reads_entries (NCond c)
| re_and ns : Exists reads_entries ns -> reads_entries (NAnd ns)
| re_or ns : Exists reads_entries ns -> reads_entries (NOr ns)
| re_not n : reads_entries n -> reads_entries (NNot n)
| re_quant q a n : reads_entries n -> reads_entries (NQuant q a n).

(** trees whose attributes and methods have one of the forms above *)
Inductive regular (base : string) : node -> Prop :=
| rg_and ns : Forall (regular base) ns -> regular base (NAnd ns)
| rg_or ns : Forall (regular base) ns -> regular base (NOr ns)
| rg_not n : regular base n -> regular base (NNot n)
| rg_quant q a n : starts "jsonpath:$.." (a_orig a) \/ (exists f, parent_name base (a_orig a) f) -> regular base n -> regular base (NQuant q a n)
| rg_true : regular base NTrue
| rg_false : regular base NFalse
| rg_cond c k : (exists parent f, cond_name base parent (og_attr (c_orig c)) f) ->
    method_is (c_method c) k -> c_method c <> "IS" -> regular base (NCond c).

(** the same for the paths of ANY/ALL alone *)
Inductive parents_named (base : string) : node -> Prop :=
| pr_and ns : Forall (parents_named base) ns -> parents_named base (NAnd ns)
| pr_or ns : Forall (parents_named base) ns -> parents_named base (NOr ns)
| pr_not n : parents_named base n -> parents_named base (NNot n)
| pr_quant q a n : starts "jsonpath:$.." (a_orig a) \/ (exists f, parent_name base (a_orig a) f) -> parents_named base n -> parents_named base (NQuant q a n)
| pr_true : parents_named base NTrue
| pr_false : parents_named base NFalse
| pr_cond c : parents_named base (NCond c).

(** arrays around the inner tree *)
Definition marked (orig : string) : Prop := exists p, orig = p ++ "[:]" \/ orig = p ++ "[*]".
Definition inner_depth (orig : string) (d d' : nat) : Prop := (marked orig /\ d' = (d + 2)%nat) \/ (~ marked orig /\ d' = (d + 1)%nat).

(** ** Trees without a translation *)
Inductive refused (base : string) : string -> nat -> node -> Prop :=
| rf_and p d ns : Exists (refused base "" d) ns -> refused base p d (NAnd ns)
| rf_or p d ns : Exists (refused base "" d) ns -> refused base p d (NOr ns)
| rf_not p d n : refused base "" d n -> refused base p d (NNot n)
| rf_deep_scan p d q a n : starts "jsonpath:$.." (a_orig a) -> refused base p d (NQuant q a n)
| rf_any p d a n f d' : parent_name base (a_orig a) f -> inner_depth (a_orig a) d d' -> refused base f d' n -> refused base p d (NQuant QAny a n)
| rf_all p d a n d' : inner_depth (a_orig a) d d' -> refused base "" d' n -> refused base p d (NQuant QAll a n)
| rf_all_entries p d a n : reads_entries n -> refused base p d (NQuant QAll a n)
| rf_true p d : refused base p d NTrue
| rf_false p d : refused base p d NFalse
| rf_attribute p d c : c_attr c <> "jsonpath" -> refused base p d (NCond c)
| rf_array p d c : entry_cond c -> (2 <= d)%nat -> refused base p d (NCond c)
| rf_key p d c : starts "jsonpath:$KEY" (og_attr (c_orig c)) -> occurs "jsonpath:$KEY." (og_attr (c_orig c)) -> refused base p d (NCond c)
| rf_name p d c f : cond_name base p (og_attr (c_orig c)) f -> ~ well_quoted f -> refused base p d (NCond c)
| rf_list p d c : In (c_method c) ["IN"; "NIN"; "in"; "nin"] -> refused base p d (NCond c).

(** ** Queries *)
Inductive mirrors (base : string) : string -> node -> bson -> Prop :=
| mi_and p ns qs : Forall2 (mirrors base "") ns qs -> mirrors base p (NAnd ns) (BDoc [("$and", BArr qs)])
| mi_or p ns qs : Forall2 (mirrors base "") ns qs -> mirrors base p (NOr ns) (BDoc [("$or", BArr qs)])
| mi_not p n q : mirrors base "" n q -> mirrors base p (NNot n) (BDoc [("$nor", BArr [q])])
| mi_any p a n f q : parent_name base (a_orig a) f -> ~ reads_entries n -> mirrors base f n q ->
    mirrors base p (NQuant QAny a n) (BDoc [(f, BDoc [("$elemMatch", q)])])
| mi_any_entries p a n f q : parent_name base (a_orig a) f -> reads_entries n -> mirrors base f n q ->
    mirrors base p (NQuant QAny a n) q
| mi_all p a n f q : parent_name base (a_orig a) f -> ~ reads_entries n -> mirrors base "" n q ->
    mirrors base p (NQuant QAll a n) (BDoc [("$nor", BArr [BDoc [(f, BDoc [("$elemMatch", BDoc [("$nor", BArr [q])])])]])])
| mi_cond p c f' f k q : c_attr c = "jsonpath" -> cond_name base p (og_attr (c_orig c)) f' -> clean_name f' f ->
    method_is (c_method c) k -> operation f (c_value c) k q -> mirrors base p (NCond c) q.

(** ** Steps: one for every condition on entries, from left to right *)
Definition entries_step (parent : string) : bson :=
  BDoc [("$addFields", BDoc [("addedField." ++ parent, BDoc [("$objectToArray", BStr ("$" ++ parent))])])].
Inductive steps (base : string) : string -> node -> list bson -> Prop :=
| st_and p ns l : Forall2 (steps base "") ns l -> steps base p (NAnd ns) (List.concat l)
| st_or p ns l : Forall2 (steps base "") ns l -> steps base p (NOr ns) (List.concat l)
| st_not p n l : steps base "" n l -> steps base p (NNot n) l
| st_any p a n f l : parent_name base (a_orig a) f -> steps base f n l -> steps base p (NQuant QAny a n) l
| st_all p a n : ~ reads_entries n -> steps base p (NQuant QAll a n) []
| st_entry p c : entry_cond c -> steps base p (NCond c) [entries_step p]
| st_cond p c : ~ entry_cond c -> steps base p (NCond c) [].
End WithLib.
