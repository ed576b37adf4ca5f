(** Specification of the conditions that are accepted, and of substitution and preparation. *)
From Coq Require Import List String Ascii Bool Arith ZArith.
From Verif Require Import Base GoStr GoFloat Types StrUtils Validate Spec_Tree Spec_Glob Spec_Leaf.
Import ListNotations.
Open Scope string_scope.

(** ** Attributes *)
Definition plain_attributes : list string :=
  ["true"; "TRUE"; "false"; "FALSE"; "payloadSize"; "requestUseragent"; "utcHoursFromMidnight";
   "encryptionType"; "domain"].

(** inside brackets: a quoted name or a natural number that fits a signed 64-bit integer *)
Inductive index_text : string -> Prop :=
| it_quoted q s : q = sq \/ q = dq -> index_text (String q (s ++ String q ""))
| it_mark q : q = sq \/ q = dq -> index_text (String q "")    (* a single quotation mark is accepted too *)
| it_number s n : parse_int s = Some n -> (0 <= n)%Z -> index_text s.
(** every closing bracket ends such a text, counted from the last opening bracket before it *)
Definition brackets_ok (att : string) : Prop :=
  forall a b, att = a ++ "]" ++ b ->
  exists pre inside, a = pre ++ "[" ++ inside /\ all_chars (fun c => c <> "["%char) inside /\ index_text inside.

Definition path_start (path : string) : Prop :=
  starts "." path \/ starts "$." path \/ starts "$RELATIVE." path \/ path = "$RELATIVE" \/
  (starts "$KEY" path /\ ~ starts "$KEY." path) \/ starts "$VALUE" path.

Definition order_kinds : list kind := [KLt; KLe; KGt; KGe].

Inductive attribute_for (k : kind) : string -> Prop :=
| af_plain att : In att plain_attributes -> attribute_for k att
| af_version : In k (KEq :: order_kinds) -> attribute_for k "encryptionVersion"
| af_sender x : ~ In k order_kinds -> attribute_for k ("$sender." ++ x)
| af_receiver x : ~ In k order_kinds -> attribute_for k ("$receiver." ++ x)
| af_sender_label key : label_key_ok key -> ~ In k order_kinds -> attribute_for k (sender_label key)
| af_receiver_label key : label_key_ok key -> ~ In k order_kinds -> attribute_for k (receiver_label key)
| af_jsonpath path : path_start path -> brackets_ok ("jsonpath:" ++ path) ->
    (forall a b, path <> a ++ "[:]" ++ b) -> (forall a b, path <> a ++ "[]" ++ b) ->
    attribute_for k ("jsonpath:" ++ path).

Section WithLib.
Variable L : Lib.

Definition value_for (method : string) (k : kind) (value : string) : Prop :=
  (In k order_kinds -> (exists x, quantity L value x) \/ parse_int value <> None) /\
  (k = KRe \/ k = KNre -> re_compile L value <> None) /\
  (In method ["IN"; "NIN"] -> value <> "" /\ re_compile L (list_to_alternatives value) <> None) /\
  (starts "receiverLabel[" value -> exists key, value = receiver_label key /\ label_key_ok key).

Definition acceptable (att method value : string) : Prop :=
  exists k, method_is method k /\ attribute_for k att /\ value_for method k value.
End WithLib.

(** ** Replacement of predefined texts *)
(** the name of a sender or receiver after replacement: lists are joined by commas *)
Inductive replaced_name (p : predef) (name : string) : string -> Prop :=
| rn_plain : ~ starts "#" name -> replaced_name p name name
| rn_list x l : name = "#" ++ x -> assoc x (p_resolved p) = Some l -> replaced_name p name (String.concat "," l)
| rn_string x v : name = "#" ++ x -> assoc x (p_resolved p) = None -> assoc x (p_strings p) = Some v ->
    replaced_name p name v.
(** a reference to a name that is not in the dictionary *)
Definition undefined (p : predef) (s : string) : Prop :=
  exists x, s = "#" ++ x /\ assoc x (p_resolved p) = None /\ assoc x (p_strings p) = None.

(** The items of a list with each reference replaced by the text it names. *)
Inductive item_resolved (strings : list (string * string)) (s : string) : string -> Prop :=
| ir_plain : ~ starts "#" s -> item_resolved strings s s
| ir_string x v : s = "#" ++ x -> assoc x strings = Some v -> item_resolved strings s v.
Definition unresolvable (strings : list (string * string)) (s : string) : Prop :=
  exists x, s = "#" ++ x /\ assoc x strings = None.

Section Trees.
Variable L : Lib.

(** [n'] has the shape of [n], its conditions the texts of those of [n] with references replaced *)
Inductive tree_prepared (p : predef) : node L -> node L -> Prop :=
| tp_and ns ns' : Forall2 (tree_prepared p) ns ns' -> tree_prepared p (NAnd ns) (NAnd ns')
| tp_or ns ns' : Forall2 (tree_prepared p) ns ns' -> tree_prepared p (NOr ns) (NOr ns')
| tp_not n n' : tree_prepared p n n' -> tree_prepared p (NNot n) (NNot n')
| tp_quant q a a' n n' : tree_prepared p n n' ->
    a_parent a' = a_parent a -> a_orig a' = a_orig a -> a_ret a' = a_ret a ->
    tree_prepared p (NQuant q a n) (NQuant q a' n')
| tp_true : tree_prepared p NTrue NTrue
| tp_false : tree_prepared p NFalse NFalse
| tp_cond c c' v : replaced p (c_method c) (c_value c) v ->
    c_orig c' = mkOrig (c_attr c) (c_method c) v -> c_ret c' = c_ret c ->
    tree_prepared p (NCond c) (NCond c').

(** NOT, ANY or ALL without an inner condition *)
Inductive missing_inner : node L -> Prop :=
| mi_nil : missing_inner NNil
| mi_and n ns : In n ns -> missing_inner n -> missing_inner (NAnd ns)
| mi_or n ns : In n ns -> missing_inner n -> missing_inner (NOr ns)
| mi_not n : missing_inner n -> missing_inner (NNot n)
| mi_quant q a n : missing_inner n -> missing_inner (NQuant q a n).

(** the conditions of a tree, and the paths of its ANY and ALL nodes *)
Inductive has_condition : node L -> cond L -> Prop :=
| hc_cond c : has_condition (NCond c) c
| hc_and n ns c : In n ns -> has_condition n c -> has_condition (NAnd ns) c
| hc_or n ns c : In n ns -> has_condition n c -> has_condition (NOr ns) c
| hc_not n c : has_condition n c -> has_condition (NNot n) c
| hc_quant q a n c : has_condition n c -> has_condition (NQuant q a n) c.
Inductive has_parent : node L -> string -> Prop :=
| hp_and n ns c : In n ns -> has_parent n c -> has_parent (NAnd ns) c
| hp_or n ns c : In n ns -> has_parent n c -> has_parent (NOr ns) c
| hp_not n c : has_parent n c -> has_parent (NNot n) c
| hp_here q a n : has_parent (NQuant q a n) (a_parent a)
| hp_quant q a n c : has_parent n c -> has_parent (NQuant q a n) c.
End Trees.
