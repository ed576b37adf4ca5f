(** Specification of the situations in which evaluation on a parsed document panics. *)
From Coq Require Import List String Ascii Bool Arith ZArith.
From Verif Require Import Base GoStr GoFloat Types StrUtils Spec_Tree Spec_Extra Spec_Leaf Tree_laws.
Import ListNotations.
Open Scope string_scope.

(** values that are not objects *)
Definition not_object (d : iface) : Prop := forall o, d <> GMapS o.
(** values that ANY and ALL cannot range over: neither null, nor an array, nor an object *)
Definition scalar (d : iface) : Prop := d <> GNil /\ (forall l, d <> GArr l) /\ (forall o, d <> GMapS o).

Section WithLib.
Variable L : Lib.

(** the condition without its return values *)
Definition bare (c : cond L) : cond L :=
  mkCond (c_attr c) (c_method c) (c_value c) (c_num c) (c_lab c) (c_obj c) (c_jp c) no_ret (c_orig c).

(** what is wrong with a condition, in the texts it was written with (references replaced) *)
Inductive condition_cause (c : cond L) (m : message) : Prop :=
| cc_size k : og_attr (c_orig c) = "payloadSize" -> method_is (og_method (c_orig c)) k -> In k number_kinds ->
    parse_int (og_value (c_orig c)) = None -> condition_cause c m
| cc_hours k : og_attr (c_orig c) = "utcHoursFromMidnight" -> method_is (og_method (c_orig c)) k -> In k number_kinds ->
    not_number L (og_value (c_orig c)) -> condition_cause c m
| cc_version k : og_attr (c_orig c) = "encryptionVersion" -> method_is (og_method (c_orig c)) k -> In k number_kinds ->
    not_number L (og_value (c_orig c)) -> condition_cause c m
| cc_no_version : og_attr (c_orig c) = "encryptionVersion" -> m_enc_version m = None -> condition_cause c m
| cc_entry d : og_attr (c_orig c) = "jsonpath:$KEY" \/ starts "jsonpath:$VALUE" (og_attr (c_orig c)) ->
    m_raw_rel m = Some d -> not_object d -> condition_cause c m
| cc_return rets name rest : starts "jsonpath:" (og_attr (c_orig c)) -> r_orig (c_ret c) = Some rets ->
    In (name, "jsonpath:$RELATIVE" ++ rest) rets -> jp_prepare L ("$RELATIVE" ++ rest) <> None ->
    m_raw_rel m = None -> may_return L (NCond (bare c)) m true -> condition_cause c m.

(** what is wrong with the parent path of ANY or ALL *)
Inductive parent_cause (a : aanode L) (m : message) : Prop :=
| pc_no_element : refers_to_element (a_parent a) -> m_raw_rel m = None -> parent_cause a m
| pc_entries d : a_parent a = "$RELATIVE*" -> m_raw_rel m = Some d -> not_object d -> parent_cause a m
| pc_scalar d f : a_parent a <> "$RELATIVE*" ->
    (refers_to_element (a_parent a) -> m_raw_rel m = Some d) ->
    (~ refers_to_element (a_parent a) -> m_raw m = Some d) ->
    In (Some f) (a_prep a) -> scalar (fst (jp_query L f d)) -> parent_cause a m.

(** the evaluation of a tree reaches such a condition or path *)
Inductive crash : node L -> message -> Prop :=
| cr_condition c m : condition_cause c m -> crash (NCond c) m
| cr_not n m : crash n m -> crash (NNot n) m
| cr_and before n after m : Forall (fun n' => may_return L n' m true) before -> crash n m ->
    crash (NAnd (before ++ n :: after)) m
| cr_or before n after m : Forall (fun n' => exists b, may_return L n' m b) before -> crash n m ->
    crash (NOr (before ++ n :: after)) m
| cr_parent q a n m : parent_cause a m -> crash (NQuant q a n) m
| cr_all a n m before v after : selected L a m (before ++ v :: after) ->
    Forall (fun v' => may_return L n (set_raw_rel m (Some v')) true) before ->
    crash n (set_raw_rel m (Some v)) -> crash (NQuant QAll a n) m
| cr_any a n m before v after : selected L a m (before ++ v :: after) ->
    Forall (fun v' => may_return L n (set_raw_rel m (Some v')) false \/
                      (declared L a <> [] /\ may_return L n (set_raw_rel m (Some v')) true)) before ->
    crash n (set_raw_rel m (Some v)) -> crash (NQuant QAny a n) m.

(** the conditions and the ANY/ALL nodes of a tree that have such a defect for some element *)
Inductive defect : node L -> message -> Prop :=
| df_condition c m : condition_cause c m -> defect (NCond c) m
| df_not n m : defect n m -> defect (NNot n) m
| df_and n ns m : In n ns -> defect n m -> defect (NAnd ns) m
| df_or n ns m : In n ns -> defect n m -> defect (NOr ns) m
| df_parent q a n m : parent_cause a m -> defect (NQuant q a n) m
| df_inner q a n m v : defect n (set_raw_rel m (Some v)) -> defect (NQuant q a n) m.
End WithLib.
