(** Wider conditions and rules: which changes can only make more messages match. *)
From Coq Require Import List String Ascii Bool Arith.
From Verif Require Import Base GoStr GoFloat Types Prepare Spec_Tree Spec_Regex Spec_Glob Spec_Decision Spec_Leaf Spec_Validate Load_proofs Spec_Meaning Spec_Laws.
Import ListNotations.
Open Scope string_scope.

Section WithLib.
Variable L : Lib.

(** ** Comparisons: every text [t] that the first one accepts is accepted by the second one *)
Inductive wider_test (t : string) : kind -> string -> kind -> string -> Prop :=
| wt_in l l' : ascii_text t -> l <> [] -> Forall plain_item l -> Forall plain_item l' -> incl l l' -> wider_test t KIn (list_value l) KIn (list_value l')
| wt_nin l l' : ascii_text t -> l' <> [] -> Forall plain_item l -> Forall plain_item l' -> incl l' l -> wider_test t KNin (list_value l) KNin (list_value l')
| wt_upper k k' v v' x x' : In (k, k') [(KLt, KLt); (KLt, KLe); (KLe, KLe); (KEq, KLe)] -> quantity L v x -> quantity L v' x' -> fleb x x' = true -> wider_test t k v k' v'
| wt_upper_strict k v v' x x' : In k [KLe; KEq] -> quantity L v x -> quantity L v' x' -> fltb x x' = true -> wider_test t k v KLt v'
| wt_lower k k' v v' x x' : In (k, k') [(KGt, KGt); (KGt, KGe); (KGe, KGe); (KEq, KGe)] -> quantity L v x -> quantity L v' x' -> fleb x' x = true -> wider_test t k v k' v'
| wt_lower_strict k v v' x x' : In k [KGe; KEq] -> quantity L v x -> quantity L v' x' -> fltb x' x = true -> wider_test t k v KGt v'
| wt_exists k v v' : In k [KLt; KLe; KGt; KGe; KNe] -> (forall x, ~ quantity L "" x) -> wider_test t k v KEx v'.

(** two conditions on the same attribute, each with its dictionary *)
Record wider_condition (p p' : predef) (m : message) (c c' : cond L) : Prop := {
  wc_attr : c_attr c' = c_attr c;
  wc_test : exists k v k' v', method_is (c_method c) k /\ method_is (c_method c') k' /\ replaced p (c_method c) (c_value c) v /\ replaced p' (c_method c') (c_value c') v' /\
    ((exists s, plain_value v /\ plain_value v' /\ shows L (c_attr c) m s /\ k <> KNex /\ forall t, s = Present t -> wider_test t k v k' v') \/
     (exists field, plain_value v /\ plain_value v' /\ In (c_attr c, field) text_fields /\ In k [KIn; KNin] /\ wider_test (field m) k v k' v') \/
     (exists key, c_attr c = sender_label key /\ label_key_ok key /\ ~ starts "receiverLabel[" v /\ ~ starts "receiverLabel[" v' /\ In k [KIn; KNin] /\
        forall t, assoc key (m_source_labels m) = Some t -> wider_test t k v k' v') \/
     (exists key, c_attr c = receiver_label key /\ label_key_ok key /\ In k [KIn; KNin] /\ forall t, assoc key (m_dest_labels m) = Some t -> wider_test t k v k' v'))
}.

(** ** Trees *)
Inductive wider : predef -> predef -> message -> node L -> node L -> Prop :=
| wi_same p m n n' : exchangeable L p m n n' -> wider p p m n n'
| wi_trans p1 p2 p3 m n1 n2 n3 : wider p1 p2 m n1 n2 -> wider p2 p3 m n2 n3 -> usable L p2 n2 -> covered L p2 n2 m -> wider p1 p3 m n1 n3
| wi_condition p p' m c c' : wider_condition p p' m c c' -> wider p p' m (NCond c) (NCond c')
(* conjuncts dropped, alternatives added *)
| wi_drop p m ns n ns' : wider p p m (NAnd (ns ++ n :: ns')) (NAnd (ns ++ ns'))
| wi_add p m ns n ns' : wider p p m (NOr (ns ++ ns')) (NOr (ns ++ n :: ns'))
(* inside of trees; NOT turns around *)
| wi_and p p' m ns ns' : Forall2 (wider p p' m) ns ns' -> wider p p' m (NAnd ns) (NAnd ns')
| wi_or p p' m ns ns' : Forall2 (wider p p' m) ns ns' -> wider p p' m (NOr ns) (NOr ns')
| wi_not p p' m n n' : wider p' p m n' n -> wider p p' m (NNot n) (NNot n')
| wi_quant p p' m q a n n' : (forall ms m', ranges_over L a m (Some ms) -> In m' ms -> wider p p' m' n n') -> wider p p' m (NQuant q a n) (NQuant q a n')
(* some element there is *)
| wi_all_any p m a n ms : ranges_over L a m (Some ms) -> ms <> [] -> wider p p m (NQuant QAll a n) (NQuant QAny a n).

(** ** Rules *)
Definition wider_list (s s' : string) : Prop := s' = s \/ exists l l', comma_items s l /\ comma_items s' l' /\ incl l l'.
Definition wider_name (p p' : predef) (s s' : string) : Prop := exists v v', replaced_name p s v /\ replaced_name p' s' v' /\ wider_list v v'.
Definition operation_words : list string := ["*"; "write"; "WRITE"; "read"; "READ"].
Record wider_rule (p p' : predef) (m : message) (r r' : rule L) : Prop := {
  wr_sender : ru_sender_type r' = ru_sender_type r /\ wider_name p p' (ru_sender_name r) (ru_sender_name r');
  wr_receiver : ru_receiver_type r' = ru_receiver_type r /\ wider_name p p' (ru_receiver_name r) (ru_receiver_name r');
  wr_operation : ru_operation r' = ru_operation r \/ ru_operation r' = "*" \/
    (~ In (ru_operation r) operation_words /\ ~ In (ru_operation r') operation_words /\ wider_list (ru_operation r) (ru_operation r'));
  wr_resource : ru_protocol r' = "*" \/ (ru_protocol r' = ru_protocol r /\ (ru_resource_type r' = ru_resource_type r \/ ru_resource_type r' = "*") /\ wider_list (ru_resource_name r) (ru_resource_name r'));
  wr_tree : ru_tree r' = None \/ exists n n', ru_tree r = Some n /\ ru_tree r' = Some n' /\ wider p p' m n n';
  wr_decision : ru_decision r' = ru_decision r \/ exists d d', decision_word (ru_decision r) d /\ decision_word (ru_decision r') d' /\ d <= d'
}.
(** rules made wider or stricter, and rules added *)
Inductive stricter_rules (p p' : predef) (m : message) : list (rule L) -> list (rule L) -> Prop :=
| st_none : stricter_rules p p' m [] []
| st_rule r r' rules rules' : wider_rule p p' m r r' -> stricter_rules p p' m rules rules' -> stricter_rules p p' m (r :: rules) (r' :: rules')
| st_added r' rules rules' : stricter_rules p p' m rules rules' -> stricter_rules p p' m rules (r' :: rules').
End WithLib.
