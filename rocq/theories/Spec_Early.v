(** Trees evaluated as they were loaded, without being prepared. *)
From Coq Require Import List String Ascii Bool Arith ZArith.
From Verif Require Import Base GoStr GoFloat Types StrUtils Validate Prepare Spec_Tree Spec_Leaf Spec_Validate Spec_Load Spec_Grammar.
Import ListNotations.
Open Scope string_scope.

(** ** Conditions.  [None]: a panic *)
(** texts of the message: only what needs no expression is compared *)
Inductive early_text (method t : string) : bool -> Prop :=
| et_present b : method_is method KEx -> (b = true <-> t <> "") -> early_text method t b
| et_absent b : method_is method KNex -> (b = true <-> t = "") -> early_text method t b
| et_different k : method_is method k -> In k [KNeq; KNe; KNre] -> early_text method t true
| et_other k : method_is method k -> ~ In k [KEx; KNex; KNeq; KNe; KNre] -> early_text method t false.
(** numbers of the message against the number of the condition, if it is one *)
Inductive early_number {A} (holds : kind -> A -> A -> Prop) (method : string) (a : A) (x : option A) : option bool -> Prop :=
| en_compared k y b : method_is method k -> In k number_kinds -> x = Some y -> (b = true <-> holds k a y) -> early_number holds method a x (Some b)
| en_missing k : method_is method k -> In k number_kinds -> x = None -> early_number holds method a x None
| en_other k : method_is method k -> ~ In k number_kinds -> early_number holds method a x (Some false).

Definition message_texts (m : message) : list (string * string) :=
  [("requestUseragent", m_useragent m); ("encryptionType", m_enc_type m); ("domain", m_domain m)].
Definition named_attributes : list string :=
  ["true"; "TRUE"; "false"; "FALSE"; "payloadSize"; "requestUseragent"; "utcHoursFromMidnight"; "encryptionType"; "encryptionVersion"; "domain"].

Section WithLib.
Variable L : Lib.
(** the decimal a text stands for, if any *)
Definition decimal (value : string) (x : option f64) : Prop :=
  (exists y, quantity L value y /\ x = Some y) \/ (not_number L value /\ x = None).

Inductive early_condition (att method value : string) (m : message) : option bool -> Prop :=
| ec_true : In att ["true"; "TRUE"] -> early_condition att method value m (Some true)
| ec_false : In att ["false"; "FALSE"] -> early_condition att method value m (Some false)
| ec_size r : att = "payloadSize" -> early_number int_holds method (m_size m) (parse_int value) r -> early_condition att method value m r
| ec_hours x r : att = "utcHoursFromMidnight" -> decimal value x -> early_number float_holds method (m_t_hours m) x r -> early_condition att method value m r
| ec_version v x r : att = "encryptionVersion" -> m_enc_version m = Some v -> decimal value x -> early_number float_holds method v x r -> early_condition att method value m r
| ec_no_version : att = "encryptionVersion" -> m_enc_version m = None -> early_condition att method value m None
| ec_text t b : In (att, t) (message_texts m) -> early_text method t b -> early_condition att method value m (Some b)
| ec_other : ~ In att named_attributes -> early_condition att method value m (Some false).

(** ** Trees: conditions of ANY and ALL are not looked at; AND stops at the first condition that is not true, OR does not stop *)
Inductive early (m : message) : node L -> option bool -> Prop :=
| ea_cond c r : early_condition (c_attr c) (c_method c) (c_value c) m r -> early m (NCond c) r
| ea_quant q a n : early m (NQuant q a n) (Some false)
| ea_nothing : early m NNil None
| ea_not n b : early m n (Some b) -> early m (NNot n) (Some (negb b))
| ea_not_panic n : early m n None -> early m (NNot n) None
| ea_and ns : Forall (fun n => early m n (Some true)) ns -> early m (NAnd ns) (Some true)
| ea_and_stops ns n ns' r : Forall (fun n => early m n (Some true)) ns -> early m n r -> r <> Some true -> early m (NAnd (ns ++ n :: ns')) r
| ea_or ns bs : Forall2 (fun n b => early m n (Some b)) ns bs -> early m (NOr ns) (Some (existsb (fun b => b) bs))
| ea_or_panic ns n ns' : Forall (fun n => exists b, early m n (Some b)) ns -> early m n None -> early m (NOr (ns ++ n :: ns')) None.
End WithLib.
