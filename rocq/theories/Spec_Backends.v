(** Documents parsed by the caller and the same documents as raw bytes: when rules must not see a difference. *)
From Coq Require Import List String Ascii Bool Arith ZArith.
From Verif Require Import Base GoStr GoFloat Types Json Check Spec_Tree Spec_Glob Spec_Leaf Spec_Json Spec_Split Spec_MongoMatch Spec_Meaning.
Import ListNotations.
Open Scope string_scope.

(** ** Texts without escapes *)
Definition plain_char (c : ascii) : Prop := (32 <= nat_of_ascii c < 127)%nat /\ c <> dq /\ c <> bslash /\ ~ brace c.
Definition plain_string (s : string) : Prop := all_chars plain_char s.

(** all results of two checks agree, apart from the return values *)
Definition same_outcome (o o' : outcome) : Prop :=
  out_decision o = out_decision o' /\ out_string o = out_string o' /\ out_index o = out_index o' /\ out_results o = out_results o' /\
  out_applied o = out_applied o' /\ out_desc o = out_desc o'.

Section WithLib.
Variable L : Lib.

(** [plain gap v s]: [s] is a JSON text of [v] with strings free of escapes and braces, numbers as fmt prints them, no
    repeated key, and texts satisfying [gap] between the tokens *)
Section Plain.
Variable gap : string -> Prop.
Inductive plain : iface -> string -> Prop :=
| pl_null : plain GNil "null"
| pl_true : plain (GBool true) "true"
| pl_false : plain (GBool false) "false"
| pl_string s : plain_string s -> plain (GStr s) (dqs ++ s ++ dqs)
| pl_number f : number_text (fmt_float L f) -> parse_float L (fmt_float L f) = Some f -> plain (GFloat f) (fmt_float L f)
| pl_empty_array w : gap w -> plain (GArr []) ("[" ++ w ++ "]")
| pl_array vs s : plain_elements vs s -> plain (GArr vs) ("[" ++ s ++ "]")
| pl_empty_object w : gap w -> plain (GMapS []) ("{" ++ w ++ "}")
| pl_object kvs s : plain_members kvs s -> NoDup (map fst kvs) -> plain (GMapS kvs) ("{" ++ s ++ "}")
with plain_elements : list iface -> string -> Prop :=
| pe_one v s w1 w2 : gap w1 -> gap w2 -> plain v s -> plain_elements [v] (w1 ++ s ++ w2)
| pe_cons v s w1 w2 vs s' : gap w1 -> gap w2 -> plain v s -> plain_elements vs s' -> plain_elements (v :: vs) (w1 ++ s ++ w2 ++ "," ++ s')
with plain_members : list (string * iface) -> string -> Prop :=
| pm_one k v s w1 w2 w3 w4 : gap w1 -> gap w2 -> gap w3 -> gap w4 -> plain_string k -> plain v s ->
    plain_members [(k, v)] (w1 ++ (dqs ++ k ++ dqs) ++ w2 ++ ":" ++ w3 ++ s ++ w4)
| pm_cons k v s w1 w2 w3 w4 kvs s' : gap w1 -> gap w2 -> gap w3 -> gap w4 -> plain_string k -> plain v s -> plain_members kvs s' ->
    plain_members ((k, v) :: kvs) (w1 ++ (dqs ++ k ++ dqs) ++ w2 ++ ":" ++ w3 ++ s ++ w4 ++ "," ++ s').
End Plain.
Scheme plain_mind := Induction for plain Sort Prop
with plain_elements_mind := Induction for plain_elements Sort Prop
with plain_members_mind := Induction for plain_members Sort Prop.
Combined Scheme plain_all_mind from plain_mind, plain_elements_mind, plain_members_mind.

(** with any white space, and with none *)
Definition laid_out : iface -> string -> Prop := plain spaces.
Definition compact : iface -> string -> Prop := plain (fun w => w = "").

(** what is needed of jsonslice.Get and pretty.Ugly: member names are followed, an array is returned with and without its
    mark, there is no text where there is no value, and white space is removed *)
Definition marks : list string := [""; "[:]"; "[*]"].
Definition TextSpec : Prop :=
  (forall ks d t w, ks <> [] -> Forall field_name ks -> laid_out d t -> at_path ks d w ->
     match w with
     | Some v => exists s, fetch L t ("$." ++ dotted ks) = Some s /\ laid_out v s
     | None => fetch L t ("$." ++ dotted ks) = None \/ fetch L t ("$." ++ dotted ks) = Some ""
     end) /\
  (forall ks mark d t w, ks <> [] -> Forall field_name ks -> In mark marks -> laid_out d t -> at_path ks d w ->
     match w with
     | Some (GArr l) => exists s, fetch L t ("$." ++ dotted ks ++ mark) = Some s /\ laid_out (GArr l) s
     | None => fetch L t ("$." ++ dotted ks ++ mark) = None \/ fetch L t ("$." ++ dotted ks ++ mark) = Some ""
     | _ => True
     end) /\
  (forall v t, laid_out v t -> compact v (ugly L t)).
(** what is needed of the parser of paths *)
Definition PathsAccepted : Prop :=
  forall ks mark, ks <> [] -> Forall field_name ks -> In mark marks -> jp_prepare L ("$." ++ dotted ks ++ mark) <> None.

(** ** Two messages with the same document *)
Definition without_document (m : message) : message :=
  mkMessage (m_source_ip m) (m_source_namespace m) (m_source_cluster m) (m_dest_ip m) (m_dest_port m)
   (m_dest_namespace m) (m_dest_cluster m) (m_path m) (m_host m) (m_method m) (m_size m) (m_time m)
   (m_useragent m) (m_protocol m) (m_id m) (m_source_service m) (m_dest_service m)
   (m_source_labels_json m) (m_dest_labels_json m) (m_context_type m) (m_enc_type m) (m_enc_version m)
   None None None None (m_domain m) (m_t_sec m) (m_t_min m) (m_t_hours m)
   (m_source_netip m) (m_dest_netip m) (m_source_labels m) (m_dest_labels m).
(** [m] has it parsed, [m'] as raw bytes *)
Definition twins (m m' : message) : Prop :=
  without_document m = without_document m' /\
  m_raw m' = None /\
  (exists d t, m_raw m = Some d /\ m_json m' = Some t /\ laid_out d t) /\
  ((m_raw_rel m = None /\ m_json_rel m' = None) \/ exists e t, m_raw_rel m = Some e /\ m_json_rel m' = Some t /\ laid_out e t).

(** ** The trees that must not see a difference *)
(** values that encoding/json prints as they are written without white space: no character escaped for HTML, numbers
    printed as by fmt, members in the order of their keys *)
Definition no_html (s : string) : Prop := all_chars (fun c => ~ In c ["<"; ">"; "&"]%char) s.
Inductive as_printed : iface -> Prop :=
| as_null : as_printed GNil
| as_bool b : as_printed (GBool b)
| as_string s : no_html s -> as_printed (GStr s)
| as_number f : json_float L f = Some (fmt_float L f) -> as_printed (GFloat f)
| as_array l : Forall as_printed l -> as_printed (GArr l)
| as_object o : Forall (fun kx => no_html (fst kx) /\ as_printed (snd kx)) o -> sorted_keys o -> as_printed (GMapS o).

(** EQ, NEQ and NE of a text and a number panic on raw bytes *)
Definition same_sort (k : kind) (v t : string) : Prop := In k [KEq; KNeq; KNe] -> not_number L v -> not_number L t.
(** value [v] of a condition and document value ([None]: there is none) *)
Inductive agreeable (k : kind) (v : string) : option iface -> Prop :=
| ag_missing : agreeable k v None
| ag_null : k <> KNex -> ~ holds L k v "null" -> same_sort k v "null" -> agreeable k v (Some GNil)
| ag_bool (b : bool) : same_sort k v (if b then "true" else "false") -> agreeable k v (Some (GBool b))
| ag_number f : same_sort k v (fmt_float L f) -> agreeable k v (Some (GFloat f))
| ag_empty : agreeable k v (Some (GStr ""))
| ag_string s : clean s -> s <> "<nil>" -> ~ starts "]" s -> (forall a, s <> a ++ "[") -> same_sort k v s -> agreeable k v (Some (GStr s)).

Variable p : predef.
(** there is an element for return values relative to it *)
Definition returns_found (c : cond L) (m : message) : Prop :=
  forall rets name path, r_orig (c_ret c) = Some rets -> In (name, path) rets -> starts "jsonpath:$RELATIVE" path -> m_raw_rel m <> None.

(** conditions on fields of the message, on plain paths, and on the key or the value of the only entry of the element;
    ANY and ALL over arrays of objects and over the entries of an object.
    Paths that find nothing are admitted except for ALL. *)
Inductive indifferent : node L -> message -> Prop :=
| id_field c m P : ~ starts "jsonpath:" (c_attr c) -> condition_says L p (c_attr c) (c_method c) (c_value c) m P -> indifferent (NCond c) m
| id_path c m inner ks k v d w : c_attr c = "jsonpath:" ++ written_path inner ks -> ks <> [] -> Forall field_name ks ->
    method_is (c_method c) k -> replaced p (c_method c) (c_value c) v -> plain_value v ->
    (if inner then m_raw_rel m else m_raw m) = Some d -> at_path ks d w -> agreeable k v w -> returns_found c m -> indifferent (NCond c) m
| id_no_element c m ks : c_attr c = "jsonpath:" ++ written_path true ks -> ks <> [] -> Forall field_name ks -> m_raw_rel m = None ->
    returns_found c m -> indifferent (NCond c) m
| id_not n m : indifferent n m -> indifferent (NNot n) m
| id_and ns m : Forall (fun n => indifferent n m) ns -> indifferent (NAnd ns) m
| id_or ns m : Forall (fun n => indifferent n m) ns -> indifferent (NOr ns) m
| id_true m : indifferent NTrue m
| id_false m : indifferent NFalse m
| id_array q a n m inner ks mark d l : a_parent a = written_path inner ks ++ mark -> ks <> [] -> Forall field_name ks -> In mark marks ->
    (if inner then m_raw_rel m else m_raw m) = Some d -> at_path ks d (Some (GArr l)) -> Forall (fun e => exists o, e = GMapS o) l ->
    Forall (fun e => indifferent n (set_raw_rel m (Some e))) l -> indifferent (NQuant q a n) m
| id_nothing a n m inner ks mark d : a_parent a = written_path inner ks ++ mark -> ks <> [] -> Forall field_name ks -> In mark marks ->
    (if inner then m_raw_rel m else m_raw m) = Some d -> at_path ks d None -> indifferent (NQuant QAny a n) m
| id_key c m key x k v : c_attr c = "jsonpath:$KEY" -> method_is (c_method c) k -> replaced p (c_method c) (c_value c) v -> plain_value v ->
    m_raw_rel m = Some (GMapS [(key, x)]) -> agreeable k v (Some (GStr key)) -> indifferent (NCond c) m
| id_value c m key x k v : c_attr c = "jsonpath:$VALUE" -> method_is (c_method c) k -> replaced p (c_method c) (c_value c) v -> plain_value v ->
    m_raw_rel m = Some (GMapS [(key, x)]) -> as_printed x -> agreeable k v (Some x) -> indifferent (NCond c) m
| id_entries q a n m inner ks d o : a_parent a = written_path inner ks -> ks <> [] -> Forall field_name ks ->
    (if inner then m_raw_rel m else m_raw m) = Some d -> at_path ks d (Some (GMapS o)) ->
    Forall (fun kx => no_html (fst kx) /\ as_printed (snd kx)) o ->
    Forall (fun kx => indifferent n (set_raw_rel m (Some (GMapS [kx])))) o -> indifferent (NQuant q a n) m
| id_null q a n m inner ks d : a_parent a = written_path inner ks -> ks <> [] -> Forall field_name ks ->
    (if inner then m_raw_rel m else m_raw m) = Some d -> at_path ks d (Some GNil) -> indifferent (NQuant q a n) m.
(** what a condition on the key or on the value says of an entry *)
Definition entry_has (value : bool) (k : kind) (v : string) (kx : string * iface) : Prop :=
  satisfied L k v (value_status L (if value then snd kx else GStr (fst kx))).
(** the tree of a rule *)
Definition indifferent_rule (r : rule L) (m : message) : Prop := forall n, ru_tree r = Some n -> indifferent n m.
End WithLib.
