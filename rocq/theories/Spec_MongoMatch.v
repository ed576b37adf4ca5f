(** Which documents a Mongo query selects, and the trees and documents on which query and engine agree. *)
From Coq Require Import List String Ascii Bool Arith ZArith Floats.SpecFloat.
From Verif Require Import Base GoStr GoFloat Types StrUtils Validate Prepare Mongo Spec_Glob Spec_Tree Spec_Leaf.
Import ListNotations.
Open Scope string_scope.

(** ** Selection of documents by MongoDB (not part of the engine; from the MongoDB manual)
    Only the operators the plugin uses.  Integers are compared as float64.  The server refuses
    queries with empty $and, $or and $nor lists. *)
(** the values at a name: arrays are searched too, by their elements or by index *)
Definition member (k : string) (v : iface) : list iface :=
  match v with GMapS o => match assoc k o with Some x => [x] | None => [] end | _ => [] end.
Definition under (k : string) (v : iface) : list iface :=
  match v with
  | GArr l => (List.concat (map (member k) l) ++
      match parse_uint k with Some z => match nth_error l (Z.to_nat z) with Some x => [x] | None => [] end | None => [] end)%list
  | _ => member k v
  end.
(** the values at a dotted path *)
Fixpoint reach (ks : list string) (d : iface) : list iface :=
  match ks with
  | [] => [d]
  | k :: ks' => List.concat (map (reach ks') (under k d))
  end.
(** a comparison is satisfied by a value or, if it is an array, by one of its elements *)
Definition with_elements (vs : list iface) : list iface :=
  List.concat (map (fun v => v :: match v with GArr l => l | _ => [] end) vs).

Definition is_nan (x : f64) : bool := match x with S754_nan => true | _ => false end.
Definition number_of (v : iface) : option f64 :=
  match v with GFloat f => Some f | GInt z => Some (f64_of_Z z) | _ => None end.
(** only values of the same type are compared *)
Definition same_value (b : bson) (v : iface) : bool :=
  match b, v with
  | BNum x, _ => match number_of v with Some y => feqb y x || (is_nan x && is_nan y) | None => false end
  | BStr s, GStr t => String.eqb t s
  | BBool a, GBool c => Bool.eqb a c
  | _, _ => false
  end.
Definition less_than (v : iface) (b : bson) : bool :=
  match b, v with
  | BNum x, _ => match number_of v with Some y => fltb y x | None => false end
  | BStr s, GStr t => String.ltb t s
  | BBool a, GBool c => negb c && a
  | _, _ => false
  end.
Definition more_than (v : iface) (b : bson) : bool :=
  match b, v with
  | BNum x, _ => match number_of v with Some y => fltb x y | None => false end
  | BStr s, GStr t => String.ltb s t
  | BBool a, GBool c => negb a && c
  | _, _ => false
  end.

(** an element of an array as a document; an array has its indexes as names *)
Definition as_document (v : iface) : option iface :=
  match v with
  | GMapS _ => Some v
  | GArr l => Some (GMapS (combine (map (fun i => fmt_int (Z.of_nat i)) (seq 0 (List.length l))) l))
  | _ => None
  end.

Section WithLib.
Variable L : Lib.

Definition operator (o : string) (b : bson) (vs : list iface) : bool :=
  let some := fun f => existsb f (with_elements vs) in
  if String.eqb o "$eq" then some (same_value b)
  else if String.eqb o "$ne" then negb (some (same_value b))
  else if String.eqb o "$gt" then some (fun v => more_than v b)
  else if String.eqb o "$gte" then some (fun v => more_than v b || same_value b v)
  else if String.eqb o "$lt" then some (fun v => less_than v b)
  else if String.eqb o "$lte" then some (fun v => less_than v b || same_value b v)
  else if String.eqb o "$exists" then
    match b with BBool e => Bool.eqb e (negb (match vs with [] => true | _ => false end)) | _ => false end
  else if String.eqb o "$regex" then
    (* Simplification: the same regular expressions as the engine's *)
    match b with
    | BStr p => match re_compile L p with
                | Some re => some (fun v => match v with GStr t => re_match L re t | _ => false end)
                | None => false
                end
    | _ => false
    end
  else false.

(** what a query is applied to: a document, or the values of a field *)
Inductive target := Document (d : iface) | Field (vs : list iface).

Fixpoint matches (q : bson) (t : target) : bool :=
  match q with
  | BDoc m =>
    (fix all (m : list (string * bson)) : bool :=
       match m with
       | [] => true
       | (k, b) :: m' =>
         (match t with
          | Document d =>
            if String.eqb k "$and" then match b with BArr l => forallb (fun x => matches x t) l | _ => false end
            else if String.eqb k "$or" then match b with BArr l => existsb (fun x => matches x t) l | _ => false end
            else if String.eqb k "$nor" then match b with BArr l => negb (existsb (fun x => matches x t) l) | _ => false end
            else matches b (Field (reach (split_char "." k) d))
          | Field vs =>
            if String.eqb k "$not" then negb (matches b t)
            else if String.eqb k "$elemMatch" then
              existsb (fun v => match v with
                | GArr l => existsb (fun e => match as_document e with Some d => matches b (Document d) | None => false end) l
                | _ => false
                end) vs
            else operator k b vs
          end) && all m'
       end) m
  | _ => false
  end.

(** ** The common fragment *)
Definition name_char (c : ascii) : Prop :=
  let n := nat_of_ascii c in (48 <= n <= 57 \/ 65 <= n <= 90 \/ 97 <= n <= 122 \/ n = 95)%nat.
Definition field_name (s : string) : Prop := s <> "" /\ all_chars name_char s.
Definition dotted (ks : list string) : string := String.concat "." ks.

(** the value found by following member names; arrays on the way are outside the fragment *)
Inductive at_path : list string -> iface -> option iface -> Prop :=
| ap_here v : at_path [] v (Some v)
| ap_member k ks o x w : assoc k o = Some x -> at_path ks x w -> at_path (k :: ks) (GMapS o) w
| ap_no_member k ks o : assoc k o = None -> at_path (k :: ks) (GMapS o) None
| ap_no_object k ks v : (forall o, v <> GMapS o) -> (forall l, v <> GArr l) -> at_path (k :: ks) v None.

(** what is needed of the JSON-path library *)
Definition PathSpec : Prop :=
  (forall ks q d w, ks <> [] -> Forall field_name ks -> jp_prepare L ("$." ++ dotted ks) = Some q -> at_path ks d w ->
     match w with
     | Some v => asks L q d = Some v
     | None => asks L q d = None \/ asks L q d = Some GNil
     end) /\
  (forall ks mark q d w, ks <> [] -> Forall field_name ks -> In mark ["[:]"; "[*]"] ->
     jp_prepare L ("$." ++ dotted ks ++ mark) = Some q -> at_path ks d w ->
     match w with
     | Some (GArr l) => fst (jp_query L q d) = GArr l
     | Some GNil | None => fst (jp_query L q d) = GNil
     | _ => True
     end).

(** what is needed of the JSON-path library besides, for the entries of objects *)
Definition EntriesSpec : Prop :=
  jp_prepare L "$.*" <> None /\
  (forall ks q d, ks <> [] -> Forall field_name ks -> jp_prepare L ("$." ++ dotted ks) = Some q -> at_path ks d None -> fst (jp_query L q d) = GNil).

(** the value of a condition as a number, with and without units *)
Definition value_number (v : string) (x : f64) : Prop := parse_float L v = Some x /\ quantity L v x /\ x <> S754_nan.
Definition value_text (v : string) : Prop := parse_float L v = None /\ not_number L v.
(** a number that is printed and read back *)
Definition printed (f : f64) : Prop :=
  value_status L (GFloat f) = Present (fmt_float L f) /\ quantity L (fmt_float L f) f /\ f <> S754_nan.
Definition order_kinds : list kind := [KLt; KLe; KGt; KGe].

(** value [v] of a condition and document value ([None]: there is none) on which engine and Mongo agree *)
Inductive comparable (v : string) : kind -> option iface -> Prop :=
| cb_missing k : ~ In k [KNeq; KNe; KNone] -> comparable v k None
| cb_null k : In k (order_kinds ++ [KEq; KRe; KIn])%list -> comparable v k (Some GNil)
| cb_numbers k f x : printed f -> value_number v x -> In k number_kinds -> comparable v k (Some (GFloat f))
| cb_number_text k f : printed f -> value_text v -> In k (order_kinds ++ [KEq; KNeq])%list -> comparable v k (Some (GFloat f))
| cb_text_number k t x : clean t -> t <> "<nil>" -> not_number L t -> value_number v x -> In k (order_kinds ++ [KEq; KNeq])%list ->
    comparable v k (Some (GStr t))
| cb_texts k t : clean t -> t <> "<nil>" -> value_text v -> In k [KEq; KNeq] -> comparable v k (Some (GStr t))
| cb_pattern k t : clean t -> t <> "<nil>" -> In k [KRe; KNre; KIn; KNin] -> comparable v k (Some (GStr t))
| cb_present k u t : value_status L u = Present t -> t <> "" -> In k [KEx; KNex] -> comparable v k (Some u).

(** paths as they are written: in ANY/ALL they are relative to the element *)
Definition written_path (inner : bool) (ks : list string) : string := (if inner then "$RELATIVE." else "$.") ++ dotted ks.

(** the elements ANY and ALL range over *)
Inductive elements_at : option iface -> list iface -> Prop :=
| ea_array l : Forall (fun e => exists o, e = GMapS o) l -> elements_at (Some (GArr l)) l
| ea_null : elements_at (Some GNil) []
| ea_missing : elements_at None [].

(** trees of AND, OR, NOT, ANY, ALL and conditions on paths of plain names *)
Inductive tree :=
| TCond (ks : list string) (method value : string)
| TAnd (ts : list tree)
| TOr (ts : list tree)
| TNot (t : tree)
| TQuant (q : quant) (ks : list string) (mark : string) (t : tree).

(** the tree as it is written in a rule (decoded JSON), inside ANY/ALL or not *)
Fixpoint spelled (inner : bool) (t : tree) : iface :=
  match t with
  | TCond ks method value =>
    GMapS [("attribute", GStr ("jsonpath:" ++ written_path inner ks)); ("method", GStr method); ("value", GStr value)]
  | TAnd ts => GMapS [("AND", GArr (map (spelled inner) ts))]
  | TOr ts => GMapS [("OR", GArr (map (spelled inner) ts))]
  | TNot t => GMapS [("NOT", spelled inner t)]
  | TQuant q ks mark t =>
    GMapS [(match q with QAny => "ANY" | QAll => "ALL" end,
      GMapS [("parentJsonpathAttribute", GStr ("jsonpath:" ++ written_path inner ks ++ mark)); ("condition", spelled true t)])]
  end.

(** [based]: the documents are stored in a field, which ANY and ALL need; mark: [:] or [*] *)
Inductive in_fragment (based : bool) : bool -> tree -> Prop :=
| if_cond inner ks method value : ks <> [] -> Forall field_name ks -> ~ In method ["in"; "nin"] -> in_fragment based inner (TCond ks method value)
| if_and inner ts : ts <> [] -> Forall (in_fragment based inner) ts -> in_fragment based inner (TAnd ts)
| if_or inner ts : ts <> [] -> Forall (in_fragment based inner) ts -> in_fragment based inner (TOr ts)
| if_not inner t : in_fragment based inner t -> in_fragment based inner (TNot t)
| if_quant inner q ks mark t : inner = true \/ based = true -> ks <> [] -> Forall field_name ks -> In mark ["[:]"; "[*]"] ->
    in_fragment based true t -> in_fragment based inner (TQuant q ks mark t).

(** the document (or element) has comparable values wherever the tree looks *)
Inductive suits (p : predef) : tree -> iface -> Prop :=
| su_cond ks method value v k d w : replaced p method value v -> plain_value v -> method_is method k ->
    at_path ks d w -> comparable v k w -> suits p (TCond ks method value) d
| su_and ts d : Forall (fun t => suits p t d) ts -> suits p (TAnd ts) d
| su_or ts d : Forall (fun t => suits p t d) ts -> suits p (TOr ts) d
| su_not t d : suits p t d -> suits p (TNot t) d
| su_quant q ks mark t d w l : at_path ks d w -> elements_at w l -> Forall (suits p t) l -> suits p (TQuant q ks mark t) d.
End WithLib.
