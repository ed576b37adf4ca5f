(** Specification of loading: equivalent spellings, shape of loaded trees, ambiguous maps. *)
From Coq Require Import List String Ascii Bool Arith ZArith.
From Verif Require Import Base GoStr GoFloat Types Json StrUtils Validate Prepare Spec_Tree Spec_Leaf Spec_Validate.
Import ListNotations.
Open Scope string_scope.

(** a Go map has each key once *)
Inductive go_value : iface -> Prop :=
| gv_nil : go_value GNil
| gv_bool b : go_value (GBool b)
| gv_int z : go_value (GInt z)
| gv_float f : go_value (GFloat f)
| gv_str s : go_value (GStr s)
| gv_arr l : Forall go_value l -> go_value (GArr l)
| gv_mapS m : NoDup (keys m) -> Forall (fun kv => go_value (snd kv)) m -> go_value (GMapS m)
| gv_mapI m : NoDup (map fst m) -> Forall (fun kv => go_value (snd kv)) m -> go_value (GMapI m).

(** ** Equivalent spellings *)
(** A value under keywords that carry no meaning; a one-element array is allowed on the outside. *)
Definition transparent : list string := ["condition"; "conditionsTree"].
Inductive under_keys (v : iface) : iface -> Prop :=
| uk_here : under_keys v v
| uk_json k w : In k transparent -> under_keys v w -> under_keys v (GMapS [(k, w)])
| uk_yaml k w : In k transparent -> under_keys v w -> under_keys v (GMapI [(GStr k, w)]).
Inductive wrapped (v : iface) : iface -> Prop :=
| wr_keys w : under_keys v w -> wrapped v w
| wr_array w : wrapped v w -> wrapped v (GArr [w]).

Definition is_map (v : iface) : Prop := (exists m, v = GMapS m) \/ (exists m, v = GMapI m).

(** The same value with some maps in the style of the YAML decoder; numbers may be integers or floating-point numbers.  The value
    of a condition must be printed alike, because that is what becomes of it. *)
Definition number_value (v : iface) : Prop := (exists z, v = GInt z) \/ (exists f, v = GFloat f).
Inductive restyled (L : Lib) : iface -> iface -> Prop :=
| rs_same v : restyled L v v
| rs_number v v' : number_value v -> number_value v' -> restyled L v v'
| rs_array l l' : Forall2 (restyled L) l l' -> restyled L (GArr l) (GArr l')
| rs_map m m' : Forall2 (fun a b => fst a = fst b /\ (In (fst a) ["value"; "Value"] -> go_fmt L (snd a) = go_fmt L (snd b)) /\ restyled L (snd a) (snd b)) m m' ->
    restyled L (GMapS m) (GMapS m')
| rs_yaml m m' : NoDup (keys m) ->
    Forall2 (fun a b => GStr (fst a) = fst b /\ (In (fst a) ["value"; "Value"] -> go_fmt L (snd a) = go_fmt L (snd b)) /\ restyled L (snd a) (snd b)) m m' ->
    restyled L (GMapS m) (GMapI m').

(** ** Shape of loaded trees *)
Section WithLib.
Variable L : Lib.

(** the returned values of a condition as loaded: the path is relative when it starts with jsonpath:$RELATIVE *)
Definition loaded_returns (m : option (list (string * string))) (r : retpart L) : Prop :=
  r_orig r = m /\
  match m with
  | None => r_paths r = None
  | Some m => (exists paths, r_paths r = Some paths /\ keys paths = keys m) /\ keys (r_rel r) = keys m /\
      forall name b, In (name, b) (r_rel r) -> exists path, In (name, path) m /\ (b = true <-> starts "jsonpath:$RELATIVE" path)
  end.

Definition legal_parent (s : string) : Prop :=
  starts "jsonpath:." s \/ starts "jsonpath:$." s \/ starts "jsonpath:$RELATIVE" s.

(** [NNil]: only inside NOT, ANY or ALL *)
Inductive loaded : node L -> Prop :=
| ld_and ns : Forall loaded ns -> loaded (NAnd ns)
| ld_or ns : Forall loaded ns -> loaded (NOr ns)
| ld_not n : n = NNil \/ loaded n -> loaded (NNot n)
| ld_quant q a n : n = NNil \/ loaded n ->
    legal_parent (a_orig a) ->
    a_parent a = replace_all (a_orig a) "jsonpath:" "" ->
    a_parents a = [] -> a_prep a = [] ->
    (a_ret a = no_ret \/ exists m, m <> [] /\ loaded_returns (Some m) (a_ret a) /\
       Forall (fun e => starts "jsonpath:$RELATIVE" (snd e)) m) ->
    loaded (NQuant q a n)
| ld_cond c m : acceptable L (c_attr c) (c_method c) (c_value c) -> loaded_returns m (c_ret c) ->
    c_lab c = no_lab -> c_obj c = no_obj -> c_jp c = no_jp -> c_orig c = no_orig ->
    loaded (NCond c).
End WithLib.

(** ** Ambiguous input *)
(** keys of an ANY or ALL map that hold an inner condition *)
Definition inner_key (k : string) : Prop := k <> "parentJsonpathAttribute" /\ k <> "returnValueJsonpath".

(** a value that is not a map with two of them *)
Definition one_inner (v : iface) : Prop :=
  (forall m k k', v = GMapS m -> In k (keys m) -> In k' (keys m) -> inner_key k -> inner_key k' -> k = k') /\
  (forall m k k', v = GMapI m -> In (GStr k) (map fst m) -> In (GStr k') (map fst m) -> inner_key k -> inner_key k' -> k = k').
Inductive single : iface -> Prop :=
| sg_nil : single GNil
| sg_bool b : single (GBool b)
| sg_int z : single (GInt z)
| sg_float f : single (GFloat f)
| sg_str s : single (GStr s)
| sg_arr l : Forall single l -> single (GArr l)
| sg_mapS m : Forall (fun kv => single (snd kv)) m ->
    (forall k x, In (k, x) m -> In k ["ANY"; "ALL"] -> one_inner x) -> single (GMapS m)
| sg_mapI m : Forall (fun kv => single (snd kv)) m ->
    (forall k x, In (GStr k, x) m -> In k ["ANY"; "ALL"] -> one_inner x) -> single (GMapI m).
