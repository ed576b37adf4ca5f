(** Which documents an aggregation pipeline selects, and the trees with conditions on the entries of objects
    for which pipeline and engine agree. *)
From Coq Require Import List String Ascii Bool Arith ZArith.
From Verif Require Import Base GoStr Types StrUtils Mongo Spec_Glob Spec_Tree Spec_Leaf Spec_MongoMatch.
Import ListNotations.
Open Scope string_scope.

(** ** Aggregation by MongoDB (not part of the engine; from the MongoDB manual)
    Only the stages the plugin uses. *)
(** the names of a dotted path; empty names and names with a dollar sign are refused *)
Definition path_names (s : string) : option (list string) :=
  let ks := split_char "." s in
  if forallb (fun k => negb (String.eqb k "") && negb (String.prefix "$" k)) ks then Some ks else None.

(** the value of the expression "$path": a path through an array gives the array of what its objects have *)
Fixpoint field_value (ks : list string) (d : iface) : option iface :=
  match ks with
  | [] => Some d
  | k :: ks' =>
    let below := fun o => match assoc k o with Some x => field_value ks' x | None => None end in
    match d with
    | GMapS o => below o
    | GArr l => Some (GArr (List.concat (map (fun e => match e with
                                                       | GMapS o => match below o with Some x => [x] | None => [] end
                                                       | _ => [] end) l)))
    | _ => None
    end
  end.

(** $objectToArray: an error unless it is an object, null or missing *)
Definition entry (kx : string * iface) : iface := GMapS [("k", GStr (fst kx)); ("v", snd kx)].
Definition object_to_array (v : option iface) : option iface :=
  match v with
  | Some (GMapS o) => Some (GArr (map entry o))
  | Some GNil | None => Some GNil
  | _ => None
  end.

(** a document with a value stored at a path: in all elements of an array, and over anything that is not an object *)
Definition set_member (k : string) (x : iface) (o : list (string * iface)) : list (string * iface) :=
  match assoc k o with
  | Some _ => map (fun ky => if String.eqb (fst ky) k then (fst ky, x) else ky) o
  | None => (o ++ [(k, x)])%list
  end.
Fixpoint store (ks : list string) (x : iface) : iface -> iface :=
  match ks with
  | [] => fun _ => x
  | k :: ks' =>
    fix at_key (d : iface) : iface :=
      match d with
      | GMapS o => GMapS (set_member k (store ks' x (match assoc k o with Some y => y | None => GNil end)) o)
      | GArr l => GArr (map at_key l)
      | _ => GMapS [(k, store ks' x GNil)]
      end
  end.

(** what becomes of a document *)
Inductive fate := Error | Dropped | Kept (d : iface).

Section WithLib.
Variable L : Lib.

Definition stage (s : bson) (d : iface) : fate :=
  match s with
  | BDoc [(o, b)] =>
    if String.eqb o "$match" then if matches L b (Document d) then Kept d else Dropped
    else if String.eqb o "$addFields" then
      match b with
      | BDoc [(field, BDoc [(f, BStr (String c source))])] =>
        if String.eqb f "$objectToArray" && Ascii.eqb c "$" then
          match path_names field, path_names source with
          | Some target, Some ks =>
            match object_to_array (field_value ks d) with Some x => Kept (store target x d) | None => Error end
          | _, _ => Error
          end
        else Error
      | _ => Error
      end
    else Error
  | _ => Error
  end.
Fixpoint pipeline (ss : list bson) (d : iface) : fate :=
  match ss with
  | [] => Kept d
  | s :: ss' => match stage s d with Kept d' => pipeline ss' d' | f => f end
  end.
Definition aggregates (r : mongo_result) (d : iface) : fate :=
  match r with
  | Simple q => if matches L q (Document d) then Kept d else Dropped
  | Aggregate p => pipeline p d
  end.
(** the server returns the document, or does not, without an error *)
Definition selected_by (r : mongo_result) (d : iface) (b : bool) : Prop :=
  match aggregates r d with Kept _ => b = true | Dropped => b = false | Error => False end.

(** ** The common fragment *)
Inductive part := Key | Value.
(** trees of AND, OR and NOT over the trees of Spec_MongoMatch and over ANY on the entries of an object with
    one condition on the key or the value *)
Inductive wide :=
| WTree (t : tree)
| WEntry (ks : list string) (what : part) (method value : string)
| WAnd (ts : list wide)
| WOr (ts : list wide)
| WNot (t : wide).

Fixpoint wide_spelled (t : wide) : iface :=
  match t with
  | WTree t => spelled false t
  | WEntry ks what method value =>
    GMapS [("ANY", GMapS [("parentJsonpathAttribute", GStr ("jsonpath:$." ++ dotted ks));
      ("condition", GMapS [("attribute", GStr (match what with Key => "jsonpath:$KEY" | Value => "jsonpath:$VALUE" end));
                           ("method", GStr method); ("value", GStr value)])])]
  | WAnd ts => GMapS [("AND", GArr (map wide_spelled ts))]
  | WOr ts => GMapS [("OR", GArr (map wide_spelled ts))]
  | WNot t => GMapS [("NOT", wide_spelled t)]
  end.

(** the objects whose entries are read *)
Fixpoint objects (t : wide) : list (list string) :=
  match t with
  | WTree _ => []
  | WEntry ks _ _ _ => [ks]
  | WAnd ts | WOr ts => List.concat (map objects ts)
  | WNot t => objects t
  end.
(** none of them is inside another *)
Definition not_nested (t : wide) : Prop :=
  forall ks k rest, In ks (objects t) -> ~ In (ks ++ k :: rest)%list (objects t).

Inductive in_wide : wide -> Prop :=
| iw_tree t : in_fragment true false t -> in_wide (WTree t)
| iw_entry ks what method value : ks <> [] -> Forall field_name ks -> ~ In method ["in"; "nin"] -> in_wide (WEntry ks what method value)
| iw_and ts : ts <> [] -> Forall in_wide ts -> in_wide (WAnd ts)
| iw_or ts : ts <> [] -> Forall in_wide ts -> in_wide (WOr ts)
| iw_not t : in_wide t -> in_wide (WNot t).

(** the entries ANY ranges over *)
Inductive entries_at : option iface -> list (string * iface) -> Prop :=
| en_object o : NoDup (map fst o) -> entries_at (Some (GMapS o)) o
| en_null : entries_at (Some GNil) []
| en_missing : entries_at None [].
Definition entry_part (what : part) (kx : string * iface) : iface := match what with Key => GStr (fst kx) | Value => snd kx end.
(** methods asking for a value, not for the absence of one *)
Definition positive_kinds : list kind := [KEq; KLt; KLe; KGt; KGe; KRe; KIn; KEx].

Inductive wide_suits (p : predef) : wide -> iface -> Prop :=
| ws_tree t d : suits L p t d -> wide_suits p (WTree t) d
| ws_entry ks what method value v k d w o : replaced p method value v -> plain_value v -> method_is method k -> In k positive_kinds ->
    at_path ks d w -> entries_at w o -> Forall (fun kx => comparable L v k (Some (entry_part what kx))) o ->
    wide_suits p (WEntry ks what method value) d
| ws_and ts d : Forall (fun t => wide_suits p t d) ts -> wide_suits p (WAnd ts) d
| ws_or ts d : Forall (fun t => wide_suits p t d) ts -> wide_suits p (WOr ts) d
| ws_not t d : wide_suits p t d -> wide_suits p (WNot t) d.
End WithLib.
