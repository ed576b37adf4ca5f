(** Storing a tree as BSON: conditions_tree.go:67-95. *)
From Coq Require Import List String Ascii Bool Arith ZArith.
From Verif Require Import Base GoStr GoFloat Types Json Parse Marshal.
Import ListNotations.
Open Scope string_scope.

Section WithLib.
Variable L : Lib.
Variable ord : order.
(** bson.Marshal of a map[string]interface{} and bson.Unmarshal into one (mongo-driver); None is an error.
    Nested documents are decoded to maps and arrays to slices. *)
Variable bson_marshal : list (string * iface) -> option string.
Variable bson_unmarshal : string -> option (list (string * iface)).

(** json.Unmarshal into a map[string]interface{} (conditions_tree.go:89-92).
    null leaves the map nil, which bson.Marshal writes as an empty document. *)
Definition json_document (s : string) : option (list (string * iface)) :=
  match json_parse L s with
  | Some (GMapS m) => Some m
  | Some GNil => Some []
  | _ => None
  end.

(** conditions_tree.go:83-95 (ConditionsTree).MarshalBSON *)
Definition marshal_bson_tree (t : option (node L)) : res string :=
  do s <- tree_json L t;
  match json_document s with
  | None => Err
  | Some doc => match bson_marshal doc with Some data => Ok data | None => Err end
  end.

(** conditions_tree.go:67-81 (ConditionsTree).UnmarshalBSON; [Ok None] is a nil tree *)
Definition unmarshal_bson_tree (data : string) : P (option (node L)) :=
  match bson_unmarshal data with
  | None => pret Err
  | Some doc =>
    match json_marshal L (GMapS doc) with
    | None => pret Err
    | Some s => unmarshal_json_tree L ord s
    end
  end.
End WithLib.
