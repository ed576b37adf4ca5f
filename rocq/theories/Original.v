(** The slower way of splitting the bytes of an array into its elements. *)
From Coq Require Import List String Ascii Bool Arith ZArith.
From Verif Require Import Base GoStr GoFloat Types Json.
Import ListNotations.
Open Scope string_scope.

Section WithLib.
Variable L : Lib.
(** check.go:1020-1035 getArrayOfJsonsFromInterfaceArrayOriginal; [None] = error.  json.Unmarshal into []interface{} accepts an
    array, or null which leaves the nil slice; anything else is an error. *)
Definition split_original (data : string) : option (list string) :=
  match json_parse L data with
  | Some (GArr vs) => all_some (map (json_marshal L) vs)
  | Some GNil => Some []
  | _ => None
  end.
End WithLib.
