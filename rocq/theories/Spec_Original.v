(** Specification of two lists of texts naming the same values. *)
From Coq Require Import List String Ascii Bool Arith ZArith.
From Verif Require Import Base GoStr GoFloat Types Json Spec_Json.
Import ListNotations.
Open Scope string_scope.

(** the same value, the entries of objects in any order *)
Inductive same_value : iface -> iface -> Prop :=
| sv_null : same_value GNil GNil
| sv_bool b : same_value (GBool b) (GBool b)
| sv_number f : same_value (GFloat f) (GFloat f)
| sv_string s : same_value (GStr s) (GStr s)
| sv_array l l' : Forall2 same_value l l' -> same_value (GArr l) (GArr l')
| sv_object m m' : (forall k, (exists v, In (k, v) m) <-> (exists v, In (k, v) m')) ->
    (forall k v v', In (k, v) m -> In (k, v') m' -> same_value v v') -> same_value (GMapS m) (GMapS m').

Definition an_object (v : iface) : Prop := exists m, v = GMapS m.

Section WithLib.
Variable L : Lib.
(** every number in the value is printed as a number that is read back unchanged *)
Inductive numbers_kept : iface -> Prop :=
| nk_null : numbers_kept GNil
| nk_bool b : numbers_kept (GBool b)
| nk_string s : numbers_kept (GStr s)
| nk_number f s : json_float L f = Some s -> number_text s -> parse_float L s = Some f -> numbers_kept (GFloat f)
| nk_array l : Forall numbers_kept l -> numbers_kept (GArr l)
| nk_object m : Forall (fun e => numbers_kept (snd e)) m -> numbers_kept (GMapS m).

(** both texts are JSON texts, of the same value *)
Definition same_text (a b : string) : Prop := exists v v', document L v a /\ document L v' b /\ same_value v v'.
End WithLib.
