(** Specification of stored trees. *)
From Coq Require Import List String Ascii Bool Arith ZArith Permutation.
From Verif Require Import Base GoStr Types Spec_Glob Spec_Json.
Import ListNotations.
Open Scope string_scope.

(** [v'] is [v] with the entries of its objects listed in some other order *)
Inductive reordered : iface -> iface -> Prop :=
| ro_null : reordered GNil GNil
| ro_bool b : reordered (GBool b) (GBool b)
| ro_str s : reordered (GStr s) (GStr s)
| ro_arr l l' : Forall2 reordered l l' -> reordered (GArr l) (GArr l')
| ro_map m m' m2 : Forall2 (fun a b => fst a = fst b /\ reordered (snd a) (snd b)) m m2 -> Permutation m2 m' ->
    reordered (GMapS m) (GMapS m').

(** Keys of BSON documents end at the first NUL. *)
Definition key_text (k : string) : Prop := all_chars (fun c => nat_of_ascii c <> 0)%nat k.
Inductive storable : iface -> Prop :=
| st_null : storable GNil
| st_bool b : storable (GBool b)
| st_str s : storable (GStr s)
| st_arr l : Forall storable l -> storable (GArr l)
| st_map m : NoDup (keys m) -> Forall (fun e => key_text (fst e)) m -> Forall (fun e => storable (snd e)) m -> storable (GMapS m).

(** what is assumed of BSON: such documents come back, up to the order of keys *)
Definition BsonSpec (bson_marshal : list (string * iface) -> option string) (bson_unmarshal : string -> option (list (string * iface))) : Prop :=
  forall doc, storable (GMapS doc) ->
  exists data doc', bson_marshal doc = Some data /\ bson_unmarshal data = Some doc' /\ reordered (GMapS doc) (GMapS doc').

Section WithLib.
Variable L : Lib.
(** the return values written somewhere in a tree *)
Inductive returns_in (m : list (string * string)) : node L -> Prop :=
| ri_cond c : r_orig (c_ret c) = Some m -> returns_in m (NCond c)
| ri_quant q a n : r_orig (a_ret a) = Some m -> returns_in m (NQuant q a n)
| ri_inner q a n : returns_in m n -> returns_in m (NQuant q a n)
| ri_and n ns : In n ns -> returns_in m n -> returns_in m (NAnd ns)
| ri_or n ns : In n ns -> returns_in m n -> returns_in m (NOr ns)
| ri_not n : returns_in m n -> returns_in m (NNot n).

(** Go maps have no order of entries; the model lists them, here by key *)
Definition listed (n : node L) : Prop := forall m, returns_in m n -> sorted_keys m.
(** the names of the return values are keys of BSON documents *)
Definition named (n : node L) : Prop := forall m, returns_in m n -> Forall (fun e => key_text (fst e)) m.
End WithLib.
