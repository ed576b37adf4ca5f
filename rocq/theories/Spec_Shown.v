(** Specification of the text of a value in a rule that is not written as a text. *)
From Coq Require Import List String Ascii Bool Arith ZArith.
From Verif Require Import Base Types Spec_Integer Spec_Format.
Import ListNotations.
Open Scope string_scope.

Section WithLib.
Variable L : Lib.
(** numbers in decimal digits, lists between brackets, maps in the order of their keys;
    floating-point numbers and maps with keys that are not texts are printed by the library *)
Inductive shown : iface -> string -> Prop :=
| sh_nil : shown GNil "<nil>"
| sh_true : shown (GBool true) "true"
| sh_false : shown (GBool false) "false"
| sh_int z s : printed_as z s -> shown (GInt z) s
| sh_float f : shown (GFloat f) (fmt_float L f)
| sh_text s : shown (GStr s) s
| sh_list l ss : Forall2 shown l ss -> shown (GArr l) ("[" ++ String.concat " " ss ++ "]")
| sh_map m ts s : Forall2 (fun e t => fst t = fst e /\ shown (snd e) (snd t)) m ts -> map_text ts s -> shown (GMapS m) s
| sh_other m : shown (GMapI m) (fmt_mapI L m).
End WithLib.
