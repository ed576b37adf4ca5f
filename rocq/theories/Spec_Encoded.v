(** Specification of the JSON text of a value and of the text of a value found in a document. *)
From Coq Require Import List String Ascii Bool Arith ZArith Permutation Sorted.
From Verif Require Import Base GoStr Types Spec_Integer Spec_Format Spec_Shown.
Import ListNotations.
Open Scope string_scope.

(** ** Texts between quotation marks *)
Definition hex_of (c : ascii) (n : nat) : Prop := String.get n "0123456789abcdef" = Some c.
Inductive one_escaped (c : ascii) : string -> Prop :=
| oe_mark : c = dq -> one_escaped c (String bslash dqs)
| oe_back : c = bslash -> one_escaped c (String bslash (String bslash ""))
| oe_line : nat_of_ascii c = 10%nat -> one_escaped c (String bslash "n")
| oe_return : nat_of_ascii c = 13%nat -> one_escaped c (String bslash "r")
| oe_tab : nat_of_ascii c = 9%nat -> one_escaped c (String bslash "t")
| oe_code x y i j : (nat_of_ascii c < 32)%nat /\ ~ In (nat_of_ascii c) [9; 10; 13]%nat \/ In c ["<"; ">"; "&"]%char ->
    hex_of x i -> hex_of y j -> nat_of_ascii c = (16 * i + j)%nat -> one_escaped c (String bslash ("u00" ++ String x (String y "")))
| oe_same : (32 <= nat_of_ascii c)%nat -> ~ In c [dq; bslash; "<"; ">"; "&"]%char -> one_escaped c (String c "").
Inductive escaped : string -> string -> Prop :=
| es_end : escaped "" ""
| es_char c s x t : one_escaped c x -> escaped s t -> escaped (String c s) (x ++ t).
Definition quoted (s t : string) : Prop := exists x, escaped s x /\ t = dqs ++ x ++ dqs.

Section WithLib.
Variable L : Lib.
(** an object has its entries in the order of their keys; there is no text for a map with keys that are
    not texts, nor for a number the library does not print *)
Inductive encoded : iface -> string -> Prop :=
| en_null : encoded GNil "null"
| en_true : encoded (GBool true) "true"
| en_false : encoded (GBool false) "false"
| en_int z s : printed_as z s -> encoded (GInt z) s
| en_float f s : json_float L f = Some s -> encoded (GFloat f) s
| en_text x s : quoted x s -> encoded (GStr x) s
| en_array l ss : Forall2 encoded l ss -> encoded (GArr l) ("[" ++ String.concat "," ss ++ "]")
| en_object m ts ts' ss : Forall2 (fun e t => fst t = fst e /\ encoded (snd e) (snd t)) m ts ->
    Permutation ts ts' -> StronglySorted (fun t t' => in_order (fst t) (fst t')) ts' ->
    Forall2 (fun t s => exists k, quoted (fst t) k /\ s = k ++ ":" ++ snd t) ts' ss ->
    encoded (GMapS m) ("{" ++ String.concat "," ss ++ "}").

(** an array or object found in a document has its JSON text, or the empty text if it has none *)
Inductive found : iface -> string -> Prop :=
| fo_array l s : encoded (GArr l) s -> found (GArr l) s
| fo_object m s : encoded (GMapS m) s -> found (GMapS m) s
| fo_no_array l : (forall s, ~ encoded (GArr l) s) -> found (GArr l) ""
| fo_no_object m : (forall s, ~ encoded (GMapS m) s) -> found (GMapS m) ""
| fo_other v s : (forall l, v <> GArr l) -> (forall m, v <> GMapS m) -> shown L v s -> found v s.
End WithLib.
