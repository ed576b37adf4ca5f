(** Specification of evaluation on raw bytes in shared memory. *)
From Coq Require Import List String Ascii Bool Arith ZArith.
From Verif Require Import Base GoStr Types Eval Slices.
Import ListNotations.
Open Scope string_scope.

(** the slice lies in an array *)
Definition in_heap (h : heap) (s : slice) : Prop :=
  exists a, nth_error h (sl_arr s) = Some a /\ sl_off s + sl_len s <= String.length a.
Definition in_memory (st : mst) : Prop :=
  (forall s, s_doc st = Some s -> in_heap (s_heap st) s) /\ (forall s, s_rel st = Some s -> in_heap (s_heap st) s).

(** the places of the results of jsonslice.Get hold the bytes it returns *)
Definition well_placed (L : Lib) (G : memory) : Prop :=
  forall data path,
  match js_get L data path, get_place G data path with
  | (_, true), None => True
  | (bytes, false), Some (New x) => x = bytes
  | (bytes, false), Some (Within off len) =>
      exists before after, data = before ++ bytes ++ after /\ String.length before = off /\ String.length bytes = len
  | _, _ => False
  end.
(** it never returns a part of what it is given *)
Definition always_new (G : memory) : Prop := forall data path off len, get_place G data path <> Some (Within off len).

(** ANY and ALL have one parent path each *)
Inductive one_parent {L : Lib} : node L -> Prop :=
| op_and ns : Forall one_parent ns -> one_parent (NAnd ns)
| op_or ns : Forall one_parent ns -> one_parent (NOr ns)
| op_not n : one_parent n -> one_parent (NNot n)
| op_quant q a n : List.length (a_parents a) <= 1 -> one_parent n -> one_parent (NQuant q a n)
| op_true : one_parent NTrue
| op_false : one_parent NFalse
| op_cond c : one_parent (NCond c)
| op_nil : one_parent NNil.
