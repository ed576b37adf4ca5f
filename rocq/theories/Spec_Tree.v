(** Declarative semantics of condition trees, independent of the evaluator. *)
From Coq Require Import List String Ascii Bool Arith ZArith Permutation.
From Verif Require Import Base GoFloat Types.
Import ListNotations.
Open Scope string_scope.

(** Map iteration may visit the keys in any order, but visits each exactly once. *)
Definition fair (ord : order) : Prop := forall n ks, Permutation (ord n ks) ks.

Definition starts (p s : string) : Prop := exists rest, s = p ++ rest.

Section WithLib.
Variable L : Lib.
Notation cond := (cond L).
Notation node := (node L).

(** ** Selected elements on a parsed document *)

(** [es] lists the entries of the object [m] as one-entry objects, in some order *)
Definition entries (m : list (string * iface)) (es : list iface) : Prop :=
  exists ks, Permutation ks (map fst m) /\
    Forall2 (fun k e => exists v, assoc k m = Some v /\ e = GMapS [(k, v)]) ks es.

Inductive arranged : iface -> list iface -> Prop :=
| ar_object m es : entries m es -> arranged (GMapS m) es
| ar_null : arranged GNil []
| ar_nested ls : arranged (GArr (map GArr ls)) (List.concat ls)
| ar_flat l : ~ (exists ls, l = map GArr ls) -> arranged (GArr l) l.

(** the path refers to the current element *)
Definition refers_to_element (p : string) : Prop :=
  starts "$RELATIVE." p \/ p = "$RELATIVE*" \/ starts "$KEY." p \/ starts "$VALUE." p.

(** elements selected by the parent paths of ANY/ALL on a parsed document: the union over the
    queries of the arranged results *)
Definition selected (a : aanode L) (m : message) (vs : list iface) : Prop :=
  if String.eqb (a_parent a) "$RELATIVE*"
  then exists obj, m_raw_rel m = Some (GMapS obj) /\ entries obj vs
  else exists doc parts,
      (a_prep a <> [] ->
        (refers_to_element (a_parent a) -> m_raw_rel m = Some doc) /\
        (~ refers_to_element (a_parent a) -> m_raw m = Some doc)) /\
      Forall2 (fun q part => exists f, q = Some f /\ arranged (fst (jp_query L f doc)) part) (a_prep a) parts /\
      vs = List.concat parts.

(** ** Truth of trees.
    [leaf] gives the possible outcomes of a condition, [contexts] the messages the inner
    condition of ANY/ALL ranges over ([None]: the elements cannot be determined). *)
Variable leaf : cond -> message -> bool -> Prop.
Variable contexts : aanode L -> message -> option (list message) -> Prop.

Fixpoint truth (n : node) (m : message) (b : bool) : Prop :=
  match n with
  | NTrue => b = true
  | NFalse => b = false
  | NCond c => leaf c m b
  | NNil => False
  | NNot n' => truth n' m (negb b)
  | NAnd ns => if b then fold_right (fun n' p => truth n' m true /\ p) True ns
               else fold_right (fun n' p => truth n' m false \/ p) False ns
  | NOr ns => if b then fold_right (fun n' p => truth n' m true \/ p) False ns
              else fold_right (fun n' p => truth n' m false /\ p) True ns
  | NQuant q a n' =>
    (exists ms, contexts a m (Some ms) /\
      match q, b with
      | QAny, true => Exists (fun m' => truth n' m' true) ms
      | QAny, false => Forall (fun m' => truth n' m' false) ms
      | QAll, true => Forall (fun m' => truth n' m' true) ms
      | QAll, false => Exists (fun m' => truth n' m' false) ms
      end)
    \/ (contexts a m None /\ b = false)
  end.

End WithLib.

(** A tree is unambiguous on a message when no condition reads "the" key or value of an element
    that has several. *)
Section Unambiguous.
Variable L : Lib.
Variable contexts : aanode L -> message -> option (list message) -> Prop.

(** the condition reads $KEY, $VALUE or $VALUE... of the current element *)
Definition reads_entry (c : cond L) : Prop :=
  j_rel (c_jp c) = true /\ (j_query (c_jp c) = "$KEY" \/ starts "$VALUE" (j_query (c_jp c))).

Definition one_entry (m : message) : Prop :=
  forall obj, m_raw_rel m = Some (GMapS obj) -> (List.length obj <= 1)%nat.

Fixpoint unambiguous (n : node L) (m : message) : Prop :=
  match n with
  | NTrue | NFalse | NNil => True
  | NCond c => reads_entry c -> one_entry m
  | NNot n' => unambiguous n' m
  | NAnd ns | NOr ns => fold_right (fun n' p => unambiguous n' m /\ p) True ns
  | NQuant _ a n' => forall ms, contexts a m (Some ms) -> Forall (unambiguous n') ms
  end.
End Unambiguous.
