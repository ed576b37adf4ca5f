(** Specification of the life of a rule object: which dictionary its prepared form comes from. *)
From Coq Require Import List String Ascii Bool Arith ZArith.
From Verif Require Import Base GoStr GoFloat Types Json StrUtils Validate Prepare Parse Marshal Lifecycle Eval Check Spec_Tree Spec_Validate.
Import ListNotations.
Open Scope string_scope.

(** ** Dictionaries *)
(** [v] is the dictionary [p] with its lists resolved one level *)
Definition resolved_form (p v : predef) : Prop :=
  p_strings v = p_strings p /\ p_lists v = p_lists p /\
  forall name, match assoc name (p_lists p), assoc name (p_resolved v) with
               | Some l, Some l' => Forall2 (item_resolved (p_strings p)) l l'
               | None, None => True
               | _, _ => False
               end.
Definition bad_list (p : predef) : Prop :=
  exists name l s, In (name, l) (p_lists p) /\ In s l /\ unresolvable (p_strings p) s.

(** the global dictionary after the calls [ps] (the last call first) *)
Inductive global_after (g : predef) : list predef -> predef -> Prop :=
| ga_start : global_after g [] g
| ga_good p ps v : ~ bad_list p -> resolved_form p v -> global_after g (p :: ps) v
| ga_bad p ps v : bad_list p -> global_after g ps v -> global_after g (p :: ps) v.

(** ** Histories *)
Inductive op :=
| SetGlobal (p : predef)      (* SetGlobalPredefinedStringsAndLists *)
| SetRule (p : predef)        (* (Rule).SetPredefinedStringsAndLists *)
| CheckRule (m : message)     (* (Rule).Check *)
| TestRule (m : message)      (* (Rule).TestConditions *)
| CheckList (m : message).    (* Check over a list holding the rule *)

Section WithLib.
Variable L : Lib.
Variable ord : order.

Record world := mkWorld { w_global : predef; w_rule : rstate L; w_tick : nat }.

(** one call; [None] is a panic *)
Definition step (o : op) (w : world) : option world :=
  let g := w_global w in
  match o with
  | SetGlobal p => Some (mkWorld (fst (set_global g p)) (w_rule w) (w_tick w))
  | SetRule p =>
    match set_predefined L ord p (w_rule w) (w_tick w) with
    | (Panic, _, _) => None
    | (_, s, t) => Some (mkWorld g s t)
    end
  | CheckRule m =>
    match check_one_rule L ord g (w_rule w) (mkEst m (w_tick w)) with
    | (Some (_, s), e) => Some (mkWorld g s (e_tick e))
    | (None, _) => None
    end
  | TestRule m =>
    match test_conditions L ord g (w_rule w) (mkEst m (w_tick w)) with
    | (Some (_, s), e) => Some (mkWorld g s (e_tick e))
    | (None, _) => None
    end
  | CheckList m =>
    match check L ord g [w_rule w] (mkEst m (w_tick w)) with
    | (Some _, e) => Some (mkWorld g (w_rule w) (e_tick e))
    | (None, _) => None
    end
  end.

(** the history [h], last call first *)
Fixpoint run (h : list op) (w : world) : option world :=
  match h with
  | [] => Some w
  | o :: h' => match run h' w with Some w' => step o w' | None => None end
  end.

(** [c] is the copy made of the rule, whatever the iteration order *)
Variable c : rule L.
(** preparation with [p] gives [r] *)
Definition gives (p : predef) (r : rule L) : Prop := prepare_rule L p c = Ok r.
Definition works (p : predef) : Prop := exists r, gives p r.

(** the global dictionary after [h] *)
Fixpoint calls (h : list op) : list predef :=
  match h with
  | [] => []
  | SetGlobal p :: h' => p :: calls h'
  | _ :: h' => calls h'
  end.

(** After [h] the rule's prepared form comes from the dictionary [d] (if any), and [settled] tells
    whether the next check through the rule uses it without preparing again.
    [g] gives the global dictionary after a list of calls. *)
Inductive in_use (g : list predef -> predef) : list op -> option predef -> bool -> Prop :=
| iu_start : in_use g [] None false
| iu_global p h d b : in_use g h d b -> in_use g (SetGlobal p :: h) d b
| iu_list m h d b : in_use g h d b -> in_use g (CheckList m :: h) d b
| iu_set p h d b : works p -> in_use g h d b -> in_use g (SetRule p :: h) (Some p) true
| iu_failed p h d b : ~ works p -> in_use g h d b -> in_use g (SetRule p :: h) d false
| iu_settled o m h d : o = CheckRule m \/ o = TestRule m -> in_use g h d true -> in_use g (o :: h) d true
| iu_first o m h d : o = CheckRule m \/ o = TestRule m -> in_use g h d false -> works (g (calls h)) ->
    in_use g (o :: h) (Some (g (calls h))) true
| iu_stale o m h d : o = CheckRule m \/ o = TestRule m -> in_use g h d false -> ~ works (g (calls h)) ->
    in_use g (o :: h) d false.
End WithLib.
Arguments mkWorld {L}. Arguments w_global {L}. Arguments w_rule {L}. Arguments w_tick {L}.
