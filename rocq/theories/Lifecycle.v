(** Preparation state of rules, predefined strings and lists: rules_load.go:16-25, 64-118, 182-235,
    551-570, predefined_lists_load.go:11-69 *)
From Coq Require Import List String Ascii Bool Arith ZArith.
From Verif Require Import Base GoStr GoFloat Types Json StrUtils Validate Prepare Parse Marshal.
Import ListNotations.
Open Scope string_scope.

(** predefined_lists_load.go:51-60: one list *)
Fixpoint resolve_list (strings : list (string * string)) (l : list string) : option (list string) :=
  match l with
  | [] => Some []
  | s :: l' =>
    match (if has_prefix s "#" then assoc (replace_first s "#" "") strings else Some s) with
    | None => None
    | Some x => option_map (cons x) (resolve_list strings l')
    end
  end.

(** predefined_lists_load.go:42-69 validatePredefinedString, the loop over the keys of the lists in
    the order [ks]; [acc] is PredefinedListsWithoutRefs so far.  [None] is the error. *)
Fixpoint resolve_visiting (strings : list (string * string)) (ls : list (string * list string))
    (ks : list string) (acc : list (string * list string)) : option (list (string * list string)) :=
  match ks with
  | [] => Some acc
  | k :: ks' =>
    match resolve_list strings (match assoc k ls with Some l => l | None => [] end) with
    | None => None
    | Some x => resolve_visiting strings ls ks' (upsert k x acc)
    end
  end.
Definition validate_predef_visiting (ks : list string) (p : predef) : res predef :=
  match resolve_visiting (p_strings p) (p_lists p) ks [] with
  | Some r => Ok (mkPredef (p_strings p) (p_lists p) r)
  | None => Err
  end.

(** The same with the lists visited in list order: the result does not depend on the order
    (C27), so the rest of the model uses this form. *)
Fixpoint resolve_lists (strings : list (string * string)) (ls : list (string * list string))
  : option (list (string * list string)) :=
  match ls with
  | [] => Some []
  | (k, l) :: ls' =>
    match resolve_list strings l with
    | None => None
    | Some x => option_map (cons (k, x)) (resolve_lists strings ls')
    end
  end.
Definition validate_predef (p : predef) : res predef :=
  match resolve_lists (p_strings p) (p_lists p) with
  | Some r => Ok (mkPredef (p_strings p) (p_lists p) r)
  | None => Err
  end.

(** rules_load.go:16-25 SetGlobalPredefinedStringsAndLists: new value of the global and outcome *)
Definition set_global (g p : predef) : predef * res unit :=
  match validate_predef p with
  | Ok v => (v, Ok tt)
  | Err => (g, Err)
  | Panic => (g, Panic)
  end.

Section WithLib.
Variable L : Lib.
Variable ord : order.
Notation rule := (rule L).

(** A rule together with its private fields (definitions_rule.go:114-116) *)
Record rstate := mkRstate {
  rs_rule : rule;
  rs_lists : predef;            (* predefinedStringsAndLists *)
  rs_ready : bool;              (* ruleAlreadyPrepared *)
  rs_prepared : option rule     (* preparedRule *)
}.

(** a rule as loaded from YAML or JSON *)
Definition load_rule (r : rule) : rstate := mkRstate r empty_predef false None.

(** rules_load.go:64-86 (Rule).SetPredefinedStringsAndLists: outcome and the new rule, also when
    the outcome is an error or a panic *)
Definition set_predefined (p : predef) (s : rstate) (t : nat) : res unit * rstate * nat :=
  match copy_rule L ord (rs_rule s) t with
  | (Err, t') => (Err, mkRstate (rs_rule s) (rs_lists s) false (rs_prepared s), t')
  | (Panic, t') => (Panic, mkRstate (rs_rule s) (rs_lists s) false (rs_prepared s), t')
  | (Ok c, t') =>
    match prepare_rule L p c with
    | Err => (Err, mkRstate (rs_rule s) p false (rs_prepared s), t')
    | Panic => (Panic, mkRstate (rs_rule s) p false (rs_prepared s), t')
    | Ok c' => (Ok tt, mkRstate (rs_rule s) p true (Some c'), t')
    end
  end.

(** rules_load.go:88-96 GetPreparedRule; [None] is the nil pointer *)
Definition empty_rule : rule :=
  mkRule "" "" "" [] "" "" [] "" "" "" None "" None "" [] "" None false.
Definition get_prepared (s : rstate) : option rule :=
  if rs_ready s then rs_prepared s else Some empty_rule.

(** rules_load.go:98-118: preparation of every rule when loading with predefined strings
    (after YAML decoding) *)
Fixpoint load_with_predefined (p : predef) (rs : list rule) (t : nat) : res (list rstate) * nat :=
  match rs with
  | [] => (Ok [], t)
  | r :: rs' =>
    match set_predefined p (load_rule r) t with
    | (Ok _, s, t') =>
      match load_with_predefined p rs' t' with
      | (Ok l, t'') => (Ok (s :: l), t'')
      | (e, t'') => (e, t'')
      end
    | (Err, _, t') => (Err, t')
    | (Panic, _, t') => (Panic, t')
    end
  end.

(** rules_load.go:551-570 ValidateRule *)
Definition validate_rule (r : rule) : P unit :=
  pdo c <- copy_rule L ord r;
  pdo c <- pret (convert_fields L c);
  pret (match ru_tree c with
        | None => Ok tt
        | Some n => do _ <- prepare_node L empty_predef n; Ok tt
        end).

(** rules_load.go:202-213 PrepareRulesWithPredefinedStrings: in place, stops at the first error *)
Fixpoint prepare_rules (p : predef) (rs : list rule) : res (list rule) :=
  match rs with
  | [] => Ok []
  | r :: rs' => do r' <- prepare_rule L p r; do rs'' <- prepare_rules p rs'; Ok (r' :: rs'')
  end.

(** rules_load.go:182-200 PrepareRules, PrepareOneRule: the conversion in place, stops at the first error.
    Simplification here and in [prepare_rules]: on an error only the error is returned (the rules before it
    are updated in Go). *)
Fixpoint convert_rules (rs : list rule) : res (list rule) :=
  match rs with
  | [] => Ok []
  | r :: rs' => do r' <- convert_fields L r; do rs'' <- convert_rules rs'; Ok (r' :: rs'')
  end.

End WithLib.

Arguments mkRstate {L}. Arguments rs_rule {L}. Arguments rs_lists {L}.
Arguments rs_ready {L}. Arguments rs_prepared {L}.
