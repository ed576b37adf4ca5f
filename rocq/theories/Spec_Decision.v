(** Specification of the decision over a list of rules, independent of the engine. *)
From Coq Require Import List String Bool Arith ZArith Sorted.
From Verif Require Import Base Types.
Import ListNotations.
Open Scope string_scope.

(** the API constants: 0 DEFAULT, 1 ALLOW, 2 ALERT, 3 BLOCK *)
Definition decision_is_strictest (results : list nat) (d : nat) : Prop :=
  (d = 3 /\ In 3 results)
  \/ (d = 2 /\ In 2 results /\ ~ In 3 results)
  \/ (d = 1 /\ In 1 results /\ ~ In 2 results /\ ~ In 3 results)
  \/ (d = 0 /\ Forall (fun r => r = 0) results).

Definition decision_name (d : nat) (s : string) : Prop :=
  (d = 0 /\ s = "rules do not apply to message - block by default")
  \/ (d = 1 /\ s = "allow") \/ (d = 2 /\ s = "alert") \/ (d = 3 /\ s = "block").

(** the first position carrying [d] *)
Definition first_with (results : list nat) (d : nat) (i : nat) : Prop :=
  nth_error results i = Some d /\ forall j, j < i -> nth_error results j <> Some d.

(** a strictly increasing enumeration of the positions with a non-DEFAULT result *)
Definition enumerates_applied (results : list nat) (l : list nat) : Prop :=
  StronglySorted lt l /\ forall i, In i l <-> exists r, nth_error results i = Some r /\ r <> 0.

(** the nine spellings of a rule's decision *)
Definition decision_word (s : string) (d : nat) : Prop :=
  (d = 1 /\ (s = "allow" \/ s = "ALLOW" \/ s = "Allow"))
  \/ (d = 2 /\ (s = "alert" \/ s = "ALERT" \/ s = "Alert"))
  \/ (d = 3 /\ (s = "block" \/ s = "BLOCK" \/ s = "Block")).
