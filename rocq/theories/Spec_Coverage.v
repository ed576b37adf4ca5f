(** Specification of the coverage report. *)
From Coq Require Import List String Bool Arith ZArith Sorted.
From Verif Require Import Base Types Check.
Import ListNotations.
Open Scope string_scope.

(** [ids]: the ids of the rules; [runs]: the messages with what Check returned for them *)

(** the entry of a message *)
Definition describes_run (ids : list string) (o : outcome) (c : msg_coverage) : Prop :=
  (cov_covered c = true <-> out_decision o <> 0) /\ cov_decision c = out_decision o /\
  Forall2 (fun i id => nth_error ids i = Some id) (out_applied o) (cov_ids c) /\
  Forall2 (fun i d => nth_error (out_results o) i = Some d) (out_applied o) (cov_decisions c).

(** the last message with an id *)
Definition last_with (id : string) (runs : list (message * outcome)) (o : outcome) : Prop :=
  exists before m after, runs = (before ++ (m, o) :: after)%list /\ m_id m = id /\ Forall (fun r => m_id (fst r) <> id) after.

(** the contribution of one message to the entry of a rule id: its id once for every rule with this id that applies *)
Definition contributes (ids : list string) (id : string) (r : message * outcome) (part : list string) : Prop :=
  exists is, StronglySorted lt is /\ (forall i, In i is <-> In i (out_applied (snd r)) /\ nth_error ids i = Some id) /\
    part = repeat (m_id (fst r)) (List.length is).
