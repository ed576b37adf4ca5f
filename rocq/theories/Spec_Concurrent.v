(** Vocabulary for interleaved evaluations. *)
From Coq Require Import List String Ascii Bool Arith.
From Verif Require Import Base GoFloat Types Prepare Lifecycle Eval Check Concurrent.
Import ListNotations.
Open Scope string_scope.

(** a goroutine returned, or panicked *)
Definition returned {A} (p : pool A) (i : nat) (r : A) : Prop :=
  exists a t, nth_error (p_threads p) i = Some (mkThread a t (Done r)).
Definition panicked {A} (p : pool A) (i : nat) : Prop :=
  exists a t, nth_error (p_threads p) i = Some (mkThread a t Crashed).
(** how often a goroutine is scheduled *)
Fixpoint turns (i : nat) (schedule : list nat) : nat :=
  match schedule with
  | [] => 0
  | j :: l => (if Nat.eqb i j then 1 else 0) + turns i l
  end.

(** whatever happens to the message in between, no action of the program changes it *)
Inductive reads_only {A} : prog A -> Prop :=
| ro_done a : reads_only (Done a)
| ro_fail : reads_only Crashed
| ro_act f : (forall e, e_msg (snd (f e)) = e_msg e) ->
    (forall e p e', f e = (Some p, e') -> reads_only p) -> reads_only (Act f).

(** trees without ANY and ALL *)
Inductive flat {L : Lib} : node L -> Prop :=
| fl_and ns : Forall flat ns -> flat (NAnd ns)
| fl_or ns : Forall flat ns -> flat (NOr ns)
| fl_not n : flat n -> flat (NNot n)
| fl_true : flat NTrue
| fl_false : flat NFalse
| fl_cond c : flat (NCond c).

(** the others on the same object only read *)
Definition undisturbed {A} (p : pool A) (i : nat) : Prop :=
  forall ti tj j, nth_error (p_threads p) i = Some ti -> nth_error (p_threads p) j = Some tj -> j <> i ->
    th_addr tj = th_addr ti -> reads_only (th_prog tj).

(** several calls of Check, each with its map iterations, global lists, rules and the address of its message *)
Record call (L : Lib) := mkCall { cl_ord : order; cl_lists : predef; cl_rules : list (rstate L); cl_addr : nat }.
Arguments mkCall {L}.
Arguments cl_ord {L}.
Arguments cl_lists {L}.
Arguments cl_rules {L}.
Arguments cl_addr {L}.
Definition calls_pool (L : Lib) (h : nat -> message) (cs : list (call L)) : pool outcome :=
  mkPool h (map (fun c => mkThread (cl_addr c) 0 (check_steps L (cl_ord c) (cl_lists c) (cl_rules c))) cs).
