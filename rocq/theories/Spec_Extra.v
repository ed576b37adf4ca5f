(** Declarative description of the extra data a tree returns with its truth value. *)
From Coq Require Import List String Ascii Bool Arith ZArith Permutation.
From Verif Require Import Base GoFloat Types.
Import ListNotations.
Open Scope string_scope.

Section WithLib.
Variable L : Lib.
Notation cond := (cond L).
Notation node := (node L).

Definition result := (bool * extra)%type.

(** [x] is the last non-empty list of [xs], or empty if all are empty *)
Definition last_non_empty (xs : list extra) (x : extra) : Prop :=
  (x = [] /\ Forall (fun y => y = []) xs)
  \/ (x <> [] /\ exists before after, xs = (before ++ x :: after)%list /\ Forall (fun y => y = []) after).

(** AND: the children up to and including the first false one are evaluated *)
Definition and_outcome (children : list (bool -> extra -> Prop)) (b : bool) (x : extra) : Prop :=
  exists (evaluated rest : list (bool -> extra -> Prop)) (rs : list result),
    children = (evaluated ++ rest)%list /\
    Forall2 (fun (f : bool -> extra -> Prop) r => f (fst r) (snd r)) evaluated rs /\
    ((b = true /\ rest = [] /\ Forall (fun r => fst r = true) rs)
     \/ (b = false /\ exists rs0 r, rs = (rs0 ++ [r])%list /\ fst r = false /\ Forall (fun r => fst r = true) rs0)) /\
    last_non_empty (map snd rs) x.

(** OR: every child is evaluated; the data of the true children, in order *)
Definition or_outcome (children : list (bool -> extra -> Prop)) (b : bool) (x : extra) : Prop :=
  exists rs : list result,
    Forall2 (fun (f : bool -> extra -> Prop) r => f (fst r) (snd r)) children rs /\
    (b = true <-> Exists (fun r => fst r = true) rs) /\
    x = List.concat (map snd (filter fst rs)).

Variable leaf : cond -> message -> bool -> extra -> Prop.
Variable contexts : aanode L -> message -> option (list message) -> Prop.
(** record of the return values of ANY on the current element *)
Variable record : aanode L -> message -> list (string * iface) -> Prop.

(** the return values declared by ANY/ALL *)
Definition declared (a : aanode L) : list (string * string) :=
  match r_paths (a_ret a) with Some l => l | None => [] end.

Definition any_outcome (a : aanode L) (inner : message -> bool -> extra -> Prop) (ms : list message)
    (b : bool) (x : extra) : Prop :=
  match declared a with
  | _ :: _ =>      (* every element is evaluated, one record per satisfying element, in order *)
    exists (bs : list bool),
      Forall2 (fun m b => exists y, inner m b y) ms bs /\
      (b = true <-> In true bs) /\
      Forall2 (record a) (map fst (filter snd (combine ms bs))) x
  | [] =>          (* the elements up to the first satisfying one are evaluated *)
    (b = false /\ x = [] /\ Forall (fun m => exists y, inner m false y) ms)
    \/ (b = true /\ exists before m after,
          ms = (before ++ m :: after)%list /\
          Forall (fun m => exists y, inner m false y) before /\ (exists y, inner m true y) /\
          (r_paths (a_ret a) = None -> x = []))
  end.

Definition all_outcome (inner : message -> bool -> extra -> Prop) (ms : list message)
    (b : bool) (x : extra) : Prop :=
  x = [] /\
  ((b = true /\ Forall (fun m => exists y, inner m true y) ms)
   \/ (b = false /\ exists before m after,
         ms = (before ++ m :: after)%list /\
         Forall (fun m => exists y, inner m true y) before /\ (exists y, inner m false y))).

Fixpoint tree_outcome (n : node) (m : message) (b : bool) (x : extra) : Prop :=
  match n with
  | NTrue => b = true /\ x = []
  | NFalse => b = false /\ x = []
  | NCond c => leaf c m b x
  | NNil => False
  | NNot n' => x = [] /\ exists y, tree_outcome n' m (negb b) y
  | NAnd ns => and_outcome (map (fun n' => tree_outcome n' m) ns) b x
  | NOr ns => or_outcome (map (fun n' => tree_outcome n' m) ns) b x
  | NQuant q a n' =>
    (exists ms, contexts a m (Some ms) /\
      match q with
      | QAny => any_outcome a (tree_outcome n') ms b x
      | QAll => all_outcome (tree_outcome n') ms b x
      end)
    \/ (contexts a m None /\ b = false /\ x = [])
  end.

End WithLib.
