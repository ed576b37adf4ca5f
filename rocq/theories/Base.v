(** Outcomes and association lists shared by the whole model. *)
From Coq Require Import List String Ascii Bool Arith Lia.
Import ListNotations.
Open Scope string_scope.

(** Outcome of a Go function returning [(T, error)] that may also panic at run
    time.  Error texts are dropped (simplification: callers only test
    [err != nil]; the one place where the text matters, [queryInterface],
    is modelled with the text). *)
Inductive res (A : Type) : Type :=
| Ok (a : A)
| Err
| Panic.
Arguments Ok {A} a.
Arguments Err {A}.
Arguments Panic {A}.

Definition rbind {A B} (x : res A) (f : A -> res B) : res B :=
  match x with Ok a => f a | Err => Err | Panic => Panic end.

Notation "'do' x <- e ; k" := (rbind e (fun x => k))
  (at level 200, x pattern, e at level 100, k at level 200, right associativity).

Definition rmap {A B} (f : A -> B) (x : res A) : res B :=
  match x with Ok a => Ok (f a) | Err => Err | Panic => Panic end.

Fixpoint rmapM {A B} (f : A -> res B) (l : list A) : res (list B) :=
  match l with
  | [] => Ok []
  | a :: l' => do b <- f a; do bs <- rmapM f l'; Ok (b :: bs)
  end.

(** Go maps with string keys as association lists; look-up returns the first
    entry (keys of a well-formed map are pairwise distinct). *)
Fixpoint assoc {A} (k : string) (l : list (string * A)) : option A :=
  match l with
  | [] => None
  | (k', a) :: l' => if String.eqb k k' then Some a else assoc k l'
  end.

(** Map assignment [m[k] = a]: replaces in place or appends. *)
Fixpoint upsert {A} (k : string) (a : A) (l : list (string * A)) : list (string * A) :=
  match l with
  | [] => [(k, a)]
  | (k', a') :: l' => if String.eqb k k' then (k, a) :: l' else (k', a') :: upsert k a l'
  end.

Definition keys {A} (l : list (string * A)) : list string := map fst l.

(** [toolkits/slice.ContainsString]. *)
Definition contains_string (l : list string) (s : string) : bool :=
  existsb (String.eqb s) l.

(** [x == s1 || x == s2 || ...] *)
Definition is_any (s : string) (l : list string) : bool := existsb (String.eqb s) l.
