(** Specification of the entries of an object with repeated keys. *)
From Coq Require Import List String.
From Verif Require Import Types.
Import ListNotations.

(** [v] is the last value under [k] *)
Definition last_under (k : string) (v : iface) (kvs : list (string * iface)) : Prop :=
  exists a b, kvs = (a ++ (k, v) :: b)%list /\ forall w, ~ In (k, w) b.
