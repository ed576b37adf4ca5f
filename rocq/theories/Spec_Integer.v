(** Specification of whole numbers as texts. *)
From Coq Require Import String Ascii ZArith.
Open Scope string_scope.

(** a digit and its value *)
Definition digit_is (c : ascii) (d : Z) : Prop := (0 <= d < 10)%Z /\ Z.of_nat (nat_of_ascii c) = (48 + d)%Z.
(** the number a sequence of digits stands for *)
Inductive reads : string -> Z -> Prop :=
| rd_one c d : digit_is c d -> reads (String c "") d
| rd_more s z c d : reads s z -> digit_is c d -> reads (s ++ String c "") (10 * z + d)%Z.
(** a text accepted for a whole number: digits with at most one sign, within 64 bits *)
Definition integer_text (s : string) (z : Z) : Prop :=
  (- 2 ^ 63 <= z < 2 ^ 63)%Z /\
  (reads s z \/ (exists r, s = "+" ++ r /\ reads r z) \/ (exists r, s = "-" ++ r /\ reads r (- z)%Z)).
(** the text printed for a whole number: no needless zeros, a sign only for negative numbers *)
Definition no_needless_zero (s : string) : Prop := forall r, s = String "0" r -> r = "".
Definition printed_as (z : Z) (s : string) : Prop :=
  (reads s z /\ no_needless_zero s) \/
  ((z < 0)%Z /\ exists r, s = "-" ++ r /\ reads r (- z)%Z /\ no_needless_zero r).
