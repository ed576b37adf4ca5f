(** float64 as IEEE binary64 in the axiom-free [SpecFloat] representation. *)
From Coq Require Import ZArith Floats.SpecFloat Bool.
Local Open Scope Z_scope.

Definition f64 := spec_float.
Definition fprec : Z := 53.
Definition femax : Z := 1024.

Definition f64_of_Z (z : Z) : f64 := binary_normalize fprec femax z 0 false.
Definition fmul : f64 -> f64 -> f64 := SFmul fprec femax.
Definition fdiv : f64 -> f64 -> f64 := SFdiv fprec femax.
Definition fopp : f64 -> f64 := SFopp.
(** Go's ==, <, <= on float64 (all false when an operand is NaN) *)
Definition feqb : f64 -> f64 -> bool := SFeqb.
Definition fltb : f64 -> f64 -> bool := SFltb.
Definition fleb : f64 -> f64 -> bool := SFleb.

Definition f_one : f64 := f64_of_Z 1.
Definition f_zero : f64 := S754_zero false.
