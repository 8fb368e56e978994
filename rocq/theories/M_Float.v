(** float64: the IEEE 754 binary64 operations of Coq's SpecFloat.  SpecFloat is a definition, not an axiom. *)
From Coq Require Import ZArith Floats.SpecFloat.
From Verif Require Import Base.

Definition f64 : Type := spec_float.
Definition f_add : f64 -> f64 -> f64 := SFadd 53 1024.
Definition f_sub : f64 -> f64 -> f64 := SFsub 53 1024.
Definition f_mul : f64 -> f64 -> f64 := SFmul 53 1024.
Definition f_div : f64 -> f64 -> f64 := SFdiv 53 1024.
Definition f_sqrt : f64 -> f64 := SFsqrt 53 1024.
Definition f_ltb : f64 -> f64 -> bool := SFltb.
Definition f_leb : f64 -> f64 -> bool := SFleb.
Definition f_eqb : f64 -> f64 -> bool := SFeqb.
(** float64(n) of an integer: rounded to nearest even. *)
Definition f_int (z : Z) : f64 := binary_normalize 53 1024 z 0 false.
(** A float from an integer and a power of two. *)
Definition f_lit (m e : Z) : f64 := binary_normalize 53 1024 m e false.
(** math.MaxFloat64 *)
Definition f_max : f64 := S754_finite false 9007199254740991 971.
Definition f_neg : f64 -> f64 := SFopp.
