(** Specification: doubles.  SpecFloat's type has elements that are no doubles
    (mantissas and exponents out of range). *)
From Coq Require Import ZArith.
From Coq.Floats Require Import SpecFloat.
From Verif Require Import Num NumF Types.

Definition dbl (x : spec_float) : Prop := valid_binary 53 1024 x = true.
Definition fin (x : spec_float) : Prop := exists s m e, x = S754_zero s \/ x = S754_finite s m e.
Definition zero (x : spec_float) : Prop := exists s, x = S754_zero s.
Definition all3 (P : spec_float -> Prop) {lib : libm} (v : v3 (SF64 lib)) : Prop := P (vx v) /\ P (vy v) /\ P (vz v).
Definition all33 (P : spec_float -> Prop) {lib : libm} (m : m3 (SF64 lib)) : Prop :=
  all3 P (r0 m) /\ all3 P (r1 m) /\ all3 P (r2 m).
