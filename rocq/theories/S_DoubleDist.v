(** Specification: the real number a double stands for. *)
From Coq Require Import ZArith Reals.
From Coq.Floats Require Import SpecFloat.
From Verif Require Import Num NumR NumF Types S_Double S_Geometry.
Open Scope R_scope.

Definition val (x : spec_float) : R :=
  match x with S754_finite s m e => (if s then -1 else 1) * IZR (Zpos m) * powerRZ 2 e | _ => 0 end.
Definition val3 {lib : libm} (v : v3 (SF64 lib)) : v3 Rnum := mkV (N := Rnum) (val (vx v)) (val (vy v)) (val (vz v)).
(** A finite double. *)
Definition double (x : spec_float) : Prop := dbl x /\ fin x.
Definition double3 {lib : libm} (v : v3 (SF64 lib)) : Prop := double (vx v) /\ double (vy v) /\ double (vz v).

(** Side lengths far from overflow and underflow. *)
Definition side (x : spec_float) : Prop := double x /\ powerRZ 2 (-480) <= val x <= powerRZ 2 500.
(** Differences of the coordinates of at most one side length (for instance both
    atoms in the closed box). *)
Definition within (L p q : v3 Rnum) : Prop :=
  Rabs (vx p - vx q) <= vx L /\ Rabs (vy p - vy q) <= vy L /\ Rabs (vz p - vz q) <= vz L.
(** The error bound: 2^-50 of the sum of the side lengths. *)
Definition tol (L : v3 Rnum) : R := powerRZ 2 (-50) * (vx L + vy L + vz L).

(** A cutoff of at most a third of every side length, of at least 2^-19 (so that
    the coordinates put to zero by the cell lists stay in the first cell), and
    with at most 2^30 cells (so that their number is an int). *)
Definition three_wide_d (L : v3 Rnum) (r : R) : Prop :=
  powerRZ 2 (-19) <= r /\ 3 * r <= vx L /\ 3 * r <= vy L /\ 3 * r <= vz L /\ vx L * vy L * vz L <= powerRZ 2 30 * (r * r * r).
(** Coordinates in the box, and not within 2^-50 of the length of its upper face. *)
Definition inside_d (L p : v3 Rnum) : Prop :=
  0 <= vx p <= vx L - powerRZ 2 (-50) * vx L /\ 0 <= vy p <= vy L - powerRZ 2 (-50) * vy L /\ 0 <= vz p <= vz L - powerRZ 2 (-50) * vz L.
