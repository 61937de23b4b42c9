(** Specification vocabulary for the box around a triclinic cell. *)
From Coq Require Import Reals.
From Verif Require Import Num NumR Types S_Geometry.
Local Open Scope R_scope.

(** The cells with rows [b] and [c] have the same lengths and angles. *)
Definition congruent (b c : m3 Rnum) : Prop :=
  dot3 (r0 b) (r0 b) = dot3 (r0 c) (r0 c) /\ dot3 (r1 b) (r1 b) = dot3 (r1 c) (r1 c) /\ dot3 (r2 b) (r2 b) = dot3 (r2 c) (r2 c) /\
  dot3 (r0 b) (r1 b) = dot3 (r0 c) (r1 c) /\ dot3 (r1 b) (r2 b) = dot3 (r1 c) (r2 c) /\ dot3 (r2 b) (r0 b) = dot3 (r2 c) (r0 c).

(** The volume of the cell, with sign. *)
Definition volume3 (m : m3 Rnum) : R :=
  vx (r0 m) * (vy (r1 m) * vz (r2 m) - vz (r1 m) * vy (r2 m)) - vy (r0 m) * (vx (r1 m) * vz (r2 m) - vz (r1 m) * vx (r2 m))
  + vz (r0 m) * (vx (r1 m) * vy (r2 m) - vy (r1 m) * vx (r2 m)).

Definition unit_interval (x : R) : Prop := 0 <= x <= 1.
(** All values of [f] on the cell are in [lo, lo+len] and both ends occur. *)
Definition spans (f : R -> R -> R -> R) (lo len : R) : Prop :=
  (forall u v w, unit_interval u -> unit_interval v -> unit_interval w -> lo <= f u v w <= lo + len) /\
  (exists u v w, unit_interval u /\ unit_interval v /\ unit_interval w /\ f u v w = lo) /\
  (exists u v w, unit_interval u /\ unit_interval v /\ unit_interval w /\ f u v w = lo + len).

(** The orthogonal box with sides [L] placed at [o] is the smallest one around
    the cell [c]. *)
Definition tight_box (c : m3 Rnum) (o L : v3 Rnum) : Prop :=
  spans (fun u v w => vx (lin c u v w)) (vx o) (vx L) /\
  spans (fun u v w => vy (lin c u v w)) (vy o) (vy L) /\
  spans (fun u v w => vz (lin c u v w)) (vz o) (vz L).
