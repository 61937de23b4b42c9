(** The mean spacing of an arrangement: the side of a cube holding one atom. *)
From Coq Require Import Reals.
From Verif Require Import Num NumR Types.
Open Scope R_scope.

Definition spacing (V n g : R) : Prop := 0 < g /\ g ^ 3 * n = V.
(** Volume of the cell of three vectors, signed: positive for right-handed ones. *)
Definition det3 (b : m3 Rnum) : R :=
  let '(mkM u v w) := b in
  vx u * (vy v * vz w - vz v * vy w) - vy u * (vx v * vz w - vz v * vx w) + vz u * (vx v * vy w - vy v * vx w).
