(** Specification vocabulary for plots (property C75). *)
From Coq Require Import Reals List.
From Verif Require Import Num NumR Types.
Import ListNotations.
Set Implicit Arguments.
Unset Strict Implicit.

(** ** The cell *)
Definition corner (o : v3 Rnum) (b : m3 Rnum) (x y z : bool) : v3 Rnum :=
  let c (e : bool) (w : R) : R := if e then w else 0%R in
  mkV (N := Rnum) (vx o + c x (vx (r0 b)) + c y (vx (r1 b)) + c z (vx (r2 b)))%R
      (vy o + c x (vy (r0 b)) + c y (vy (r1 b)) + c z (vy (r2 b)))%R
      (vz o + c x (vz (r0 b)) + c y (vz (r1 b)) + c z (vz (r2 b)))%R.
(** The twelve edges of the cell at [o], from the corner nearer to [o]. *)
Definition edge (o : v3 Rnum) (b : m3 Rnum) (p q : v3 Rnum) : Prop :=
  exists e f : bool,
    (p = corner o b false e f /\ q = corner o b true e f) \/
    (p = corner o b e false f /\ q = corner o b e true f) \/
    (p = corner o b e f false /\ q = corner o b e f true).

(** The segments of a path. *)
Definition segments {A} (l : list A) : list (A * A) := combine l (tl l).

(** ** The atoms *)
(** The [k]-th marker has the [k]-th position and the [k]-th colour. *)
Definition markers {P C} (pos : list P) (colors : list C) : list (P * C) := combine pos colors.
