(** Specification vocabulary for the extraction of an orthogonal cell. *)
From Coq Require Import Reals ZArith List.
From Verif Require Import Num NumR Types S_Geometry.
Import ListNotations.
Local Open Scope R_scope.

(** An atom of type [t] at [p] in the infinite crystal with cell vectors [b]
    and basis [l]. *)
Definition in_crystal (b : m3 Rnum) (l : list (atom Rnum)) (p : v3 Rnum) (t : Z) : Prop :=
  exists a i j k, In a l /\ a_type a = t /\
    let d := lin b (IZR i) (IZR j) (IZR k) in
    vx p = vx (a_pos a) + vx d /\ vy p = vy (a_pos a) + vy d /\ vz p = vz (a_pos a) + vz d.

(** The second crystal is the first one displaced by [-o]. *)
Definition same_crystal (b : m3 Rnum) (l : list (atom Rnum)) (o : v3 Rnum) (b' : m3 Rnum) (l' : list (atom Rnum)) : Prop :=
  forall (p : v3 Rnum) t, in_crystal b l p t <-> in_crystal b' l' (mkV (N := Rnum) (vx p - vx o) (vy p - vy o) (vz p - vz o)) t.

Definition volume_of (m : m3 Rnum) : R :=
  vx (r0 m) * (vy (r1 m) * vz (r2 m) - vz (r1 m) * vy (r2 m)) - vy (r0 m) * (vx (r1 m) * vz (r2 m) - vz (r1 m) * vx (r2 m))
  + vz (r0 m) * (vx (r1 m) * vy (r2 m) - vy (r1 m) * vx (r2 m)).

Definition within (n i : Z) : Prop := (- n <= i <= n)%Z.

(** Lattice vectors within the repetitions that look parallel to an axis to
    the tolerance of the code are so. *)
Definition axes_exact (b : m3 Rnum) (rx ry rz : Z) : Prop :=
  forall i j k, within rx i -> within ry j -> within rz k ->
  let d := lin b (IZR i) (IZR j) (IZR k) in
  let small x := Rabs x < 1 / 100000 in
  (small (vy d) -> small (vz d) -> vy d = 0 /\ vz d = 0) /\
  (small (vx d) -> small (vz d) -> vx d = 0 /\ vz d = 0) /\
  (small (vx d) -> small (vy d) -> vx d = 0 /\ vy d = 0).

(** Every atom of the crystal at most [L] away from [p] in each direction is
    in one of the repeated cells. *)
Definition covered (b : m3 Rnum) (l : list (atom Rnum)) (rx ry rz : Z) (p L : v3 Rnum) : Prop :=
  forall a i j k, In a l ->
  let d := lin b (IZR i) (IZR j) (IZR k) in
  Rabs (vx (a_pos a) + vx d - vx p) <= vx L ->
  Rabs (vy (a_pos a) + vy d - vy p) <= vy L ->
  Rabs (vz (a_pos a) + vz d - vz p) <= vz L ->
  within rx i /\ within ry j /\ within rz k.

(** Coordinates by number, and: [q] lies on the line through [p] in direction
    [c], to the tolerance of the code. *)
Definition comp (c : nat) (p : v3 Rnum) : R := nth c [vx p; vy p; vz p] (vz p).
Definition on_axis (c : nat) (p q : v3 Rnum) : Prop :=
  forall c', (c' < 3)%nat -> c' <> c -> Rabs (comp c' q - comp c' p) < 1 / 100000.
