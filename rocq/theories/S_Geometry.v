(** Specification vocabulary for distances in periodic boxes, over the reals
    and independent of the model's functions (only the result type of
    get_distance is taken from the model). *)
From Coq Require Import Reals ZArith.
From Verif Require Import Num NumR Types M_Geometry.
Open Scope R_scope.

(** Squared Euclidean length and Euclidean length. *)
Definition len2 (x y z : R) : R := x ^ 2 + y ^ 2 + z ^ 2.
Definition eucl (x y z : R) : R := sqrt (len2 x y z).

(** Distance between [a] and the image of [b] displaced by (i,j,k) box lengths
    of an orthogonal box with side lengths [L]. *)
Definition image_distance (L a b : v3 Rnum) (i j k : Z) : R :=
  eucl (vx a - (vx b + IZR i * vx L)) (vy a - (vy b + IZR j * vy L))
       (vz a - (vz b + IZR k * vz L)).

(** [d] is the smallest of the distances to all images. *)
Definition is_min_image_distance (L a b : v3 Rnum) (d : R) : Prop :=
  (exists i j k, d = image_distance L a b i j k) /\
  (forall i j k, d <= image_distance L a b i j k).

Definition pos3 (L : v3 Rnum) : Prop := 0 < vx L /\ 0 < vy L /\ 0 < vz L.
Definition nonneg3 (L : v3 Rnum) : Prop := 0 <= vx L /\ 0 <= vy L /\ 0 <= vz L.

(** Position inside the (half-open) box. *)
Definition in_box (L p : v3 Rnum) : Prop :=
  (0 <= vx p < vx L) /\ (0 <= vy p < vy L) /\ (0 <= vz p < vz L).

(** The orthogonal geometry of a system: not in triclinic mode, positive side
    lengths. *)
Definition ortho (s : sys Rnum) : Prop := s_tri s = false /\ pos3 (s_len s).

(** The triclinic geometry of a system with cell vectors [b] (by rows): the
    stored matrices are the transposed cell and its inverse, and the side
    lengths are positive. *)
Definition col0 (m : m3 Rnum) : v3 Rnum := mkV (vx (r0 m)) (vx (r1 m)) (vx (r2 m)).
Definition col1 (m : m3 Rnum) : v3 Rnum := mkV (vy (r0 m)) (vy (r1 m)) (vy (r2 m)).
Definition col2 (m : m3 Rnum) : v3 Rnum := mkV (vz (r0 m)) (vz (r1 m)) (vz (r2 m)).
Definition transpose (m : m3 Rnum) : m3 Rnum := mkM (col0 m) (col1 m) (col2 m).
Definition dot3 (u v : v3 Rnum) : R := vx u * vx v + vy u * vy v + vz u * vz v.
Definition inverse_of (m minv : m3 Rnum) : Prop :=
  dot3 (r0 m) (col0 minv) = 1 /\ dot3 (r0 m) (col1 minv) = 0 /\ dot3 (r0 m) (col2 minv) = 0 /\
  dot3 (r1 m) (col0 minv) = 0 /\ dot3 (r1 m) (col1 minv) = 1 /\ dot3 (r1 m) (col2 minv) = 0 /\
  dot3 (r2 m) (col0 minv) = 0 /\ dot3 (r2 m) (col1 minv) = 0 /\ dot3 (r2 m) (col2 minv) = 1.
Definition tric (s : sys Rnum) (b : m3 Rnum) : Prop :=
  s_tri s = true /\ pos3 (s_len s) /\ s_rot s = transpose b /\
  inverse_of (s_rot s) (s_rotinv s).

(** x a + y b + z c for cell vectors a, b, c. *)
Definition lin (b : m3 Rnum) (x y z : R) : v3 Rnum :=
  mkV (x * vx (r0 b) + y * vx (r1 b) + z * vx (r2 b))
      (x * vy (r0 b) + y * vy (r1 b) + z * vy (r2 b))
      (x * vz (r0 b) + y * vz (r1 b) + z * vz (r2 b)).

(** The distance contained in a result of get_distance. *)
Definition dist_of (r : dist_result Rnum) : R :=
  match r with DistOnly d => d | DistVec d _ => d end.
