(** Distances and periodic boundary conditions (system.cpp:245-432, 571-628).
    Model only, no proofs. *)
From Verif Require Import Base Num Types.
Set Implicit Arguments.
Unset Strict Implicit.

Section Geometry.
Variable N : num.
Open Scope num_scope.

Definition vsub (a b : v3 N) : v3 N := mkV (vx a - vx b) (vy a - vy b) (vz a - vz b).
Definition vadd (a b : v3 N) : v3 N := mkV (vx a + vx b) (vy a + vy b) (vz a + vz b).
Definition vopp (a : v3 N) : v3 N := mkV (- vx a) (- vy a) (- vz a).
Definition vscale (k : N) (a : v3 N) : v3 N := mkV (k * vx a) (k * vy a) (k * vz a).
Definition vdot (a b : v3 N) : N := vx a * vx b + vy a * vy b + vz a * vz b.

(** Matrix times vector with the evaluation order of system.cpp:255-257. *)
Definition mvmul (m : m3 N) (v : v3 N) : v3 N :=
  mkV (vdot (r0 m) v) (vdot (r1 m) v) (vdot (r2 m) v).

(** system.cpp:266-267 (and its repetitions): the two consecutive ifs for one
    coordinate; the second tests the value the first may have changed. *)
Definition wrap1 (L d : N) : N :=
  let d1 := if (L / n2 <? d) then d - L else d in
  if (d1 <? (- L) / n2) then d1 + L else d1.

Definition wrap (len d : v3 N) : v3 N :=
  mkV (wrap1 (vx len) (vx d)) (wrap1 (vy len) (vy d)) (wrap1 (vz len) (vz d)).

(** system.cpp:252-301: nearest image of a difference vector, triclinic and
    orthogonal branch. *)
Definition pbc_diff (s : sys N) (d : v3 N) : v3 N :=
  if s_tri s then
    let a := mvmul (s_rotinv s) d in
    let len := s_len s in
    let d1 := mkV (vx a * vx len) (vy a * vy len) (vz a * vz len) in
    let d2 := wrap len d1 in
    let d3 := mkV (vx d2 / vx len) (vy d2 / vy len) (vz d2 / vz len) in
    mvmul (s_rot s) d3
  else wrap (s_len s) d.

(** sqrt(diffx*diffx + diffy*diffy + diffz*diffz), system.cpp:289, 300. *)
Definition norm (d : v3 N) : N := nsqrt (vx d * vx d + vy d * vy d + vz d * vz d).

(** system.cpp:245-303, get_abs_distance(int ti, int tj, double &diffx, ...):
    the distance and the vector left in the reference parameters; from the
    positions [pi] of atom ti and [pj] of atom tj. *)
Definition abs_distance_ij (s : sys N) (pi pj : v3 N) : N * v3 N :=
  let d := pbc_diff s (vsub pj pi) in (norm d, d).

(** system.cpp:306-366, get_abs_distance(Atom, Atom), bound as
    get_absdistance. *)
Definition abs_distance (s : sys N) (p1 p2 : v3 N) : N :=
  norm (pbc_diff s (vsub p1 p2)).

(** system.cpp:369-432, get_distance_vector(Atom, Atom). *)
Definition distance_vector (s : sys N) (p1 p2 : v3 N) : v3 N :=
  pbc_diff s (vsub p1 p2).

(** core.py:362-389, System.get_distance. *)
Inductive dist_result := DistOnly (d : N) | DistVec (d : N) (v : v3 N).
Definition get_distance (s : sys N) (a1 a2 : atom N) (vector : bool) : dist_result :=
  if vector then
    DistVec (abs_distance s (a_pos a1) (a_pos a2)) (distance_vector s (a_pos a1) (a_pos a2))
  else DistOnly (abs_distance s (a_pos a1) (a_pos a2)).

(** system.cpp:571-628, remap_atom. *)
Definition remap1 (L d : N) : N :=
  if d <? n0 then d + L else if L <=? d then d - L else d.
Definition remap_atom (s : sys N) (p : v3 N) : v3 N :=
  if s_tri s then pbc_diff s p
  else mkV (remap1 (vx (s_len s)) (vx p)) (remap1 (vy (s_len s)) (vy p))
           (remap1 (vz (s_len s)) (vz p)).

(** system.cpp:466-481, get_pairdistances: all pairs of the stored atoms. *)
Definition get_pairdistances (s : sys N) : res (list N) :=
  mapM (fun p => a <- get (s_atoms s) (fst p) ;; b <- get (s_atoms s) (snd p) ;;
                 Ok (fst (abs_distance_ij s (a_pos a) (a_pos b))))
       (pairs (Z.to_nat (s_nop s))).

(** system.cpp:75-96, sbox: stores the vectors and their lengths. *)
Definition sbox_len (b : m3 N) : v3 N :=
  let l v := nsqrt (n0 + vx v * vx v + vy v * vy v + vz v * vz v) - n0 in
  mkV (l (r0 b)) (l (r1 b)) (l (r2 b)).
Definition sbox (s : sys N) (b : m3 N) : sys N :=
  s <| s_box := b |> <| s_len := sbox_len b |>.

(** system.cpp:49-59, assign_triclinic_params. *)
Definition assign_triclinic_params (s : sys N) (rot rotinv : m3 N) : sys N :=
  s <| s_rot := rot |> <| s_rotinv := rotinv |> <| s_tri := true |>.

End Geometry.
