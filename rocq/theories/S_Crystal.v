(** Vocabulary for crystals, independent of the model's functions. *)
From Coq Require Import Reals ZArith List String.
From Verif Require Import Base Num NumR Types.
Import ListNotations.
Open Scope R_scope.

(** Types and fractional coordinates of the atoms of the unit cells. *)
Definition basis : list (string * list (Z * (R * R * R))) :=
  let q := 1/4 in let h := 1/2 in let t := 3/4 in
  [("sc"%string, [(1%Z, (0, 0, 0))]);
   ("bcc"%string, [(1%Z, (0, 0, 0)); (1%Z, (h, h, h))]);
   ("fcc"%string, [(1%Z, (0, 0, 0)); (1%Z, (h, 0, h)); (1%Z, (0, h, h)); (1%Z, (h, h, 0))]);
   ("hcp"%string, [(1%Z, (0, 0, 0)); (1%Z, (h, h, 0)); (1%Z, (h, 1/6, h)); (1%Z, (0, 2/3, h))]);
   ("diamond"%string, [(1%Z, (0, 0, 0)); (1%Z, (q, q, q)); (1%Z, (h, h, 0)); (1%Z, (t, t, q));
                (1%Z, (h, 0, h)); (1%Z, (0, h, h)); (1%Z, (t, q, t)); (1%Z, (q, t, t))]);
   ("a15"%string, [(1%Z, (0, 0, 0)); (1%Z, (h, h, h)); (1%Z, (q, h, 0)); (1%Z, (t, h, 0));
            (1%Z, (0, q, h)); (1%Z, (0, t, h)); (1%Z, (h, 0, q)); (1%Z, (h, 0, t))]);
   ("l12"%string, [(1%Z, (0, 0, 0)); (2%Z, (h, 0, h)); (2%Z, (0, h, h)); (2%Z, (h, h, 0))]);
   ("b2"%string, [(1%Z, (0, 0, 0)); (2%Z, (h, h, h))])].

(** The sides of the cell for lattice constant [a]. *)
Definition cell_sides (name : string) (a ca : R) : R * R * R :=
  if String.eqb name "hcp" then (a, a * sqrt 3, a * ca) else (a, a, a).
(** The lattice position of a site in cell (i, j, k), counted from 0. *)
Definition site (name : string) (a ca : R) (i j k : nat) (f : R * R * R) : v3 Rnum :=
  let '(sx, sy, sz) := cell_sides name a ca in
  let '(fx, fy, fz) := f in
  mkV ((INR i + fx) * sx : Rnum) ((INR j + fy) * sy : Rnum) ((INR k + fz) * sz : Rnum).
Definition number {A} (P : A -> bool) (l : list A) : nat := length (filter P l).

(** Coordination number of the first shell, and its distance and the distance
    of the second shell in units of the lattice constant. *)
Definition shells : list (string * (nat * R * R)) :=
  [("sc"%string, (6%nat, 1, sqrt 2)); ("bcc"%string, (8%nat, sqrt 3 / 2, 1)); ("fcc"%string, (12%nat, sqrt 2 / 2, 1))].
