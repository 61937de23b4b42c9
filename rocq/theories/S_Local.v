(** Specification vocabulary for centrosymmetry, disorder and entropy. *)
From Coq Require Import Reals ZArith List Permutation.
From Verif Require Import Base Num NumR Types M_Geometry S_Geometry S_Steinhardt.
Import ListNotations.
Set Implicit Arguments.
Unset Strict Implicit.
Open Scope R_scope.

(** ** Centrosymmetry *)
(** |u + v|^2. *)
Definition sum_sq (u v : v3 Rnum) : R := len2 (vx u + vx v) (vy u + vy v) (vz u + vz v).
(** |u + v|^2 for every unordered pair of entries of a list. *)
Fixpoint pair_values (vs : list (v3 Rnum)) : list R :=
  match vs with [] => [] | u :: vs => map (sum_sq u) vs ++ pair_values vs end.
(** [c] is the smallest sum of [k] of the numbers [ws]. *)
Definition smallest_sum (k : nat) (ws : list R) (c : R) : Prop :=
  (exists xs ys, Permutation ws (xs ++ ys) /\ length xs = k /\ Rsum xs = c) /\
  (forall xs ys, Permutation ws (xs ++ ys) -> length xs = k -> c <= Rsum xs).
(** A perfect pairing of the vectors and its value. *)
Definition pairing (vs : list (v3 Rnum)) (ps : list (v3 Rnum * v3 Rnum)) : Prop :=
  Permutation vs (flat_map (fun p => [fst p; snd p]) ps).
Definition pairing_value (ps : list (v3 Rnum * v3 Rnum)) : R :=
  Rsum (map (fun p => sum_sq (fst p) (snd p)) ps).
Definition opposites (ps : list (v3 Rnum * v3 Rnum)) : Prop :=
  Forall (fun p => vx (snd p) = - vx (fst p) /\ vy (snd p) = - vy (fst p) /\ vz (snd p) = - vz (fst p)) ps.

(** ** Disorder *)
(** Component number [m] (0 is -q) of the q vector of an atom. *)
Definition q_component (a : atom Rnum) (q m : Z) : R * R :=
  nth (Z.to_nat m) (nth (Z.to_nat (q - 2)) (a_qc a) []) (0, 0).
(** The real part of the inner product of the q vectors of two atoms. *)
Definition q_dot (q : Z) (a b : atom Rnum) : R :=
  Rsum (map (fun m => fst (q_component a q m) * fst (q_component b q m) +
                      snd (q_component a q m) * snd (q_component b q m)) (zrange 0 (2 * q + 1))).
(** The documented definition: the mean over the neighbours. *)
Definition documented_disorder (q : Z) (l : list (atom Rnum)) (a : atom Rnum) : R :=
  Rsum (map (fun e => match nth_error l (nb_idx e) with
                      | Some b => q_dot q a a + q_dot q b b - 2 * q_dot q a b
                      | None => 0
                      end) (a_nbrs a)) / INR (length (a_nbrs a)).
(** What the code computes instead for an atom with n neighbours: a mean over
    k < n of 2 - 2 c_k, where c_k is the cosine between k+1 copies of the q
    vector of the atom and the q vectors of the first k+1 atoms of the system. *)
Definition coded_disorder (q : Z) (l : list (atom Rnum)) (a : atom Rnum) : R :=
  Rsum (map (fun k =>
      let bs := firstn (S k) l in
      2 - 2 * (Rsum (map (q_dot q a) bs) /
               (sqrt (Rsum (map (fun b => q_dot q b b) bs)) * sqrt (INR (S k) * q_dot q a a))))
    (seq 0 (length (a_nbrs a)))) / INR (length (a_nbrs a)).
(** The mean of a value over an atom and its neighbours. *)
Definition shell_mean (f : atom Rnum -> R) (l : list (atom Rnum)) (a : atom Rnum) : R :=
  (f a + Rsum (map (fun e => match nth_error l (nb_idx e) with Some b => f b | None => 0 end) (a_nbrs a)))
  / (INR (length (a_nbrs a)) + 1).

(** ** Entropy *)
(** The trapezoidal rule with [n] steps of width [h] starting at [a]. *)
Definition trapezoidal_rule (f : R -> R) (a h : R) (n : nat) : R :=
  h / 2 * (f a + f (a + INR n * h)) + h * Rsum (map (fun j => f (a + INR j * h)) (seq 1 (n - 1))).
(** The smoothed radial distribution function of neighbours at the distances
    [ds] and the integrand; [p] is the value used for pi. *)
Definition smooth_g (p sigma rho : R) (ds : list R) (r : R) : R :=
  Rsum (map (fun d => exp (- (r - d) ^ 2 / (2 * sigma ^ 2))) ds)
  / (4 * p * rho * r ^ 2 * sqrt (2 * p * sigma ^ 2)).
Definition integrand (p sigma rho : R) (ds : list R) (r : R) : R :=
  let g := smooth_g p sigma rho ds r in (g * ln g - g + 1) * r ^ 2.
Definition code_pi : R := 3141592653589793 / 1000000000000000.

(** The entropy parameter of an atom for density [rho] (k_B = 1). *)
Definition entropy_parameter (p sigma rho rstart h : R) (n : nat) (ds : list R) : R :=
  - rho * trapezoidal_rule (integrand p sigma rho ds) rstart h n.
(** [n] whole steps of width [h] fit between [a] and [b]. *)
Definition steps (a b h : R) (n : nat) : Prop := INR n * h <= b - a < (INR n + 1) * h.
(** Number of neighbours per volume of the cutoff sphere, with the code's
    constant for 4 pi / 3. *)
Definition own_density (a : atom Rnum) : R :=
  INR (length (a_nbrs a)) / (41887902047863905 / 10000000000000000 * a_cutoff a ^ 3).
(** Averages of the values [ents] (by atom index) over atom [i] and its
    neighbours [es], plain and weighted by the switching function. *)
Definition value_at (ents : list R) (i : nat) : R := nth i ents 0.
Definition plain_avg (ents : list R) (i : nat) (es : list (nbr Rnum)) : R :=
  (value_at ents i + Rsum (map (fun e => value_at ents (nb_idx e)) es)) / (INR (length es) + 1).
Definition switch_fn (r ra : R) (M K : nat) : R := (1 - (r / ra) ^ K) / (1 - (r / ra) ^ M).
Definition switch_avg (ra : R) (M K : nat) (ents : list R) (i : nat) (es : list (nbr Rnum)) : R :=
  (Rsum (map (fun e => value_at ents (nb_idx e) * switch_fn (nb_dist e) ra M K) es) + value_at ents i) /
  (Rsum (map (fun e => switch_fn (nb_dist e) ra M K) es) + 1).
(** Volume of a right-handed cell: the determinant of its vectors. *)
Definition cell_det (b : m3 Rnum) : R :=
  vx (r0 b) * (vy (r1 b) * vz (r2 b) - vz (r1 b) * vy (r2 b)) -
  vy (r0 b) * (vx (r1 b) * vz (r2 b) - vz (r1 b) * vx (r2 b)) +
  vz (r0 b) * (vx (r1 b) * vy (r2 b) - vy (r1 b) * vx (r2 b)).
