(** Specification vocabulary for Steinhardt's parameters: Legendre functions by
    Rodrigues' formula, spherical harmonics, the definition of q_l. *)
From Coq Require Import Reals ZArith List Permutation.
From Verif Require Import Base Num NumR Types M_Geometry.
Import ListNotations.
Set Implicit Arguments.
Unset Strict Implicit.

(** ** Polynomials with integer coefficients, lowest degree first *)
Section Poly.
Local Open Scope Z_scope.
Fixpoint padd (p q : list Z) : list Z :=
  match p, q with
  | [], _ => q
  | _, [] => p
  | a :: p, b :: q => (a + b) :: padd p q
  end.
Definition pscale (k : Z) (p : list Z) : list Z := map (Z.mul k) p.
Fixpoint pmul (p q : list Z) : list Z :=
  match p with
  | [] => []
  | a :: p => padd (pscale a q) (0 :: pmul p q)
  end.
Fixpoint ppow (p : list Z) (n : nat) : list Z :=
  match n with O => [1] | S n => pmul p (ppow p n) end.
(** Formal derivative. *)
Fixpoint pderiv_from (k : Z) (p : list Z) : list Z :=
  match p with [] => [] | a :: p => k * a :: pderiv_from (k + 1) p end.
Definition pderiv (p : list Z) : list Z :=
  match p with [] => [] | _ :: p => pderiv_from 1 p end.
Fixpoint zfact (n : nat) : Z := match n with O => 1 | S n' => Z.of_nat n * zfact n' end.
End Poly.

Local Open Scope R_scope.
Fixpoint peval (p : list Z) (x : R) : R :=
  match p with [] => 0 | a :: p => IZR a + x * peval p x end.

(** d^l/dx^l (x^2 - 1)^l *)
Definition rodrigues (l : nat) : list Z := Nat.iter l pderiv (ppow [-1; 0; 1]%Z l).
(** P_l(x) = 1/(2^l l!) d^l/dx^l (x^2-1)^l *)
Definition legendre (l : nat) (x : R) : R := peval (rodrigues l) x / IZR (2 ^ Z.of_nat l * zfact l).
(** P_l^m(x) = (-1)^m (1-x^2)^(m/2) d^m/dx^m P_l(x) *)
Definition assoc_legendre (l m : nat) (x : R) : R :=
  (-1) ^ m * sqrt (1 - x ^ 2) ^ m * peval (Nat.iter m pderiv (rodrigues l)) x
  / IZR (2 ^ Z.of_nat l * zfact l).

(** ** Spherical harmonics (real and imaginary part), 0 <= m <= l, and
    Y_l,-m = (-1)^m conj(Y_lm). *)
Definition Y_norm (l m : nat) : R :=
  sqrt ((2 * INR l + 1) / (4 * PI) * (IZR (zfact (l - m)) / IZR (zfact (l + m)))).
Definition Y_pos (l m : nat) (theta phi : R) : R * R :=
  (Y_norm l m * assoc_legendre l m (cos theta) * cos (INR m * phi),
   Y_norm l m * assoc_legendre l m (cos theta) * sin (INR m * phi)).
Definition Y (l : nat) (m : Z) (theta phi : R) : R * R :=
  if Z.leb 0 m then Y_pos l (Z.to_nat m) theta phi
  else let '(re, im) := Y_pos l (Z.to_nat (- m)) theta phi in
       ((-1) ^ Z.to_nat (- m) * re, - ((-1) ^ Z.to_nat (- m) * im)).

Definition Rsum (l : list R) : R := fold_right Rplus 0 l.

(** Directions with weights: (weight, theta, phi). *)
Definition dirs := list (R * R * R).
Definition weights (E : dirs) : R := Rsum (map (fun t => fst (fst t)) E).
(** The weighted mean of Y_lm. *)
Definition q_lm (l : nat) (m : Z) (E : dirs) : R * R :=
  (Rsum (map (fun t => fst (fst t) * fst (Y l m (snd (fst t)) (snd t))) E) / weights E,
   Rsum (map (fun t => fst (fst t) * snd (Y l m (snd (fst t)) (snd t))) E) / weights E).
Definition abs2 (z : R * R) : R := fst z ^ 2 + snd z ^ 2.
(** q_l = sqrt(4 pi/(2l+1) sum_m |mean of Y_lm|^2) *)
Definition steinhardt (l : nat) (E : dirs) : R :=
  sqrt (4 * PI / (2 * INR l + 1) *
        Rsum (map (fun m => abs2 (q_lm l m E)) (zrange (- Z.of_nat l) (Z.of_nat l + 1)))).

(** Spherical coordinates of a vector. *)
Definition angles (v : v3 Rnum) (theta phi : R) : Prop :=
  let r := norm v in
  0 < r /\ 0 <= theta <= PI /\
  (vx v : R) = r * sin theta * cos phi /\ (vy v : R) = r * sin theta * sin phi /\
  (vz v : R) = r * cos theta.

Definition nonzero (v : v3 Rnum) : Prop := ~ (vx v = 0 /\ vy v = 0 /\ vz v = 0).

Close Scope R_scope.

Section Env.
Variable N : num.
(** The neighbours of [a] that count: those with the same condition value. *)
Definition same_cond (l : list (atom N)) (a : atom N) (e : nbr N) : bool :=
  match nth_error l (nb_idx e) with Some b => Z.eqb (a_cond a) (a_cond b) | None => false end.
Definition counted (l : list (atom N)) (a : atom N) : list (nbr N) :=
  filter (same_cond l a) (a_nbrs a).
(** The arrays have the size declared in atom.h:144-149 and every neighbour
    index is the index of a stored atom. *)
Definition q_arrays (a : atom N) : Prop :=
  length (a_q a) = 11 /\ length (a_aq a) = 11 /\
  length (a_qc a) = 11 /\ Forall (fun r => length r = 25) (a_qc a) /\
  length (a_aqc a) = 11 /\ Forall (fun r => length r = 25) (a_aqc a).
Definition q_ready (s : sys N) : Prop :=
  s_nop s = Z.of_nat (length (s_atoms s)) /\
  forall a, In a (s_atoms s) ->
    q_arrays a /\ forall e, In e (a_nbrs a) -> nb_idx e < length (s_atoms s).
(** Everything about an atom except its q (aq) values and components. *)
Definition but_q (a : atom N) : atom N := a <| a_q := [] |> <| a_qc := [] |>.
Definition but_aq (a : atom N) : atom N := a <| a_aq := [] |> <| a_aqc := [] |>.
End Env.

(** Averaged parameters: the mean of the q_lm of the atom ([E]) and of the
    atoms around it ([Es]) takes the place of q_lm. *)
Local Open Scope R_scope.
Definition mean_lm (l : nat) (m : Z) (E : dirs) (Es : list dirs) : R * R :=
  let zs := map (q_lm l m) (E :: Es) in
  (Rsum (map fst zs) / INR (length zs), Rsum (map snd zs) / INR (length zs)).
Definition steinhardt_avg (l : nat) (E : dirs) (Es : list dirs) : R :=
  sqrt (4 * PI / (2 * INR l + 1) *
        Rsum (map (fun m => abs2 (mean_lm l m E Es)) (zrange (- Z.of_nat l) (Z.of_nat l + 1)))).
Close Scope R_scope.

(** [E]: weights and spherical coordinates (any choice of angles) of the
    neighbours [es]. *)
Definition env (es : list (nbr Rnum)) (E : dirs) : Prop :=
  Forall2 (fun e t => fst (fst t) = nb_weight e /\ angles (nb_vec e) (snd (fst t)) (snd t)) es E.
(** [Es]: the environments of the atoms [es] point at. *)
Definition envs (l : list (atom Rnum)) (es : list (nbr Rnum)) (Es : list dirs) : Prop :=
  Forall2 (fun e E => exists b, nth_error l (nb_idx e) = Some b /\ env (counted l b) E) es Es.
(** No counted neighbour lies on its atom. *)
Definition apart (l : list (atom Rnum)) : Prop :=
  forall a e, In a l -> In e (counted l a) -> nonzero (nb_vec e).
Definition wtotal (es : list (nbr Rnum)) : R := Rsum (map (fun e => nb_weight e : R) es).

(** Orthogonal matrices and the system with all neighbour vectors turned. *)
Definition orthogonal (m : m3 Rnum) : Prop :=
  let c f := (f (r0 m), f (r1 m), f (r2 m)) in
  let dot (p q : R * R * R) : R :=
    (fst (fst p) * fst (fst q) + snd (fst p) * snd (fst q) + snd p * snd q)%R in
  let X := c (@vx Rnum) in let Y := c (@vy Rnum) in let Z := c (@vz Rnum) in
  (dot X X = 1 /\ dot Y Y = 1 /\ dot Z Z = 1 /\ dot X Y = 0 /\ dot X Z = 0 /\ dot Y Z = 0)%R.
Definition turn_nbr (m : m3 Rnum) (e : nbr Rnum) : nbr Rnum :=
  mkNbr (nb_idx e) (nb_dist e) (nb_weight e) (mvmul m (nb_vec e)).
Definition turn (m : m3 Rnum) (s : sys Rnum) : sys Rnum :=
  s <| s_atoms := map (fun a => a <| a_nbrs := map (turn_nbr m) (a_nbrs a) |>) (s_atoms s) |>.

(** [e'] is [e] turned by [m], lengthened or shortened, its weight multiplied by [c]. *)
Definition moved (m : m3 Rnum) (c : R) (e e' : nbr Rnum) : Prop :=
  nb_idx e' = nb_idx e /\ (nb_weight e' : R) = (c * nb_weight e)%R /\
  exists k : R, (0 < k)%R /\ nb_vec e' = vscale (k : Rnum) (mvmul m (nb_vec e)).
(** The same atom with its neighbours moved and in another order. *)
Definition moved_atom (m : m3 Rnum) (c : R) (a a' : atom Rnum) : Prop :=
  a_cond a' = a_cond a /\ a_q a' = a_q a /\ a_aq a' = a_aq a /\
  exists es, Permutation es (a_nbrs a') /\ Forall2 (moved m c) (a_nbrs a) es.
