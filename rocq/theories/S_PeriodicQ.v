(** Steinhardt's parameter of a site of a periodic arrangement, from the angles
    between the directions to the sites of its shell: by the addition theorem of
    the spherical harmonics, the square root of the mean of the Legendre
    polynomial of the cosine over all pairs. *)
From Coq Require Import Reals ZArith List.
From Verif Require Import Base Num NumR Types S_Geometry S_Steinhardt S_Periodic.
Import ListNotations.
Set Implicit Arguments.
Unset Strict Implicit.

Section S.
Variables (L : v3 Rnum) (l : list (atom Rnum)) (q : site).
(** Cosine of the angle between two sites seen from [q]. *)
Definition cos_seen (p p' : site) : R :=
  let u := S_Periodic.apart L l q p in let v := S_Periodic.apart L l q p' in
  ((vx u * vx v + vy u * vy v + vz u * vz v) / (far L l q p * far L l q p'))%R.
Definition shell_q (k : nat) (ks : list site) : R :=
  (sqrt (Rsum (map (fun p => Rsum (map (fun p' => legendre k (cos_seen p p')) ks)) ks)) / INR (length ks))%R.
End S.

(** The averaged parameter: the directions of a site and of the sites of its
    shell, each with the share it has in the average of the averages. *)
Section A.
Variables (L : v3 Rnum) (l : list (atom Rnum)) (sh : site -> list site) (q : site).
Definition cos_vec (u v : v3 Rnum) : R :=
  ((vx u * vx v + vy u * vy v + vz u * vz v) / (eucl (vx u) (vy u) (vz u) * eucl (vx v) (vy v) (vz v)))%R.
Definition shares : list (R * v3 Rnum) :=
  flat_map (fun p => map (fun p' => (/ INR (length (sh p)) / INR (S (length (sh q))), S_Periodic.apart L l p p')%R) (sh p)) (q :: sh q).
Definition shell_aq (k : nat) : R :=
  sqrt (Rsum (map (fun a => Rsum (map (fun b => fst a * fst b * legendre k (cos_vec (snd a) (snd b)))%R shares)) shares)).
End A.
