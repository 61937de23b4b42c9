(** The infinite periodic arrangement a cell with atoms stands for: every atom
    of the list, displaced by every whole number of cells along each axis. *)
From Coq Require Import Reals ZArith List.
From Verif Require Import Base Num NumR Types M_Neighbors S_Geometry S_Neighbors.
Import ListNotations.
Set Implicit Arguments.
Unset Strict Implicit.
Close Scope Z_scope.

(** An atom of the list and the cell it is displaced to. *)
Definition site := (nat * (Z * Z * Z))%type.
Definition origin (i : nat) : site := (i, (0, 0, 0)%Z).

Section S.
Variables (L : v3 Rnum) (l : list (atom Rnum)).
Definition site_pos (q : site) : v3 Rnum :=
  let '(i, (a, b, c)) := q in
  match nth_error l i with
  | Some at_ => mkV (N := Rnum) (vx (a_pos at_) + IZR a * vx L)%R (vy (a_pos at_) + IZR b * vy L)%R (vz (a_pos at_) + IZR c * vz L)%R
  | None => mkV (N := Rnum) 0%R 0%R 0%R
  end.
Definition site_type (q : site) : Z :=
  match nth_error l (fst q) with Some a => a_type a | None => 0%Z end.
(** From one site to another. *)
Definition apart (q q' : site) : v3 Rnum :=
  mkV (N := Rnum) (vx (site_pos q') - vx (site_pos q))%R (vy (site_pos q') - vy (site_pos q))%R (vz (site_pos q') - vz (site_pos q))%R.
Definition far (q q' : site) : R := eucl (vx (apart q q')) (vy (apart q q')) (vz (apart q q')).
(** [ks] are all the sites closer to [q] than [r], each once. *)
Definition shell (f : filt) (r : R) (q : site) (ks : list site) : Prop :=
  NoDup ks /\
  forall q', In q' ks <->
    (fst q' < length l)%nat /\ q' <> q /\ (far q q' < r)%R /\ allowed f (site_type q) (site_type q') = true.
(** An entry of a neighbour list that stands for site [q'] seen from [q]. *)
Definition stands_for (q q' : site) (e : nbr Rnum) : Prop :=
  nb_dist e = far q q' /\ nb_vec e = apart q q' /\ nb_weight e = 1%R.
End S.
