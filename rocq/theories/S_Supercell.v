(** Repeating a cell: a list of atoms in a box that is a whole number of boxes of
    another list along each axis. *)
From Coq Require Import Reals ZArith List.
From Verif Require Import Base Num NumR Types S_Geometry S_Periodic.
Import ListNotations.
Set Implicit Arguments.
Unset Strict Implicit.
Close Scope Z_scope.

Definition in_cells (n1 n2 n3 : Z) (q : site) : Prop :=
  let '(_, (a, b, c)) := q in (0 <= a < n1 /\ 0 <= b < n2 /\ 0 <= c < n3)%Z.
(** [l'] has the atoms of [l] displaced by 0 to n - 1 sides along each axis, in
    any order: atom j of [l'] stands at site [at_ j] of [l]. *)
Definition supercell (L : v3 Rnum) (n1 n2 n3 : Z) (l l' : list (atom Rnum)) (at_ : nat -> site) : Prop :=
  (forall j a, nth_error l' j = Some a ->
     (fst (at_ j) < length l)%nat /\ in_cells n1 n2 n3 (at_ j) /\ a_pos a = site_pos L l (at_ j) /\ a_type a = site_type l (at_ j)) /\
  (forall i j, (i < length l')%nat -> (j < length l')%nat -> at_ i = at_ j -> i = j) /\
  (forall q, (fst q < length l)%nat -> in_cells n1 n2 n3 q -> exists j, (j < length l')%nat /\ at_ j = q).

(** More generally, [l'] in a box of n1 x n2 x n3 sides describes the same
    arrangement up to a displacement [T]: its atoms stand, displaced by [T], at
    sites of [l], and every site of [l] is one of these moved by a whole number of
    large boxes, in one way.  Atoms may be replaced by any of their images, the
    origin may be moved and the atoms folded back into the box. *)
Definition big_step (n1 n2 n3 : Z) (t : Z * Z * Z) (q : site) : site :=
  let '(i, (a, b, c)) := q in let '(u, v, w) := t in (i, (a + u * n1, b + v * n2, c + w * n3)%Z).
Definition describes (L T : v3 Rnum) (n1 n2 n3 : Z) (l l' : list (atom Rnum)) (at_ : nat -> site) : Prop :=
  (forall j a, nth_error l' j = Some a -> (fst (at_ j) < length l)%nat /\
     a_pos a = mkV (N := Rnum) (vx (site_pos L l (at_ j)) + vx T)%R (vy (site_pos L l (at_ j)) + vy T)%R (vz (site_pos L l (at_ j)) + vz T)%R /\
     a_type a = site_type l (at_ j)) /\
  (forall q, (fst q < length l)%nat -> exists j t, (j < length l')%nat /\ big_step n1 n2 n3 t (at_ j) = q) /\
  (forall j j' t t', (j < length l')%nat -> (j' < length l')%nat ->
     big_step n1 n2 n3 t (at_ j) = big_step n1 n2 n3 t' (at_ j') -> j = j' /\ t = t').
