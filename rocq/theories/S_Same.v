(** The same arrangement of atoms, listed in another order and seen from
    another origin. *)
From Coq Require Import Reals ZArith List.
From Verif Require Import Base Num NumR Types M_Geometry.
Import ListNotations.
Set Implicit Arguments.
Unset Strict Implicit.
Close Scope R_scope. Close Scope Z_scope.

Section Spec.
Variable N : num.
(** [s'] has the atoms of [s], atom [i] in place [p i], their positions moved
    by [move], in the same cell. *)
Definition rearranged (move : v3 N -> v3 N) (p : nat -> nat) (s s' : sys N) : Prop :=
  length (s_atoms s') = length (s_atoms s) /\
  (forall i j, i < length (s_atoms s) -> j < length (s_atoms s) -> p i = p j -> i = j) /\
  (forall i a, nth_error (s_atoms s) i = Some a ->
     exists a', nth_error (s_atoms s') (p i) = Some a' /\ a_pos a' = move (a_pos a) /\ a_type a' = a_type a) /\
  s_len s' = s_len s /\ s_tri s' = s_tri s /\ s_rot s' = s_rot s /\ s_rotinv s' = s_rotinv s.
(** A neighbour under its new number. *)
Definition renamed (p : nat -> nat) (e : nbr N) : nbr N :=
  mkNbr (p (nb_idx e)) (nb_dist e) (nb_weight e) (nb_vec e).
End Spec.
