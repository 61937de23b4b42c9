(** Specification vocabulary for energies. *)
From Coq Require Import Reals ZArith List.
From Verif Require Import Num NumR Types.
Import ListNotations.
Local Open Scope R_scope.

(** The arithmetic mean. *)
Definition total (l : list R) : R := fold_right Rplus 0 l.
Definition mean_of (l : list R) : R := total l / INR (length l).

(** The dictionary gives the energy [f id] to the id of every atom. *)
Definition gives (eng : list (Z * R)) (f : Z -> R) (l : list (atom Rnum)) : Prop :=
  NoDup (map fst eng) /\ forall a, In a l -> In (a_id a, f (a_id a)) eng.

(** Energies of the neighbours of [a], which are entries of the list [l]. *)
Definition neighbour_energies (f : Z -> R) (l : list (atom Rnum)) (a : atom Rnum) (es : list R) : Prop :=
  Forall2 (fun b e => exists c, nth_error l (nb_idx b) = Some c /\ e = f (a_id c)) (a_nbrs a) es.
