(** Specification vocabulary for storing the atoms of a system back into it
    (property C74). *)
From Coq Require Import ZArith List.
From Verif Require Import Num Types.
Import ListNotations.
Set Implicit Arguments.
Unset Strict Implicit.

Section S.
Variable N : num.

(** Same coordinates, type, id and ghost flag. *)
Definition same_place (a b : atom N) : Prop :=
  a_pos a = a_pos b /\ a_type a = a_type b /\ a_id a = a_id b /\ a_ghost a = a_ghost b.

(** [t] is [s] after any steps that only compute: the atoms are where they
    were, and the members that describe the box and count the atoms are as
    they were.  What analyses produce may differ: everything else in the
    atoms, and the search settings and flags of the system. *)
Definition results_off (s : sys N) : sys N :=
  s <| s_atoms := [] |> <| s_nd := n0 |> <| s_filter := 0%Z |> <| s_usecells := false |>
    <| s_vorused := false |> <| s_found := false |> <| s_maxclus := 0%Z |>.
Definition only_computed (s t : sys N) : Prop :=
  Forall2 same_place (s_atoms s) (s_atoms t) /\ results_off s = results_off t.

(** An atom as the constructor leaves it in memory [m]: no neighbours, nothing
    computed, the condition is what the memory held. *)
Definition blank (m : atom N) (a : atom N) : Prop :=
  a_nbrs a = [] /\ a_q a = repeat (nofZ (-1)) 11 /\ a_solid a = false /\ a_surface a = false /\
  a_belongs a = (-1)%Z /\ a_cond a = a_cond m /\ a_cutoff a = a_cutoff m.
End S.
