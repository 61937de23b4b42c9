(** Specification vocabulary for the sann method. *)
From Coq Require Import Reals List.
From Verif Require Import Base Num NumR Types M_Geometry M_Neighbors S_Geometry S_Neighbors.
Import ListNotations.
Open Scope R_scope.

(** [near] lists atoms by distance.  The condition of the method: the sum of
    the [m] smallest distances divided by m-2 is less than the next distance. *)
Definition stops (near : list (nbr Rnum)) (m : nat) : Prop :=
  exists e, nth_error near m = Some e /\ sum_dist (firstn m near) / INR (m - 2) < nb_dist e.

(** The sann rule: [l] lists the m nearest atoms, m being the smallest number
    from 3 for which the condition holds. *)
Definition sann_rule (s : sys Rnum) (i : nat) (l : list (nbr Rnum)) : Prop :=
  exists m near, (3 <= m)%nat /\ nearest s i (S m) near /\ l = firstn m near /\
    stops near m /\ forall k, (3 <= k < m)%nat -> ~ stops near k.

(** What the code takes instead up to index [k]: all but the fourth. *)
Definition taken (near : list (nbr Rnum)) (k : nat) : list (nbr Rnum) :=
  firstn 3 near ++ skipn 4 (firstn (S k) near).
(** Its condition compares the last atom taken with the radius that this atom
    itself contributed to. *)
Definition stops_taken (near : list (nbr Rnum)) (m : nat) : Prop :=
  exists e, nth_error near m = Some e /\ sum_dist (taken near m) / INR (m - 2) < nb_dist e.
Definition skip_rule (s : sys Rnum) (i : nat) (l : list (nbr Rnum)) : Prop :=
  exists m near, (3 <= m)%nat /\ nearest s i (S m) near /\ l = taken near m /\
    stops_taken near m /\ forall k, (3 <= k < m)%nat -> ~ stops_taken near k.

(** The loop does not stop within the first [n] atoms by distance. *)
Definition never_stops (s : sys Rnum) (i n : nat) : Prop :=
  exists near, nearest s i n near /\ forall k, (3 <= k < n)%nat -> ~ stops_taken near k.

(** Atom [i] has exactly [n] atoms at a distance satisfying [cand]. *)
Definition count_within (s : sys Rnum) (i n : nat) (cand : R -> Prop) : Prop :=
  exists js, length js = n /\ NoDup js /\
    forall j, In j js <-> exists e, link s i j = Some e /\ cand (nb_dist e).
Close Scope R_scope.
