(** Specification vocabulary for neighbour finding. *)
From Coq Require Import Reals.
From Verif Require Import Base Num NumR Types M_Geometry M_Neighbors.
Close Scope R_scope.
Set Implicit Arguments.
Unset Strict Implicit.

Section Spec.
Variable N : num.

(** Every stored atom is counted: nop is the number of stored atoms. *)
Definition stored (s : sys N) : Prop := s_nop s = Z.of_nat (length (s_atoms s)).

(** What the filter keyword documents (core.py:418-421). *)
Definition allowed (f : filt) (ti tj : Z) : bool :=
  match f with FNone => true | FType => Z.eqb ti tj | FTypeR => negb (Z.eqb ti tj) end.

(** The entry atom [i] should have for atom [j]: index, periodic distance, unit
    weight and the periodic vector from i to j.  The distance is evaluated
    once per pair, from the smaller to the larger index. *)
Definition link (s : sys N) (i j : nat) : option (nbr N) :=
  match nth_error (s_atoms s) i, nth_error (s_atoms s) j with
  | Some a, Some b =>
      if i <? j then
        let '(d, v) := abs_distance_ij s (a_pos a) (a_pos b) in Some (mkNbr j d n1 v)
      else if j <? i then
        let '(d, v) := abs_distance_ij s (a_pos b) (a_pos a) in Some (mkNbr j d n1 (vopp v))
      else None
  | _, _ => None
  end.

(** All entries closer than [r] and allowed by the filter, in index order. *)
Definition type_at (s : sys N) (i : nat) : Z :=
  match nth_error (s_atoms s) i with Some a => a_type a | None => 0 end.
Definition neighbors_within (s : sys N) (r : N) (f : filt) (i : nat) : list (nbr N) :=
  flat_map (fun j => match link s i j with
                     | Some e => if nltb (nb_dist e) r && allowed f (type_at s i) (type_at s j)
                                 then [e] else []
                     | None => []
                     end) (seq 0 (length (s_atoms s))).

(** The neighbour list of atom [i]. *)
Definition nbrs_at (s : sys N) (i : nat) : list (nbr N) :=
  match nth_error (s_atoms s) i with Some a => a_nbrs a | None => [] end.

(** Everything about an atom except what neighbour finding may change. *)
Definition same_atom (a b : atom N) : Prop :=
  a <| a_nbrs := [] |> <| a_temp := [] |> <| a_cond := 0%Z |> <| a_cutoff := n0 |> =
  b <| a_nbrs := [] |> <| a_temp := [] |> <| a_cond := 0%Z |> <| a_cutoff := n0 |>.

(** Two systems with the same positions, types, box (and everything else that
    is not a result or setting of neighbour finding). *)
Definition same_physics (s1 s2 : sys N) : Prop :=
  Forall2 same_atom (s_atoms s1) (s_atoms s2) /\
  s1 <| s_atoms := [] |> <| s_nd := n0 |> <| s_filter := 0%Z |> <| s_usecells := false |>
     <| s_vorused := false |> <| s_found := false |> =
  s2 <| s_atoms := [] |> <| s_nd := n0 |> <| s_filter := 0%Z |> <| s_usecells := false |>
     <| s_vorused := false |> <| s_found := false |>.

(** A candidate of atom [i]: atom [j] and the pair distance. *)
Definition candidate (cmp : N -> N -> bool) (s : sys N) (r : N) (i : nat) (d : datom N) : Prop :=
  exists e, link s i (d_idx d) = Some e /\ nb_dist e = d_dist d /\ cmp (d_dist d) r = true.

End Spec.

(** ** Real arithmetic *)
From Verif Require Import S_Geometry.
Open Scope R_scope.

(** A coordinate within one box length of the box [0,L); the code moves
    coordinates in (-1e-6, 1e-6) to 0, so those just below 0 are excluded. *)
Definition coord_ok (L x : R) : Prop := - L <= x < 2 * L /\ ~ (- (1 / 1000000) < x < 0).

(** Orthogonal box at least three cutoffs wide in each direction. *)
Definition three_wide (s : sys Rnum) (r : R) : Prop :=
  ortho s /\ 1 / 1000000 <= r /\
  3 * r <= vx (s_len s) /\ 3 * r <= vy (s_len s) /\ 3 * r <= vz (s_len s).
Definition cells_ok (s : sys Rnum) (r : R) : Prop :=
  three_wide s r /\
  forall a, In a (s_atoms s) ->
    coord_ok (vx (s_len s)) (vx (a_pos a)) /\ coord_ok (vy (s_len s)) (vy (a_pos a)) /\
    coord_ok (vz (s_len s)) (vz (a_pos a)).
Close Scope R_scope.

(** What the C++ standard promises about std::sort with by_dist: a permutation
    in which no element is smaller than an earlier one. *)
From Coq Require Import Permutation Sorted.
Definition sorts (N : num) (srt : list (datom N) -> list (datom N)) : Prop :=
  forall l, Permutation (srt l) l /\
    StronglySorted (fun x y => nltb (d_dist y) (d_dist x) = false) (srt l).

Open Scope R_scope.
(** [l] is a list of [k] entries of atom [i] for distinct atoms, sorted by
    distance, such that no other atom is closer than any of them. *)
Definition nearest (s : sys Rnum) (i : nat) (k : nat) (l : list (nbr Rnum)) : Prop :=
  length l = k /\
  (forall e, In e l -> link s i (nb_idx e) = Some e) /\
  NoDup (map (@nb_idx Rnum) l) /\
  StronglySorted (fun e e' => nb_dist e <= nb_dist e') l /\
  (forall j e, link s i j = Some e -> ~ In j (map (@nb_idx Rnum) l) ->
     forall e', In e' l -> nb_dist e' <= nb_dist e).

Definition sum_dist (l : list (nbr Rnum)) : R := fold_right (fun e t => nb_dist e + t) 0 l.

(** The adaptive rule: [l] lists exactly the entries that are candidates,
    allowed by the filter and closer than padding times the mean distance of
    the [k] nearest atoms. *)
Definition adaptive_rule (s : sys Rnum) (i k : nat) (padding : R) (f : filt)
    (cand : R -> Prop) (l : list (nbr Rnum)) : Prop :=
  exists near, nearest s i k near /\
    NoDup (map (@nb_idx Rnum) l) /\
    forall e, In e l <->
      (link s i (nb_idx e) = Some e /\ cand (nb_dist e) /\
       nb_dist e < padding * (sum_dist near / INR k) /\
       allowed f (type_at s i) (type_at s (nb_idx e)) = true).
Close Scope R_scope.
