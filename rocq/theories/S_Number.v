(** Specification: the nearest atoms for any arithmetic, with the comparisons of
    that arithmetic (all false on NaN). *)
From Coq Require Import Permutation Sorted.
From Coq.Floats Require Import SpecFloat.
From Verif Require Import Base Num NumF Types M_Geometry M_Neighbors S_Neighbors S_Double.
Set Implicit Arguments.
Unset Strict Implicit.

Section Spec.
Variable N : num.
Implicit Types (s : sys N) (l : list (nbr N)).

(** Atom [j] seen from atom [i]: index, distance, unit weight, vector to [j]. *)
Definition view s (i j : nat) : option (nbr N) :=
  match nth_error (s_atoms s) i, nth_error (s_atoms s) j with
  | Some a, Some b =>
      if Nat.eqb i j then None
      else let '(d, v) := abs_distance_ij s (a_pos a) (a_pos b) in Some (mkNbr j d n1 v)
  | _, _ => None
  end.

(** [l] has [k] views of distinct atoms in order of distance, and no atom left
    out is closer than one of them. *)
Definition nearest_views s (i k : nat) l : Prop :=
  length l = k /\
  (forall e, In e l -> view s i (nb_idx e) = Some e) /\
  NoDup (map (@nb_idx N) l) /\
  StronglySorted (fun e e' => nleb (nb_dist e) (nb_dist e') = true) l /\
  (forall j e, view s i j = Some e -> ~ In j (map (@nb_idx N) l) ->
     forall e', In e' l -> nltb (nb_dist e) (nb_dist e') = false).

(** Fewer than [k] atoms are within [r] of atom [i]. *)
Definition few_views s (r : N) (i : nat) (k : Z) : Prop :=
  forall js, NoDup js -> (forall j, In j js -> exists e, view s i j = Some e /\ nleb (nb_dist e) r = true) ->
  (Z.of_nat (length js) < k)%Z.

(** The adaptive rule as it is computed: the atoms within [r] that the filter
    allows, closer than padding times (1 / k) times the sum of the [k] smallest
    distances. *)
Definition adaptive_views s (i : nat) (k : Z) (padding r : N) (f : filt) l : Prop :=
  exists near, nearest_views s i (Z.to_nat k) near /\
    NoDup (map (@nb_idx N) l) /\
    forall e, In e l <->
      view s i (nb_idx e) = Some e /\ nleb (nb_dist e) r = true /\
      nltb (nb_dist e) (nmul (nmul padding (ndiv n1 (nofZ k))) (nsum (map (@nb_dist N) near))) = true /\
      allowed f (type_at s i) (type_at s (nb_idx e)) = true.

(** std::sort on distances none of which is NaN. *)
Definition sorts_numbers (srt : list (datom N) -> list (datom N)) : Prop :=
  forall ds, (forall d, In d ds -> nleb (d_dist d) (d_dist d) = true) ->
    Permutation (srt ds) ds /\
    StronglySorted (fun x y => nltb (d_dist y) (d_dist x) = false) (srt ds).

(** The distance of two atoms is the same both ways. *)
Definition two_way s : Prop :=
  forall a b, In a (s_atoms s) -> In b (s_atoms s) ->
    fst (abs_distance_ij s (a_pos a) (a_pos b)) = fst (abs_distance_ij s (a_pos b) (a_pos a)).
End Spec.

(** A box of doubles: lengths and rotations are doubles, the lengths are not
    negative.  The box setter makes such boxes. *)
Definition double_box (lib : libm) (s : sys (SF64 lib)) : Prop :=
  all3 dbl (s_len s) /\ all3 (fun x => SFltb x (S754_zero false) = false) (s_len s) /\
  all33 dbl (s_rot s) /\ all33 dbl (s_rotinv s).
Definition double_atoms (lib : libm) (s : sys (SF64 lib)) : Prop :=
  forall a, In a (s_atoms s) -> all3 dbl (a_pos a).
