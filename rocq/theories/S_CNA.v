(** Specification vocabulary for common neighbour analysis: finite graphs given
    by a boolean relation and a list of vertices. *)
From Coq Require Import Permutation.
From Verif Require Import Base Num Types M_Geometry M_Neighbors S_Neighbors.
Set Implicit Arguments.
Unset Strict Implicit.

(** Every member of a list, each with the others. *)
Fixpoint picks {A} (l : list A) : list (A * list A) :=
  match l with
  | [] => []
  | x :: l => (x, l) :: map (fun p => (fst p, x :: snd p)) (picks l)
  end.

Section Graph.
Variable A : Type.
Variable near : A -> A -> bool.

(** The common neighbours of the central atom and one of its neighbours. *)
Definition common (p : A * list A) : list A := filter (near (fst p)) (snd p).
(** The number of bonds among the atoms of a list. *)
Fixpoint bonds (l : list A) : nat :=
  match l with [] => 0 | x :: l => length (filter (near x) l) + bonds l end.
(** For every atom of a list the number of others it is bonded to. *)
Definition degrees (l : list A) : list nat := map (fun p => length (common p)) (picks l).
Definition maximum (l : list nat) : nat := fold_right Nat.max 0 l.
Definition minimum (l : list nat) (top : nat) : nat := fold_right Nat.min top l.

(** [adjacent l es]: in [l], atoms i and j are bonded iff (i,j) or (j,i) is
    one of [es]. *)
Definition adjacent (l : list A) (es : list (nat * nat)) : Prop :=
  forall i j x y, i <> j -> nth_error l i = Some x -> nth_error l j = Some y ->
    (near x y = true <-> In (i, j) es \/ In (j, i) es).
(** [shape n es l]: [l] has [n] atoms and, listed in some order, the bonds
    [es]. *)
Definition shape (n : nat) (es : list (nat * nat)) (l : list A) : Prop :=
  length l = n /\ exists l', Permutation l l' /\ adjacent l' es.

(** The bond graphs of the signatures 4-2-1, 4-2-2, 5-5-5, 4-4-4 and 6-6-6. *)
Definition two_bonds := shape 4 [(0, 1); (2, 3)].
Definition chain_of_two := shape 4 [(0, 1); (1, 2)].
Definition ring5 := shape 5 [(0, 1); (1, 2); (2, 3); (3, 4); (4, 0)].
Definition ring4 := shape 4 [(0, 1); (1, 2); (2, 3); (3, 0)].
Definition ring6 := shape 6 [(0, 1); (1, 2); (2, 3); (3, 4); (4, 5); (5, 0)].
Definition two_triangles := shape 6 [(0, 1); (1, 2); (2, 0); (3, 4); (4, 5); (5, 3)].

(** Exactly the bonds to [n] of the neighbours have property [P] and those to
    [m] others have property [Q], and there are no further neighbours. *)
Definition split (n m : nat) (P Q : list A -> Prop) (ns : list A) : Prop :=
  exists ps qs, Permutation (picks ns) (ps ++ qs) /\ length ps = n /\ length qs = m /\
    Forall (fun p => P (common p)) ps /\ Forall (fun p => Q (common p)) qs.

Definition fcc_like (ns : list A) : Prop :=
  length ns = 12 /\ Forall (fun p => two_bonds (common p)) (picks ns).
Definition hcp_like : list A -> Prop := split 6 6 two_bonds chain_of_two.
Definition ico_like (ns : list A) : Prop :=
  length ns = 12 /\ Forall (fun p => ring5 (common p)) (picks ns).
Definition bcc_like : list A -> Prop :=
  split 6 8 ring4 (fun l => ring6 l \/ two_triangles l).

End Graph.

(** ** Systems *)
Section Systems.
Variable N : num.

(** The same cell, numbers of atoms and positions. *)
Definition cell (s : sys N) := (s_nop s, s_real s, s_box s, s_len s, s_tri s, s_rot s, s_rotinv s).
Definition same_geometry (s t : sys N) : Prop :=
  cell s = cell t /\ map (@a_pos N) (s_atoms t) = map (@a_pos N) (s_atoms s).

(** Nothing is left of an earlier candidate search. *)
Definition no_candidates (s : sys N) : Prop := forall a, In a (s_atoms s) -> a_temp a = [].

(** Atoms [x] and [y] are at most [c] apart. *)
Definition within (s : sys N) (c : N) (x y : nat) : bool :=
  match nth_error (s_atoms s) x, nth_error (s_atoms s) y with
  | Some a, Some b => nleb (fst (abs_distance_ij s (a_pos a) (a_pos b))) c
  | _, _ => false
  end.

(** At least [k] other atoms are within the search radius of atom [i]; [cmp]
    decides whether an atom at exactly that distance counts. *)
Definition has_candidates_by (cmp : N -> N -> bool) (s : sys N) (k i : nat) : Prop :=
  exists js, NoDup js /\ length js = k /\
    forall j, In j js -> exists e, link s i j = Some e /\ cmp (nb_dist e) (guess_distance s (nofZ 3)) = true.
Definition has_candidates := has_candidates_by nleb.

(** [r] holds, for the structure values 0..n-1, the number of real atoms with
    that value, these numbers add up to the number of real atoms, and no real
    atom has another value. *)
Definition zsum (l : list Z) : Z := fold_right Z.add 0%Z l.
Definition real_atoms (s : sys N) : list (atom N) := firstn (Z.to_nat (s_real s)) (s_atoms s).
Definition counted_structs (n : nat) (s : sys N) (r : list Z) : Prop :=
  length r = n /\
  (forall v, (0 <= v < Z.of_nat n)%Z -> nth_error r (Z.to_nat v) =
     Some (Z.of_nat (length (filter (fun a => Z.eqb v (a_struct a)) (real_atoms s))))) /\
  zsum r = Z.of_nat (Z.to_nat (s_real s)) /\
  Forall (fun a => 0 <= a_struct a < Z.of_nat n)%Z (real_atoms s).

(** ** Diamond *)
(** Whether atom [j] is cubic (5) or hexagonal (8) diamond, and the kind of the
    first diamond atom of a list. *)
Definition diamond_at (s : sys N) (j : nat) : option Z :=
  match nth_error (s_atoms s) j with
  | Some b => if Z.eqb (a_struct b) 5 then Some 5%Z else if Z.eqb (a_struct b) 8 then Some 8%Z else None
  | None => None
  end.
Fixpoint first_diamond (s : sys N) (js : list nat) : option Z :=
  match js with
  | [] => None
  | j :: js => match diamond_at s j with Some v => Some v | None => first_diamond s js end
  end.
(** The shell labels: 6 and 9 for atoms that are not diamond and have a diamond
    atom among their first neighbours, 7 and 10 for those that have none there
    but one among their second neighbours. *)
Definition shell_rule (s : sys N) (i : nat) (a : atom N) : Prop :=
  let v := a_struct a in
  let first := first_diamond s (a_nn1 a) in
  let second := first_diamond s (map (@nb_idx N) (a_nbrs a)) in
  (v = 6%Z <-> diamond_at s i = None /\ first = Some 5%Z) /\
  (v = 9%Z <-> diamond_at s i = None /\ first = Some 8%Z) /\
  (v = 7%Z <-> diamond_at s i = None /\ first = None /\ second = Some 5%Z) /\
  (v = 10%Z <-> diamond_at s i = None /\ first = None /\ second = Some 8%Z) /\
  In v [0; 4; 5; 6; 7; 8; 9; 10]%Z.

(** The distance of two stored atoms. *)
Definition pair_dist (s : sys N) (x y : nat) : N :=
  match nth_error (s_atoms s) x, nth_error (s_atoms s) y with
  | Some a, Some b => fst (abs_distance_ij s (a_pos a) (a_pos b))
  | _, _ => n0
  end.

End Systems.

(** [exactly k P ns]: [P] holds for the common neighbours of exactly [k] of the
    bonds to [ns]. *)
Definition exactly {A} (near : A -> A -> bool) (k : nat) (P : list A -> Prop) (ns : list A) : Prop :=
  exists ps qs, Permutation (picks ns) (ps ++ qs) /\ length ps = k /\
    Forall (fun p => P (common near p)) ps /\ Forall (fun p => ~ P (common near p)) qs.

(** ** Real arithmetic *)
From Coq Require Import Reals.
From Verif Require Import NumR.
Open Scope R_scope.
(** The bond lengths of the two passes: fixed by the lattice constant, or from
    the distances of the nearest neighbours. *)
Definition radius12 (lc : option R) (near : list (nbr Rnum)) : R :=
  match lc with Some c => 854 / 1000 * c | None => 1207 / 1000 * (sum_dist near / 12) end.
Definition radius14 (lc : option R) (near : list (nbr Rnum)) : R :=
  match lc with
  | Some c => 1207 / 1000 * c
  | None => 1207 / 1000 * ((11547 / 10000 * sum_dist (firstn 8 near) + sum_dist (skipn 8 near)) / 14)
  end.
(** The structure value of atom [i]. *)
Definition cna_rule (s : sys Rnum) (lc : option R) (i : nat) (v : Z) : Prop :=
  exists near, nearest s i 14 near /\
    let idx := map (@nb_idx Rnum) near in
    let g12 := within s (radius12 lc (firstn 12 near)) in
    let g14 := within s (radius14 lc near) in
    (v = 1%Z <-> fcc_like g12 (firstn 12 idx)) /\
    (v = 2%Z <-> hcp_like g12 (firstn 12 idx)) /\
    (v = 4%Z <-> ico_like g12 (firstn 12 idx)) /\
    (v = 3%Z <-> ~ fcc_like g12 (firstn 12 idx) /\ ~ hcp_like g12 (firstn 12 idx) /\
                 ~ ico_like g12 (firstn 12 idx) /\ bcc_like g14 idx) /\
    In v [0; 1; 2; 3; 4]%Z.
Close Scope R_scope.

Open Scope R_scope.
(** The second neighbours through the first ones: [nn] gives the four nearest
    atoms of every atom. *)
Definition second_shell (nn : nat -> list (nbr Rnum)) (i : nat) : list nat :=
  flat_map (fun j => filter (fun k => negb (Nat.eqb i k)) (map (@nb_idx Rnum) (nn j))) (map (@nb_idx Rnum) (nn i)).
Definition mean12 (s : sys Rnum) (i : nat) (js : list nat) : R :=
  fold_right Rplus 0 (map (pair_dist s i) (firstn 12 js)) / 12.
(** The structure value 5 or 8 of atom [i] with second neighbours [js]. *)
Definition diamond_rule (s : sys Rnum) (i : nat) (js : list nat) (v : Z) : Prop :=
  let g := within s (1207 / 1000 * mean12 s i js) in
  (v = 5%Z <-> exactly g 12 (two_bonds g) js) /\
  (v = 8%Z <-> exactly g 6 (two_bonds g) js /\ exactly g 6 (chain_of_two g) js).
Close Scope R_scope.
