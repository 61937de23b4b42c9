(** misc.py:5-175, compare_atomic_env and find_tetrahedral_voids.  Model only.
    Both start from the system that read_inputfile (M_Formats) gives; the text
    that they print and their warnings are left out. *)
From Verif Require Import Base Num Types M_Geometry M_Container M_Neighbors M_Analysis M_Voro M_Text M_Lammps M_Formats.
Set Implicit Arguments.
Unset Strict Implicit.
Local Open Scope num_scope.

Section Misc.
Variable N : num.
Variable raw : Z -> atom N.
Variable inv : m3 N -> option (m3 N).
Variable area_pow : N -> N.
Variable cells : nat -> option (cell N).
Variable srt : list (datom N) -> list (datom N).
Variable npsum : list N -> N.
(** dists[np.argsort(dists)], misc.py:143. *)
Variable np_sort : list N -> list N.
(** np.round(x, decimals=precision), misc.py:58. *)
Variable np_round : Z -> N -> N.

(** misc.py:47-50 and 121-124: the search with its default arguments
    (core.py:392), the vectors with theirs (core.py:623), and the atoms. *)
Definition environments (s : sys N) (vs : list (vdata N)) : res (sys N * list (atom N * vdata N)) :=
  '(s, e, vs) <- find_neighbors_voronoi raw inv area_pow cells srt s FNone (nofZ 2) (nlit 6 5) 6%Z vs ;;
  match e with
  | Some e => Err e
  | None =>
      '(s, ws) <- calculate_vorovector raw inv npsum s vs (nlit 1 20) (nlit 1 100) ;;
      atoms <- get_atoms s ;;
      Ok (s, combine atoms ws)
  end.

(** np.unique(l, return_counts=True) of a list of floats. *)
Fixpoint ins_value (x : N) (l : list (N * Z)) : list (N * Z) :=
  match l with
  | [] => [(x, 1%Z)]
  | (y, c) :: l =>
      if x <? y then (x, 1%Z) :: (y, c) :: l
      else if x =? y then (y, (c + 1)%Z) :: l
      else (y, c) :: ins_value x l
  end.
Definition unique_values (l : list N) : list (N * Z) := fold_right ins_value [] l.

(** misc.py:56: " ".join(np.array(atom.vorovector).astype(str)). *)
Definition fingerprint (v : list Z) : text := join sp (map show_int v).
(** misc.py:51-65: the volumes with their counts, the fingerprints, and whether
    their numbers differ. *)
Definition group_environments (atomtype precision : Z) (l : list (atom N * vdata N))
    : list (N * Z) * list text * bool :=
  let sel := filter (fun p => Z.eqb (a_type (fst p)) atomtype) l in
  let vvx := unique_values (map (fun p => np_round precision (vd_volume (snd p))) sel) in
  let vrx := unique_text (map (fun p => fingerprint (vd_vector (snd p))) sel) in
  (vvx, vrx, negb (Nat.eqb (length vvx) (length vrx))).
(** misc.py:5-85 with print_results=False (the numpy array made of the three
    lists is kept as the lists). *)
Definition compare_atomic_env (s : sys N) (vs : list (vdata N)) (atomtype precision : Z)
    : res (sys N * (list (N * Z) * list text * bool)) :=
  '(s, l) <- environments s vs ;;
  Ok (s, group_environments atomtype precision l).
(** misc.py:73-79: the lines printed, as fingerprint (if there is one), volume
    and count. *)
Definition printed (g : list (N * Z) * list text * bool) : list (option text * N * Z) :=
  match g with
  | (vvx, vrx, mismatch) =>
      if mismatch : bool then map (fun v => (None, fst v, snd v)) vvx
      else map (fun p => (Some (fst p), fst (snd p), snd (snd p))) (combine vrx vvx)
  end.

(** atoms[x], misc.py:142: indices of neighbours are not negative. *)
Definition atom_at (atoms : list (atom N)) (x : nat) : res (atom N) :=
  match nth_error atoms x with Some a => Ok a | None => Err IndexError end.
(** misc.py:141-147; get_distance without the vector (M_Geometry). *)
Definition mindistcount (s : sys N) (atoms : list (atom N)) (precision : N) (a : atom N) : res nat :=
  let neighs := map fst (np_unique (map (fun b => Z.of_nat (nb_idx b)) (a_nbrs a))) in
  dists <- mapM (fun x => b <- atom_at atoms (Z.to_nat x) ;; Ok (abs_distance s (a_pos a) (a_pos b))) neighs ;;
  match np_sort dists with
  | [] => Err IndexError
  | mindist :: _ =>
      Ok (length (filter (fun d => if mindist * (n1 - precision) <=? d then d <=? mindist * (n1 + precision) else false) dists))
  end.
(** misc.py:149-157: Python's division of floats. *)
Definition fdiv (x y : N) : res N := if y =? n0 then Err ZeroDivisionError else Ok (x / y).
Definition direct (box p : v3 N) : res (v3 N) :=
  x <- fdiv (vx p) (vx box) ;; y <- fdiv (vy p) (vy box) ;; z <- fdiv (vz p) (vz box) ;; Ok (mkV x y z).
(** misc.py:129-132. *)
Definition box_spans (b : m3 N) : v3 N :=
  mkV (vy (r0 b) - vx (r0 b)) (vy (r1 b) - vx (r1 b)) (vy (r2 b) - vx (r2 b)).
(** misc.py:137-157, one atom: type, volume and position if it is reported. *)
Definition void_at (s : sys N) (atoms : list (atom N)) (direct_coordinates : bool) (precision : N) (p : atom N * vdata N)
    : res (list (Z * N * v3 N)) :=
  n4 <- py_get (vd_vector (snd p)) 1 ;;
  if Z.eqb n4 4 then
    c <- mindistcount s atoms precision (fst p) ;;
    if Nat.eqb c 4 then
      q <- (if direct_coordinates then direct (box_spans (box_get s)) (a_pos (fst p)) else Ok (a_pos (fst p))) ;;
      Ok [(a_type (fst p), vd_volume (snd p), q)]
    else Ok []
  else Ok [].
(** misc.py:88-175. *)
Definition find_tetrahedral_voids (s : sys N) (vs : list (vdata N)) (direct_coordinates : bool) (precision : N)
    : res (sys N * list (Z * N * v3 N)) :=
  '(s, l) <- environments s vs ;;
  out <- mapM (void_at s (map fst l) direct_coordinates precision) l ;;
  Ok (s, concat out).
End Misc.
