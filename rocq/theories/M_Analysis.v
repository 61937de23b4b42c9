(** Angular criterion, chi parameters, short range order, radial distribution
    function and concentration: core.py:89-94, 271-315, 1114-1233, 1425-1640,
    2090-2109.  Model only. *)
From Verif Require Import Base Num Types M_Geometry M_Container.
Set Implicit Arguments.
Unset Strict Implicit.

(** Indexing of a Python list or numpy array: negative indices count from the
    end. *)
Definition py_get {A} (l : list A) (i : Z) : res A :=
  let n := Z.of_nat (length l) in
  let j := if Z.ltb i 0 then (n + i)%Z else i in
  if Z.ltb j 0 then Err IndexError
  else match nth_error l (Z.to_nat j) with Some a => Ok a | None => Err IndexError end.

(** itertools.combinations(l, 2). *)
Fixpoint combos {A} (l : list A) : list (A * A) :=
  match l with
  | [] => []
  | a :: l => map (fun b => (a, b)) l ++ combos l
  end.

(** np.unique(l, return_counts=True) of a list of ints. *)
Fixpoint ins_count (t : Z) (l : list (Z * Z)) : list (Z * Z) :=
  match l with
  | [] => [(t, 1%Z)]
  | (u, c) :: l =>
      if Z.ltb t u then (t, 1%Z) :: (u, c) :: l
      else if Z.eqb t u then (u, (c + 1)%Z) :: l
      else (u, c) :: ins_count t l
  end.
Definition np_unique (l : list Z) : list (Z * Z) := fold_right ins_count [] l.

Section Analysis.
Variable N : num.
Open Scope num_scope.
(** As in M_Container: np.linalg.inv and uninitialised memory. *)
Variable inv : m3 N -> option (m3 N).
Variable raw : Z -> atom N.

(** ** Histograms *)
(** numpy.histogram with explicit bin edges (lib/histograms.py): differences of
    the cumulative counts of the values below each edge; the last edge belongs
    to the last bin.  Edges are assumed increasing (numpy raises ValueError
    otherwise; here they are constants or come from [linspace]). *)
Definition below (e : N) (xs : list N) : Z := Z.of_nat (length (filter (fun x => x <? e) xs)).
Definition upto (e : N) (xs : list N) : Z := Z.of_nat (length (filter (fun x => x <=? e) xs)).
Fixpoint hist_from (xs : list N) (lo : Z) (edges : list N) : list Z :=
  match edges with
  | [] => []
  | [e] => [(upto e xs - lo)%Z]
  | e :: es => (below e xs - lo)%Z :: hist_from xs (below e xs) es
  end.
Definition histogram (edges : list N) (xs : list N) : list Z :=
  match edges with
  | [] => []
  | e :: es => hist_from xs (below e xs) es
  end.
(** numpy.histogram with a number of bins and a range: the edges are those of
    linspace, start + i * step with the last one set to stop; a range of width
    0 is widened by 0.5 on both sides.  numpy computes the bin from a quotient
    and then corrects it with the edges; simplified here to the counts by the
    edges.  A range with start > stop and a number of bins below 1 are
    ValueErrors. *)
Definition linspace_edges (lo hi : N) (bins : Z) : list N :=
  let step := (hi - lo) / nofZ bins in
  map (fun i => nofZ i * step + lo) (zrange 0 bins) ++ [hi].
Definition histogram_range (bins : Z) (lo hi : N) (xs : list N) : res (list Z * list N) :=
  if Z.ltb bins 1 then Err ValueError
  else if hi <? lo then Err ValueError
  else
    let '(lo, hi) := if lo =? hi then (lo - nlit 1 2, hi + nlit 1 2) else (lo, hi) in
    let edges := linspace_edges lo hi bins in
    Ok (histogram edges xs, edges).

(** ** Angles *)
(** core.py:1157-1161 and 1217-1221. *)
Definition cos_theta (v w : v3 N) : N := vdot v w / (norm v * norm w).

(** np.argsort is an oracle: the positions in increasing order of value. *)
Variable argsort : list N -> list nat.

(** core.py:1139-1163: the value of one atom; [atoms] is the list of the
    non-ghost atoms. *)
Definition angular_value (s : sys N) (atoms : list (atom N)) (a : atom N) : res N :=
  dv <- mapM (fun e => b <- py_get atoms (Z.of_nat (nb_idx e)) ;;
                       match get_distance s a b true with
                       | DistVec d v => Ok (d, v)
                       | DistOnly _ => Err TypeError
                       end) (a_nbrs a) ;;
  let args := argsort (map fst dv) in
  let topfour := firstn 4 args in
  foldM (fun costhetasum c =>
      vec1 <- py_get (map snd dv) (Z.of_nat (fst c)) ;;
      vec2 <- py_get (map snd dv) (Z.of_nat (snd c)) ;;
      let x := cos_theta vec1 vec2 + n1 / nofZ 3 in
      Ok (costhetasum + x * x)) (combos topfour) n0.
(** core.py:1114-1166.  The attribute angular is not part of the atom record:
    the values are returned beside the system. *)
Definition calculate_angularcriteria (s : sys N) : res (sys N * list N) :=
  atoms <- get_atoms s ;;
  vals <- mapM (angular_value s atoms) atoms ;;
  s <- atoms_set inv raw s atoms ;;
  Ok (s, vals).

(** core.py:1203. *)
Definition chi_bins : list N :=
  [nofZ (-1); nlit (-945) 1000; nlit (-915) 1000; nlit (-755) 1000; nlit (-705) 1000; nlit (-195) 1000;
   nlit 195 1000; nlit 245 1000; nlit 795 1000; nofZ 1].
(** core.py:1206-1228: the cosines and the chi vector of one atom. *)
Definition chi_cosines (a : atom N) : list N :=
  map (fun c => cos_theta (fst c) (snd c)) (combos (map (@nb_vec N) (a_nbrs a))).
Definition chi_vector (a : atom N) : list Z := histogram chi_bins (chi_cosines a).
(** core.py:1168-1231: chiparams and custom['cosines'] of the atoms beside the
    system. *)
Definition calculate_chiparams (s : sys N) (angles : bool) : res (sys N * list (list Z * option (list N))) :=
  atoms <- get_atoms s ;;
  let vals := map (fun a => (chi_vector a, if angles then Some (chi_cosines a) else None)) atoms in
  s <- atoms_set inv raw s atoms ;;
  Ok (s, vals).

(** ** Short range order *)
(** np.mean; numpy adds blocks of eight pairwise, simplified to one sum. *)
Definition np_mean (l : list N) : N := fold_left nadd l n0 / nofZ (Z.of_nat (length l)).
Definition count_type (atoms : list (atom N)) (t : Z) : Z :=
  Z.of_nat (length (filter (fun a => Z.eqb (a_type a) t) atoms)).
(** core.py:1491-1496, 1599-1605: the neighbours split at the mean distance;
    or all of them for one shell. *)
Definition sro_neighbors (s : sys N) (atoms : list (atom N)) (a : atom N) : res (list (N * atom N)) :=
  mapM (fun e => b <- py_get atoms (Z.of_nat (nb_idx e)) ;;
                 Ok (abs_distance s (a_pos a) (a_pos b), b)) (a_nbrs a).
Definition shell_sets (nds : list (N * atom N)) : list (atom N) * list (atom N) :=
  let avg := np_mean (map fst nds) in
  (map snd (filter (fun p => fst p <=? avg) nds), map snd (filter (fun p => avg <? fst p) nds)).
(** core.py:1498-1504, 1509-1511: the value of one shell. *)
Definition sro_shell (ref : Z) (motr : N) (set : list (atom N)) : N :=
  let otr := (Z.of_nat (length set) - count_type set ref)%Z in
  n1 - nofZ otr / (nofZ (Z.of_nat (length set)) * motr).
(** core.py:1608-1631: the same for calculate_pmsro. *)
Definition pmsro_shell (comp : Z) (delta_ij : bool) (mcomp : N) (set : list (atom N)) : N :=
  let c := nofZ (count_type set comp) in
  let len := nofZ (Z.of_nat (length set)) in
  if delta_ij then (c / len - mcomp) / (n1 - mcomp) else n1 - c / (len * mcomp).
(** core.py:1487-1512, 1595-1631: the loop over the atoms; [old] is the value
    of sro before.  An atom of another type keeps it, as do all atoms for
    numbers of shells other than 1 and 2. *)
Definition shell_values (s : sys N) (ref shells : Z) (shell : list (atom N) -> N) (atoms : list (atom N))
    (p : atom N * list N) : res (list N) :=
  let '(a, old) := p in
  if Z.eqb (a_type a) ref then
    nds <- sro_neighbors s atoms a ;;
    if Z.eqb shells 2 then let '(set1, set2) := shell_sets nds in Ok [shell set1; shell set2]
    else if Z.eqb shells 1 then Ok [shell (map snd nds)]
    else Ok old
  else Ok old.
(** core.py:1515-1524, 1634-1640: np.zeros(2) += np.array(sro) broadcasts one
    value and refuses other lengths. *)
Definition add_sro (v : N * N) (sro : list N) : res (N * N) :=
  match sro with
  | [x] => Ok (fst v + x, snd v + x)
  | [x; y] => Ok (fst v + x, snd v + y)
  | _ => Err ValueError
  end.
Definition sro_average (ref : Z) (atoms : list (atom N)) (sros : list (list N)) : res (N * N) :=
  v <- foldM (fun v p => if Z.eqb (a_type (fst p)) ref then add_sro v (snd p) else Ok v)
         (combine atoms sros) (n0, n0) ;;
  let count := nofZ (count_type atoms ref) in
  Ok (fst v / count, snd v / count).
Definition sro_run (s : sys N) (ref shells : Z) (average : bool) (shell : list (atom N) -> N)
    (atoms : list (atom N)) (olds : list (list N)) : res (sys N * list (list N) * option (N * N)) :=
  sros <- mapM (shell_values s ref shells shell atoms) (combine atoms olds) ;;
  s <- atoms_set inv raw s atoms ;;
  if average then v <- sro_average ref atoms sros ;; Ok (s, sros, Some v) else Ok (s, sros, None).
(** core.py:1425-1524; [olds] are the sro attributes of the atoms before. *)
Definition calculate_sro (s : sys N) (olds : list (list N)) (ref : Z) (average : bool) (shells : Z)
  : res (sys N * list (list N) * option (N * N)) :=
  if negb (s_found s) then Err RuntimeError
  else if negb (Z.eqb ref 1 || Z.eqb ref 2) then Err ValueError
  else
    atoms <- get_all_atoms s ;;
    let type1 := count_type atoms 1 in
    let type2 := count_type atoms 2 in
    if negb (Z.ltb 0 type1 && Z.ltb 0 type2) then Err RuntimeError
    else
      let mref := nofZ (if Z.eqb ref 1 then type1 else type2) / nofZ (type1 + type2) in
      let motr := n1 - mref in
      sro_run s ref shells average (sro_shell ref motr) atoms olds.

(** core.py:89-94: natoms is the number of non-ghost atoms. *)
Definition iter_types (s : sys N) : res (list Z) :=
  mapM (fun i => a <- get (s_atoms s) i ;; Ok (a_type a)) (seq 0 (Z.to_nat (s_real s))).

(** core.py:1526-1640. *)
Definition calculate_pmsro (s : sys N) (olds : list (list N)) (ref comp : Z) (average : bool) (shells : Z)
    (delta : bool) : res (sys N * list (list N) * option (N * N)) :=
  if negb (s_found s) then Err RuntimeError
  else
    atoms <- get_all_atoms s ;;
    typelist <- iter_types s ;;
    let types := np_unique typelist in
    if negb (existsb (Z.eqb ref) (map fst types)) then Err ValueError
    else if negb (existsb (Z.eqb comp) (map fst types)) then Err ValueError
    else
      let total := nofZ (fold_right Z.add 0%Z (map snd types)) in
      _ <- py_get (map snd types) (ref - 1) ;;
      nc <- py_get (map snd types) (comp - 1) ;;
      let mcomp := nofZ nc / total in
      sro_run s ref shells average (pmsro_shell comp (Z.eqb ref comp && delta) mcomp) atoms olds.

(** ** Radial distribution function *)
(** np.cross and the volume, as in core.py:303-304. *)
Definition rdf_volume (b : m3 N) : N :=
  vdot (mkV (vy (r0 b) * vz (r1 b) - vz (r0 b) * vy (r1 b))
            (vz (r0 b) * vx (r1 b) - vx (r0 b) * vz (r1 b))
            (vx (r0 b) * vy (r1 b) - vy (r0 b) * vx (r1 b))) (r2 b).
(** Python's max; nan is not treated specially. *)
Definition py_max (l : list N) : res N :=
  match l with
  | [] => Err ValueError
  | x :: l => Ok (fold_left (fun m x => if m <? x then x else m) l x)
  end.
(** core.py:271-315; the property nop is the number of non-ghost atoms.  The
    value of np.pi is the literal.  Powers are products. *)
Definition calculate_rdf (s : sys N) (histobins : Z) (histomin : N) (histomax : option N)
  : res (list N * list N) :=
  distances <- get_pairdistances s ;;
  histomax <- match histomax with Some m => Ok m | None => py_max distances end ;;
  '(hist, edges) <- histogram_range histobins histomin histomax distances ;;
  e0 <- py_get edges 0 ;;
  e1 <- py_get edges 1 ;;
  let edgewidth := nabs (e1 - e0) in
  let r := firstn (length edges - 1) edges in
  let vol := rdf_volume (box_get s) in
  let natoms := s_real s in
  let rho := nofZ ((natoms * (natoms - 1)) / 2)%Z / vol in
  let cube x := x * x * x in
  let rdf := map (fun p =>
      let shell_vol := nofZ 4 / nofZ 3 * nlit 3141592653589793 1000000000000000 *
                       (cube (snd p + edgewidth) - cube (snd p)) in
      nofZ (fst p) / shell_vol / rho) (combine hist r) in
  Ok (rdf, r).

(** ** Concentration *)
(** core.py:2090-2109: the dict as a list of types (their decimal strings are
    the keys) and values. *)
Definition get_concentration (s : sys N) : res (list (Z * Z)) :=
  typelist <- iter_types s ;; Ok (np_unique typelist).

End Analysis.
