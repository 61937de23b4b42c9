(** Centrosymmetry, disorder and entropy: system.cpp:1590-1653, 2483-2599,
    atom.cpp:398-452, core.py:1332-1422, 1691-1765.  Model only. *)
From Verif Require Import Base Num Types M_Geometry M_Container M_Neighbors M_Steinhardt.
Set Implicit Arguments.
Unset Strict Implicit.

Section Local.
Variable N : num.
Open Scope num_scope.

(** ** Centrosymmetry *)
(** system.cpp:2548-2566: the list temp before sorting. *)
Fixpoint pair_lengths (vs : list (v3 N)) : list N :=
  match vs with
  | [] => []
  | v :: vs => map (fun w => norm (vadd v w)) vs ++ pair_lengths vs
  end.
Definition centro_temp (a : atom N) : list (datom N) :=
  let ws := pair_lengths (map (@nb_vec N) (a_nbrs a)) in
  map (fun p => mkDatom (snd p) (fst p)) (combine (seq 0 (length ws)) ws).

(** std::sort with by_dist; as in M_Neighbors. *)
Variable srt : list (datom N) -> list (datom N).

(** system.cpp:2569-2576; temp[i] is not checked. *)
Definition centro_value (nmax : Z) (a : atom N) : res N :=
  let temp := srt (centro_temp a) in
  foldM (fun csym i => t <- get temp i ;; Ok (csym + d_dist t * d_dist t))
        (seq 0 (Z.to_nat (nmax / 2))) n0.
(** system.cpp:2542-2577, calculate_centrosymmetry_atom. *)
Definition centro_atom (nmax : Z) (l : list (atom N)) (ti : nat) : res (list (atom N)) :=
  a <- get l ti ;;
  v <- centro_value nmax a ;;
  Ok (upd ti (fun a => a <| a_centro := v |>) l).
(** system.cpp:2579-2588, calculate_centrosymmetry: the result of the search is
    ignored. *)
Definition calculate_centrosymmetry (s : sys N) (nmax : Z) : res (sys N) :=
  s <- reset_all_neighbors s ;;
  '(s, _) <- get_all_neighbors_bynumber srt s (nofZ 3) nmax true ;;
  l <- foldM (centro_atom nmax) (seq 0 (Z.to_nat (s_nop s))) (s_atoms s) ;;
  Ok (s <| s_atoms := l |>).
(** system.cpp:2590-2598, get_centrosymmetry. *)
Definition get_centrosymmetry (s : sys N) : res (list N) :=
  mapM (fun i => a <- get (s_atoms s) i ;; Ok (a_centro a)) (seq 0 (Z.to_nat (s_real s))).
(** core.py:1332-1373. *)
Definition py_calculate_centrosymmetry (s : sys N) (nmax : Z) (get_vals : bool)
  : res (sys N * option (list N)) :=
  if negb (Z.ltb 0 nmax) then Err ValueError
  else if negb (Z.eqb (nmax mod 2) 0) then Err ValueError
  else
    s <- calculate_centrosymmetry s nmax ;;
    if get_vals then vals <- get_centrosymmetry s ;; Ok (s, Some vals)
    else Ok (s, None).

(** ** Disorder *)
(** Component mi of row solidq-2 of realq and imgq. *)
Definition q_comp (a : atom N) (solidq mi : Z) : res (N * N) :=
  row <- zget (a_qc a) (solidq - 2) ;; zget row mi.
Definition q_comps (solidq : Z) : list Z := zrange 0 (2 * solidq + 1).
(** system.cpp:1601-1615: the first loop. *)
Definition sii_step (solidq : Z) (a : atom N) (st : N * N * N) (mi : Z) : res (N * N * N) :=
  let '(sq, re, im) := st in
  z <- q_comp a solidq mi ;;
  let '(x, y) := z in
  Ok (sq + (x * x + y * y), re + x * x, im + y * y).
Definition sii_value (solidq : Z) (a : atom N) : res N :=
  '(sq, re, im) <- foldM (sii_step solidq a) (q_comps solidq) (n0, n0, n0) ;;
  Ok ((re + im) / (nsqrt sq * nsqrt sq)).
Definition sii_atom (solidq : Z) (l : list (atom N)) (ti : nat) : res (list (atom N)) :=
  a <- get l ti ;;
  v <- sii_value solidq a ;;
  Ok (upd ti (fun a => a <| a_sii := v |>) l).
(** system.cpp:1628-1637: atoms[tj] with the loop index tj, not the neighbour;
    the sums are not reset between neighbours. *)
Definition cross_step (solidq : Z) (a b : atom N) (st : N * N * N * N) (mi : Z) : res (N * N * N * N) :=
  let '(si, sj, re, im) := st in
  z <- q_comp a solidq mi ;;
  w <- q_comp b solidq mi ;;
  let '(x, y) := z in
  let '(u, v) := w in
  Ok (si + (x * x + y * y), sj + (u * u + v * v), re + x * u, im + y * v).
Definition disorder_step (solidq : Z) (l : list (atom N)) (a : atom N) (st : N * (N * N * N * N)) (tj : nat)
  : res (N * (N * N * N * N)) :=
  b <- get l tj ;;
  sums <- foldM (cross_step solidq a b) (q_comps solidq) (snd st) ;;
  let '(si, sj, re, im) := sums in
  let connection := (re + im) / (nsqrt sj * nsqrt si) in
  Ok (fst st + (a_sii a + a_sii b - n2 * connection), sums).
Definition disorder_value (solidq : Z) (l : list (atom N)) (a : atom N) : res N :=
  let n := length (a_nbrs a) in
  '(dis, _) <- foldM (disorder_step solidq l a) (seq 0 n) (n0, (n0, n0, n0, n0)) ;;
  Ok (dis / nofZ (Z.of_nat n)).
Definition disorder_atom (solidq : Z) (l : list (atom N)) (ti : nat) : res (list (atom N)) :=
  a <- get l ti ;;
  v <- disorder_value solidq l a ;;
  Ok (upd ti (fun a => a <| a_disorder := v |>) l).
(** system.cpp:1590-1637, calculate_disorder. *)
Definition calculate_disorder (s : sys N) (solidq : Z) : res (sys N) :=
  let is := seq 0 (Z.to_nat (s_nop s)) in
  l <- foldM (sii_atom solidq) is (s_atoms s) ;;
  l <- foldM (disorder_atom solidq) is l ;;
  Ok (s <| s_atoms := l |>).
(** system.cpp:1639-1653, find_average_disorder. *)
Definition avg_disorder_value (l : list (atom N)) (a : atom N) : res N :=
  vv <- foldM (fun vv e => b <- get l (nb_idx e) ;; Ok (vv + a_disorder b)) (a_nbrs a) (a_disorder a) ;;
  Ok (vv / nofZ (Z.of_nat (length (a_nbrs a)) + 1)).
Definition avg_disorder_atom (l : list (atom N)) (ti : nat) : res (list (atom N)) :=
  a <- get l ti ;;
  v <- avg_disorder_value l a ;;
  Ok (upd ti (fun a => a <| a_avgdisorder := v |>) l).
Definition find_average_disorder (s : sys N) : res (sys N) :=
  l <- foldM avg_disorder_atom (seq 0 (Z.to_nat (s_nop s))) (s_atoms s) ;;
  Ok (s <| s_atoms := l |>).
(** core.py:1375-1422. *)
Definition py_calculate_disorder (s : sys N) (averaged : bool) (q : Z) : res (sys N) :=
  if q_ok q then
    s <- calculate_disorder s q ;;
    if averaged then find_average_disorder s else Ok s
  else Err ValueError.

(** ** Entropy *)
(** atom.cpp:402-419, gmr; sigma and rho are members of the atom. *)
Definition gmr (sigma rho : N) (dists : list N) (r : N) : N :=
  let sigma2 := sigma * sigma in
  let frho := nofZ 4 * pi_lit N * rho * r * r in
  let fsigma := nsqrt (n2 * pi_lit N * sigma2) in
  let factor := (n1 / frho) * (n1 / fsigma) in
  let g := fold_left (fun g rij =>
             let r2 := (r - rij) * (r - rij) in
             g + nexp ((- n1) * r2 / (n2 * sigma2))) dists n0 in
  factor * g.
(** atom.cpp:422-426, entropy_integrand. *)
Definition entropy_integrand (sigma rho : N) (dists : list N) (r : N) : N :=
  let g := gmr sigma rho dists r in
  (g * nlog g - g + n1) * r * r.
(** atom.cpp:429-452, trapezoid_integration, for any integrand [f]; the
    conversion of (rstop - rstart)/h to int truncates. *)
Definition trapezoid (f : N -> N) (rstart rstop h : N) : N :=
  let nsteps := ntrunc ((rstop - rstart) / h) in
  let xstart := f rstart in
  let summ := fold_left (fun summ j => summ + f (rstart + nofZ j * h)) (zrange 1 (nsteps - 1)) n0 in
  let xend := f (rstart + nofZ nsteps * h) in
  (h / n2) * (xstart + n2 * summ + xend).
Definition atom_entropy (sigma rho rstart rstop h kb : N) (a : atom N) : N :=
  (- n1) * rho * kb * trapezoid (entropy_integrand sigma rho (map (@nb_dist N) (a_nbrs a))) rstart rstop h.
(** system.cpp:2524-2540, entropy: the densities and entropies of the atoms.
    The C++ members sigma, rho, rstart, rstop, h, kb, entropy and avg_entropy
    of the atoms are used by these functions only; they are results here and
    not part of the atom.  4.1887902047863905 is the literal of the source. *)
Definition local_density (a : atom N) : N :=
  let c := a_cutoff a in
  nofZ (Z.of_nat (length (a_nbrs a))) / (nlit 41887902047863905 10000000000000000 * (c * c * c)).
Definition entropy_step (sigma rstart rstop h kb : N) (st : N * list (N * N)) (a : atom N) : N * list (N * N) :=
  let '(rho, out) := st in
  let rho := if rho =? n0 then local_density a else rho in
  (rho, out ++ [(rho, atom_entropy sigma rho rstart rstop h kb a)]).
Definition entropy (s : sys N) (sigma rho rstart rstop h kb : N) : res (list (N * N)) :=
  atoms <- get_all_atoms s ;;
  Ok (snd (fold_left (entropy_step sigma rstart rstop h kb) atoms (rho, []))).
(** system.cpp:2491-2500, average_entropy. *)
Definition average_entropy (s : sys N) (ents : list N) : res (list N) :=
  mapM (fun i =>
      a <- get (s_atoms s) i ;; e <- get ents i ;;
      entsum <- foldM (fun x e => v <- get ents (nb_idx e) ;; Ok (x + v)) (a_nbrs a) e ;;
      Ok (entsum / nofZ (Z.of_nat (length (a_nbrs a)) + 1)))
    (seq 0 (Z.to_nat (s_nop s))).
(** system.cpp:2484-2489 and 2502-2521, switching_fn and
    average_entropy_switch; pow with an int exponent is repeated
    multiplication here (no negative exponents). *)
Fixpoint npow (x : N) (k : nat) : N := match k with 0 => n1 | S k => npow x k * x end.
Definition switching_fn (rij ra : N) (M K : nat) : N :=
  (n1 - npow (rij / ra) K) / (n1 - npow (rij / ra) M).
Definition average_entropy_switch (s : sys N) (ents : list N) (ra : N) (M K : nat) : res (list N) :=
  mapM (fun i =>
      a <- get (s_atoms s) i ;; e <- get ents i ;;
      '(fs, es) <- foldM (fun st e =>
          v <- get ents (nb_idx e) ;;
          let f := switching_fn (nb_dist e) ra M K in
          Ok (fst st + f, snd st + v * f)) (a_nbrs a) (n0, n0) ;;
      Ok ((es + e) / (fs + n1)))
    (seq 0 (Z.to_nat (s_nop s))).
(** core.py:1743-1765 without averaging: the box getter, the volume as a triple
    product and the number of real atoms. *)
Definition vcross (a b : v3 N) : v3 N :=
  mkV (vy a * vz b - vz a * vy b) (vz a * vx b - vx a * vz b) (vx a * vy b - vy a * vx b).
Definition cell_volume (b : m3 N) : N := vdot (vcross (r0 b) (r1 b)) (r2 b).
Definition calculate_entropy (s : sys N) (rm sigma rstart h : N) (local : bool) : res (list (N * N)) :=
  atoms <- get_atoms s ;;
  let rho := if local then n0 else nofZ (Z.of_nat (length atoms)) / cell_volume (box_get s) in
  entropy s sigma rho rstart rm h n1.
(** core.py:1690-1765, calculate_entropy: the densities and entropies, and the
    averages if asked for.  ra=None cannot be converted to a double. *)
Definition py_calculate_entropy (s : sys N) (rm sigma rstart h : N) (local averaged switching : bool)
    (ra : option N) (M K : nat) : res (list (N * N) * option (list N)) :=
  out <- calculate_entropy s rm sigma rstart h local ;;
  if averaged then
    if switching then
      match ra with
      | None => Err TypeError
      | Some ra => avg <- average_entropy_switch s (map snd out) ra M K ;; Ok (out, Some avg)
      end
    else avg <- average_entropy s (map snd out) ;; Ok (out, Some avg)
  else Ok (out, None).

End Local.
