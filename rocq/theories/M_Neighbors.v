(** Neighbour finding: system.cpp:435-569, 630-1047, 1081-1296, 1896-2013 and
    core.py:392-600.  Model only. *)
From Verif Require Import Base Num Types M_Geometry M_Container.
Set Implicit Arguments.
Unset Strict Implicit.

Section Neighbors.
Variable N : num.
Open Scope num_scope.

(** Loops [for ti < nop] that touch only atom [ti]; reading beyond the stored
    atoms is undefined behaviour. *)
Definition map_first {A} (n : nat) (f : A -> A) (l : list A) : list A :=
  map f (firstn n l) ++ skipn n l.
Definition each_atom (f : atom N -> atom N) (s : sys N) : res (sys N) :=
  let n := Z.to_nat (s_nop s) in
  if (n <=? length (s_atoms s))%nat then Ok (s <| s_atoms := map_first n f (s_atoms s) |>)
  else Err UB.

(** system.cpp:435-448, reset_all_neighbors. *)
Definition reset_atom_all (a : atom N) : atom N :=
  a <| a_nbrs := [] |> <| a_temp := [] |> <| a_cond := 0%Z |>.
Definition reset_all_neighbors (s : sys N) : res (sys N) := each_atom reset_atom_all s.

(** system.cpp:450-463, reset_main_neighbors: temp_neighbors are kept. *)
Definition reset_atom_main (a : atom N) : atom N :=
  a <| a_nbrs := [] |> <| a_cond := 0%Z |>.
Definition reset_main_neighbors (s : sys N) : res (sys N) := each_atom reset_atom_main s.

(** MAXNUMBEROFNEIGHBORS, atom.h:17. *)
Definition max_nbrs : nat := 300.

(** Appending slot n_neighbors of the fixed arrays (system.cpp:751-762 and its
    repetitions); slot 300 is outside the arrays. *)
Definition push_nbr (l : list (atom N)) (i : nat) (e : nbr N) : res (list (atom N)) :=
  a <- get l i ;;
  if (length (a_nbrs a) <? max_nbrs)%nat then
    Ok (upd i (fun a => a <| a_nbrs := a_nbrs a ++ [e] |>) l)
  else Err UB.
Definition set_cutoff (l : list (atom N)) (i : nat) (c : N) : list (atom N) :=
  upd i (fun a => a <| a_cutoff := c |>) l.

(** The two filter tests, system.cpp:742-747. *)
Definition filtered (f ti tj : Z) : bool :=
  (Z.eqb f 1 && negb (Z.eqb ti tj)) || (Z.eqb f 2 && Z.eqb ti tj).

(** The body of the pair loop, system.cpp:740-776 and 671-709. *)
Definition add_pair (s : sys N) (l : list (atom N)) (p : nat * nat) : res (list (atom N)) :=
  let '(ti, tj) := p in
  a <- get l ti ;; b <- get l tj ;;
  let '(d, v) := abs_distance_ij s (a_pos a) (a_pos b) in
  if d <? s_nd s then
    if filtered (s_filter s) (a_type a) (a_type b) then Ok l
    else
      l1 <- push_nbr l ti (mkNbr tj d n1 v) ;;
      let l2 := set_cutoff l1 ti (s_nd s) in
      l3 <- push_nbr l2 tj (mkNbr ti d n1 (vopp v)) ;;
      Ok (set_cutoff l3 tj (s_nd s))
  else Ok l.

(** system.cpp:725-781, get_all_neighbors_normal. *)
Definition get_all_neighbors_normal (s : sys N) : res (sys N) :=
  let s := s <| s_vorused := false |> in
  l <- foldM (add_pair s) (pairs (Z.to_nat (s_nop s))) (s_atoms s) ;;
  Ok (s <| s_atoms := l |>).

(** system.cpp:783-809, process_neighbor. *)
Definition process_neighbor (s : sys N) (l : list (atom N)) (ti tj : nat) : res (list (atom N)) :=
  a <- get l ti ;; b <- get l tj ;;
  let '(d, v) := abs_distance_ij s (a_pos a) (a_pos b) in
  push_nbr l ti (mkNbr tj d n1 v).

(** ** Cell lists *)

(** system.cpp:485-487. *)
Definition cell_index (ny nz cx cy cz : Z) : Z := (cx * ny * nz + cy * nz + cz)%Z.

(** system.cpp:630-644, one coordinate. *)
Definition cell_periodic1 (n i : Z) : Z :=
  if Z.ltb i 0 then (i + n)%Z else if Z.ltb (n - 1) i then (i - n)%Z else i.

(** system.cpp:541-559, one coordinate of the cell of an atom: snap to 0,
    fold once, divide by the cell length and truncate. *)
Definition cell_coord (L lx x : N) : Z :=
  let x := if nabs (x - n0) <? nlit 1 1000000 then n0 else x in
  let x := if x <? n0 then x + L else if L <=? x then x - L else x in
  ntrunc (x / lx).

Record grid := mkGrid { g_nx : Z; g_ny : Z; g_nz : Z }.

(** system.cpp:492-508: the numbers of cells.  With a cutoff longer than the
    box the grid is empty and the first atom is written outside the cell
    array; a grid with a non-positive side is undefined behaviour here. *)
Definition make_grid (s : sys N) : res grid :=
  let len := s_len s in
  let nx := ntrunc (vx len / s_nd s) in
  let ny := ntrunc (vy len / s_nd s) in
  let nz := ntrunc (vz len / s_nd s) in
  if (Z.ltb 0 nx && Z.ltb 0 ny && Z.ltb 0 nz) then Ok (mkGrid nx ny nz) else Err UB.

Definition atom_cell (s : sys N) (g : grid) (p : v3 N) : Z :=
  let len := s_len s in
  cell_index (g_ny g) (g_nz g)
    (cell_coord (vx len) (vx len / nofZ (g_nx g)) (vx p))
    (cell_coord (vy len) (vy len / nofZ (g_ny g)) (vy p))
    (cell_coord (vz len) (vz len / nofZ (g_nz g)) (vz p)).

(** system.cpp:536-567: the cell of every atom, checked to lie in the array. *)
Definition atom_cells (s : sys N) (g : grid) : res (list Z) :=
  mapM (fun ti => a <- get (s_atoms s) ti ;;
          let c := atom_cell s g (a_pos a) in
          if (Z.leb 0 c && Z.ltb c (g_nx g * g_ny g * g_nz g)) then Ok c else Err UB)
       (seq 0 (Z.to_nat (s_nop s))).

(** cells[c].members *)
Definition members (cs : list Z) (c : Z) : list nat :=
  map fst (filter (fun p => Z.eqb (snd p) c) (combine (seq 0 (length cs)) cs)).

(** system.cpp:512-530: the 27 neighbour cells of cell (i,j,k). *)
Definition neighbor_cells (g : grid) (i j k : Z) : list Z :=
  flat_map (fun si => flat_map (fun sj => map (fun sk =>
    cell_index (g_ny g) (g_nz g) (cell_periodic1 (g_nx g) si)
      (cell_periodic1 (g_ny g) sj) (cell_periodic1 (g_nz g) sk))
    (zrange (k - 1) (k + 2))) (zrange (j - 1) (j + 2))) (zrange (i - 1) (i + 2)).

(** system.cpp:660-671: the pairs (ti, tj) the cell loops visit. *)
Definition cell_pairs (s : sys N) : res (list (nat * nat)) :=
  g <- make_grid s ;;
  cs <- atom_cells s g ;;
  Ok (flat_map (fun i => flat_map (fun j => flat_map (fun k =>
        flat_map (fun ti => flat_map (fun c =>
          flat_map (fun tj => if (ti <? tj)%nat then [(ti, tj)] else []) (members cs c))
          (neighbor_cells g i j k))
        (members cs (cell_index (g_ny g) (g_nz g) i j k)))
      (zrange 0 (g_nz g))) (zrange 0 (g_ny g))) (zrange 0 (g_nx g))).

(** system.cpp:647-721, get_all_neighbors_cells. *)
Definition get_all_neighbors_cells (s : sys N) : res (sys N) :=
  let s := s <| s_vorused := false |> in
  ps <- cell_pairs s ;;
  l <- foldM (add_pair s) ps (s_atoms s) ;;
  Ok (s <| s_atoms := l |>).

(** ** Candidate lists *)
Definition push_temp (l : list (atom N)) (i : nat) (e : datom N) : list (atom N) :=
  upd i (fun a => a <| a_temp := a_temp a ++ [e] |>) l.

(** system.cpp:824-830 (brute force, [<=]) and 866-871 (cells, [<]). *)
Definition add_temp (cmp : N -> N -> bool) (s : sys N) (l : list (atom N)) (p : nat * nat)
  : res (list (atom N)) :=
  let '(ti, tj) := p in
  a <- get l ti ;; b <- get l tj ;;
  let '(d, _) := abs_distance_ij s (a_pos a) (a_pos b) in
  if cmp d (s_nd s) then
    Ok (push_temp (push_temp l ti (mkDatom d tj)) tj (mkDatom d ti))
  else Ok l.

(** system.cpp:815-835 and 841-881. *)
Definition get_temp_neighbors (s : sys N) : res (sys N) :=
  l <- (if s_usecells s then
          ps <- cell_pairs s ;; foldM (add_temp nltb s) ps (s_atoms s)
        else foldM (add_temp nleb s) (pairs (Z.to_nat (s_nop s))) (s_atoms s)) ;;
  Ok (s <| s_atoms := l |>).

(** system.cpp:905-932 (repeated in 1103-1130 and 1207-1234): the guessed
    distance.  For triclinic boxes the volume is the signed determinant. *)
Definition box_volume (s : sys N) : N :=
  if s_tri s then
    let a := mkV (vx (r0 (s_rot s))) (vx (r1 (s_rot s))) (vx (r2 (s_rot s))) in
    let b := mkV (vy (r0 (s_rot s))) (vy (r1 (s_rot s))) (vy (r2 (s_rot s))) in
    let c := mkV (vz (r0 (s_rot s))) (vz (r1 (s_rot s))) (vz (r2 (s_rot s))) in
    vx c * (vy a * vz b - vz a * vy b) - vy c * (vx a * vz b - vx b * vz a)
    + vz c * (vx a * vy b - vy a * vx b)
  else vx (s_len s) * vy (s_len s) * vz (s_len s).
Definition guess_distance (s : sys N) (prefactor : N) : N :=
  prefactor * ncbrt (box_volume s / nofZ (s_nop s)).

(** std::sort with by_dist (atom.h:31-35): an arbitrary function here; the
    theorems assume of it only what the standard guarantees. *)
Variable srt : list (datom N) -> list (datom N).
Definition sort_temp (l : list (atom N)) (i : nat) : list (atom N) :=
  upd i (fun a => a <| a_temp := srt (a_temp a) |>) l.

(** Loops that may stop early with result 0: the state and the result. *)
Fixpoint loop_atoms (f : list (atom N) -> nat -> res (list (atom N) * bool))
    (is : list nat) (l : list (atom N)) : res (list (atom N) * bool) :=
  match is with
  | [] => Ok (l, true)
  | i :: is => '(l, ok) <- f l i ;; if ok then loop_atoms f is l else Ok (l, false)
  end.

(** [temp_neighbors.size() < n] with an int n: compared as unsigned, so a
    negative n is larger than any size. *)
Definition size_lt (k : nat) (n : Z) : bool := Z.ltb n 0 || Z.ltb (Z.of_nat k) n.

(** system.cpp:939-957, one atom of get_all_neighbors_bynumber. *)
Definition bynumber_atom (s : sys N) (nns : Z) (assign : bool) (l : list (atom N)) (ti : nat)
  : res (list (atom N) * bool) :=
  a <- get l ti ;;
  if size_lt (length (a_temp a)) nns then Ok (l, false)
  else
    let l1 := sort_temp l ti in
    a1 <- get l1 ti ;;
    if assign then
      l2 <- foldM (fun l d => process_neighbor s l ti (d_idx d))
                  (firstn (Z.to_nat nns) (a_temp a1)) l1 ;;
      Ok (l2, true)
    else Ok (l1, true).

(** system.cpp:882-963. *)
Definition get_all_neighbors_bynumber (s : sys N) (prefactor : N) (nns : Z) (assign : bool)
  : res (sys N * bool) :=
  let s := s <| s_vorused := false |> <| s_nd := guess_distance s prefactor |> in
  s <- get_temp_neighbors s ;;
  '(l, ok) <- loop_atoms (bynumber_atom s nns assign) (seq 0 (Z.to_nat (s_nop s))) (s_atoms s) ;;
  Ok (s <| s_atoms := l |>, ok).

Definition nsum (l : list N) : N := fold_left nadd l (nofZ 0).

(** system.cpp:1248-1288, one atom of get_all_neighbors_adaptive. *)
Definition adaptive_atom (s : sys N) (nlimit : Z) (padding : N) (l : list (atom N)) (ti : nat)
  : res (list (atom N) * bool) :=
  a <- get l ti ;;
  if size_lt (length (a_temp a)) nlimit then Ok (l, false)
  else
    let l1 := sort_temp l ti in
    a1 <- get l1 ti ;;
    let summ := nsum (map (@d_dist N) (firstn (Z.to_nat nlimit) (a_temp a1))) in
    let dcut := padding * (n1 / nofZ nlimit) * summ in
    l2 <- foldM (fun l d =>
            if d_dist d <? dcut then
              a <- get l ti ;; b <- get l (d_idx d) ;;
              if filtered (s_filter s) (a_type a) (a_type b) then Ok l
              else
                l' <- process_neighbor s l ti (d_idx d) ;;
                Ok (set_cutoff l' ti dcut)
            else Ok l) (a_temp a1) l1 ;;
    Ok (l2, true).

(** system.cpp:1196-1296; voronoiused is not reset. *)
Definition get_all_neighbors_adaptive (s : sys N) (prefactor : N) (nlimit : Z) (padding : N)
  : res (sys N * bool) :=
  let s := s <| s_nd := guess_distance s prefactor |> in
  s <- get_temp_neighbors s ;;
  '(l, ok) <- loop_atoms (adaptive_atom s nlimit padding) (seq 0 (Z.to_nat (s_nop s))) (s_atoms s) ;;
  Ok (s <| s_atoms := l |>, ok).

(** system.cpp:1159-1173, the while loop of sann; [temp] is the sorted list. *)
Fixpoint sann_loop (fuel : nat) (s : sys N) (ti : nat) (temp : list (datom N))
    (m : nat) (summ dcut : N) (l : list (atom N)) : res (list (atom N) * nat) :=
  match fuel with
  | O => Err Diverges
  | S fuel =>
      if (m <? length temp)%nat then
        t <- get temp m ;;
        if d_dist t <=? dcut then
          let m := S m in
          t <- get temp m ;;
          l1 <- process_neighbor s l ti (d_idx t) ;;
          let summ := summ + d_dist t in
          let dcut := summ / nofZ (Z.of_nat m - 2) in
          sann_loop fuel s ti temp m summ dcut (set_cutoff l1 ti dcut)
        else Ok (l, m)
      else Ok (l, m)
  end.

(** system.cpp:1139-1182, one atom of get_all_neighbors_sann. *)
Definition sann_atom (s : sys N) (l : list (atom N)) (ti : nat)
  : res (list (atom N) * bool) :=
  a <- get l ti ;;
  if (length (a_temp a) <? 3)%nat then Ok (l, false)
  else
    let l1 := sort_temp l ti in
    a1 <- get l1 ti ;;
    let temp := a_temp a1 in
    l2 <- foldM (fun l d => process_neighbor s l ti (d_idx d)) (firstn 3 temp) l1 ;;
    let summ := nsum (map (@d_dist N) (firstn 3 temp)) in
    let dcut := summ / nofZ 1 in
    '(l3, m) <- sann_loop (S (length temp)) s ti temp 3 summ dcut l2 ;;
    Ok (l3, negb (m =? length temp)%nat).

(** system.cpp:1081-1192. *)
Definition get_all_neighbors_sann (s : sys N) (prefactor : N) : res (sys N * bool) :=
  let s := s <| s_vorused := false |> <| s_nd := guess_distance s prefactor |> in
  s <- get_temp_neighbors s ;;
  '(l, ok) <- loop_atoms (sann_atom s) (seq 0 (Z.to_nat (s_nop s))) (s_atoms s) ;;
  Ok (s <| s_atoms := l |>, ok).

(** ** Voronoi neighbours *)
(** Output of voro++ for one cell: the neighbours across the faces with the
    face areas; [None] when compute_cell fails. *)
Variable voro : nat -> option (list (nat * N)).
(** pow(facearea, alpha); alpha is the exponent voroexp. *)
Variable area_pow : N -> N.

(** system.cpp:1981-1986: the filter test looks at atoms[tj] and not at
    atoms[neigh[tj]], and only if there is a filter. *)
Definition voro_skip (s : sys N) (a : atom N) (tj : nat) : res bool :=
  if (s_filter s =? 1)%Z || (s_filter s =? 2)%Z then
    b <- get (s_atoms s) tj ;; Ok (filtered (s_filter s) (a_type a) (a_type b))
  else Ok false.
(** system.cpp:1978-2003: slot [tj] of the arrays is written unless the filter
    test skips it.
    [None] is a slot left at NILVALUE.  More than 300 faces overrun the
    arrays. *)
Definition voro_slots (s : sys N) (ti : nat) (fs : list (nat * N)) : res (list (option (nbr N))) :=
  a <- get (s_atoms s) ti ;;
  let wsum := fold_left (fun w f => w + area_pow (snd f)) fs (nofZ 0) in
  if (max_nbrs <? length fs)%nat then Err UB
  else
    mapM (fun k =>
      f <- get fs k ;; skip <- voro_skip s a k ;;
      if skip : bool then Ok None
      else
        c <- get (s_atoms s) (fst f) ;;
        let '(d, v) := abs_distance_ij s (a_pos a) (a_pos c) in
        Ok (Some (mkNbr (fst f) d (area_pow (snd f) / wsum) v)))
      (seq 0 (length fs)).

(** system.cpp:1978-2003 and 2016-2029: n_neighbors counts the written slots,
    and find_average_volume reads atoms[neighbors[ci]] for the first
    n_neighbors slots, which is outside the array for a slot that was skipped. *)
Definition all_some {A} (l : list (option A)) : option (list A) :=
  fold_right (fun o r => match o, r with Some a, Some l => Some (a :: l) | _, _ => None end)
             (Some []) l.
Definition voro_atom (s : sys N) (ti : nat) : res (option (list (nbr N))) :=
  match voro ti with
  | None => Ok None
  | Some fs =>
      sl <- voro_slots s ti fs ;;
      let n := length (filter (fun o => match o with Some _ => true | None => false end) sl) in
      match all_some (firstn n sl) with
      | Some l => Ok (Some l)
      | None => Err UB
      end
  end.

(** system.cpp:1896-2013, get_all_neighbors_voronoi (volumes, vertices and the
    cutoff member are not modelled). *)
Definition get_all_neighbors_voronoi (s : sys N) : res (sys N) :=
  let s := s <| s_vorused := true |> in
  l <- foldM (fun l ti =>
         r <- voro_atom s ti ;;
         match r with
         | None => Ok l
         | Some ns => Ok (upd ti (fun a => a <| a_nbrs := ns |>) l)
         end) (seq 0 (Z.to_nat (s_nop s))) (s_atoms s) ;;
  Ok (s <| s_atoms := l |>).

(** ** System.find_neighbors, core.py:392-572 *)
Inductive cut := CutNone | CutSann | CutAdaptive | CutStr | CutVal (c : N).
Inductive meth := MCutoff (c : cut) | MNumber (nmax : Z) (assign : bool) | MVoronoi (mem : Z -> atom N) | MOther.
Inductive filt := FNone | FType | FTypeR.
Record fn_args := mkArgs {
  fa_method : meth; fa_filter : filt; fa_threshold : N; fa_padding : N; fa_nlimit : Z
}.

(** The state after the call, and the exception it raised, if any. *)
Definition outcome := (sys N * option err)%type.
Definition found (s : sys N) : res outcome := Ok (s <| s_found := true |>, None).

Definition filter_code (f : filt) : Z := match f with FNone => 0 | FType => 1 | FTypeR => 2 end.

(** core.py:520-533: up to nine retries with threshold*1 .. threshold*9. *)
Fixpoint sann_retry (is : list Z) (s : sys N) (threshold : N) : res (sys N * bool) :=
  match is with
  | [] => Ok (s, false)
  | i :: is =>
      s <- reset_all_neighbors s ;;
      '(s, ok) <- get_all_neighbors_sann s (threshold * nofZ i) ;;
      if ok then Ok (s, true) else sann_retry is s threshold
  end.

(** core.py:558-563: before a Voronoi search in a triclinic box ghost atoms are
    added in the 26 cells around and the box is replaced by an orthogonal one;
    [mem] is the memory of the ghost atoms. *)
Variable inv : m3 N -> option (m3 N).
Definition embed_triclinic (mem : Z -> atom N) (s : sys N) : res (sys N) :=
  if s_tri s && negb (s_ghosts_created s) then
    atoms <- get_atoms s ;;
    '(s, l) <- repeat_cell inv mem s (1, 1, 1)%Z (Some atoms) true true ;;
    embed_in_cubic_box inv (set_atoms s l)
  else Ok s.

(** core.py:511-572. *)
Definition real_count (s : sys N) : Z := s_real s.
Definition find_neighbors (s : sys N) (args : fn_args) : res outcome :=
  s <- reset_all_neighbors s ;;
  let s := s <| s_filter := filter_code (fa_filter args) |> in
  let t := fa_threshold args in
  match fa_method args with
  | MCutoff CutSann =>
      if t <? n1 then Ok (s, Some ValueError)
      else
        let s := s <| s_usecells := Z.ltb 4000 (real_count s) |> in
        '(s, ok) <- get_all_neighbors_sann s t ;;
        if ok then found s
        else
          '(s, ok) <- sann_retry (zrange 1 10) s t ;;
          if ok then found s else Ok (s, Some RuntimeError)
  | MCutoff CutAdaptive =>
      if t <? n1 then Ok (s, Some ValueError)
      else
        let s := s <| s_usecells := Z.ltb 4000 (s_nop s) |> in
        '(s, ok) <- get_all_neighbors_adaptive s t (fa_nlimit args) (fa_padding args) ;;
        if ok then found s else Ok (s, Some RuntimeError)
  | MCutoff (CutVal c) =>
      if c =? n0 then
        (* cutoff == 0 selects the adaptive method, core.py:534 *)
        if t <? n1 then Ok (s, Some ValueError)
        else
          let s := s <| s_usecells := Z.ltb 4000 (s_nop s) |> in
          '(s, ok) <- get_all_neighbors_adaptive s t (fa_nlimit args) (fa_padding args) ;;
          if ok then found s else Ok (s, Some RuntimeError)
      else
        let s := s <| s_nd := c |> in
        s <- (if Z.ltb 2300 (real_count s) then get_all_neighbors_cells s
              else get_all_neighbors_normal s) ;;
        found s
  | MCutoff CutNone => Ok (s, Some TypeError)
  | MCutoff CutStr => Ok (s, Some TypeError)
  | MNumber nmax assign =>
      if t <? n1 then Ok (s, Some ValueError)
      else
        let s := s <| s_usecells := Z.ltb 4000 (real_count s) |> in
        '(s, ok) <- get_all_neighbors_bynumber s t nmax assign ;;
        if ok then found s else Ok (s, Some RuntimeError)
  | MVoronoi mem =>
      let b := s_box s in
      s <- embed_triclinic mem s ;;
      s <- get_all_neighbors_voronoi s ;;
      s <- box_set inv s b ;;
      found s
  | MOther => found s
  end.

(** core.py:602-621, reset_neighbors. *)
Definition reset_neighbors (s : sys N) : res (sys N) :=
  s <- reset_all_neighbors s ;; Ok (s <| s_found := false |>).

End Neighbors.
