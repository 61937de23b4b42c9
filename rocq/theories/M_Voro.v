(** Voronoi cells: the rest of system.cpp:1896-2013, find_average_volume
    (2016-2029) and core.py:623-714, calculate_vorovector.  Model only.
    The members volume, avgvolume, vertex_vectors, vertex_numbers,
    vertex_positions, facevertices, edgelengths and n3-n6 of the atoms are kept
    in a list beside the system, one record per stored atom (for a search that
    embeds a triclinic cell, also one for each atom that is added). *)
From Verif Require Import Base Num Types M_Geometry M_Container M_Neighbors M_Analysis.
Set Implicit Arguments.
Unset Strict Implicit.
Local Open Scope num_scope.

(** Python: l[a:b]. *)
Definition slice_end (n i : Z) : nat :=
  Z.to_nat (if (i <? 0)%Z then Z.max 0 (i + n) else Z.min i n).
Definition py_slice {A} (l : list A) (a b : Z) : list A :=
  let n := Z.of_nat (length l) in
  let x := slice_end n a in
  firstn (slice_end n b - x) (skipn x l).

Section Voro.
Variable N : num.
Variable raw : Z -> atom N.
Variable inv : m3 N -> option (m3 N).
Variable area_pow : N -> N.

(** Output of voro++ for one cell: neighbours and areas of the faces, volume,
    face_orders, face_vertices and vertices (face_perimeters are not used). *)
Record cell := mkCell {
  vc_faces : list (nat * N); vc_volume : N;
  vc_orders : list Z; vc_numbers : list Z; vc_vectors : list N }.
Variable cells : nat -> option cell.
Definition faces_of (i : nat) : option (list (nat * N)) := option_map vc_faces (cells i).

Record vdata := mkVd {
  vd_volume : N; vd_avgvolume : N;
  vd_numbers : list Z; vd_vectors : list N; vd_positions : list (v3 N);
  vd_orders : list Z; vd_edges : list (list N); vd_vector : list Z }.

(** system.cpp:1959-1968: the vertices, by threes. *)
Fixpoint triples (v : list N) : list (v3 N) :=
  match v with
  | x :: y :: z :: v => mkV x y z :: triples v
  | _ => []
  end.
(** system.cpp:1952-1968 and 1994; vertex_positions is appended to. *)
Definition store_cell (s : sys N) (ti : nat) (c : cell) (v : vdata) : res vdata :=
  a <- get (s_atoms s) ti ;;
  orders <- foldM (fun o tj =>
              skip <- voro_skip s a tj ;;
              if skip : bool then Ok o
              else f <- get (vc_orders c) tj ;; Ok (upd tj (fun _ => f) o))
            (seq 0 (length (vc_faces c))) (vd_orders v) ;;
  Ok (mkVd (vc_volume c) (vd_avgvolume v) (vc_numbers c) (vc_vectors c)
       (vd_positions v ++
        map (fun w => mkV (vx w + vx (a_pos a)) (vy w + vy (a_pos a)) (vz w + vz (a_pos a))) (triples (vc_vectors c)))
       orders (vd_edges v) (vd_vector v)).
(** system.cpp:2016-2029; only volumes are read, so the order does not matter. *)
Definition average_volume (s : sys N) (vs : list vdata) (ti : nat) : res vdata :=
  a <- get (s_atoms s) ti ;; v <- get vs ti ;;
  vv <- foldM (fun vv e => w <- get vs (nb_idx e) ;; Ok (vv + vd_volume w)) (a_nbrs a) (vd_volume v) ;;
  Ok (mkVd (vd_volume v) (vv / nofZ (Z.of_nat (length (a_nbrs a)) + 1)) (vd_numbers v) (vd_vectors v)
       (vd_positions v) (vd_orders v) (vd_edges v) (vd_vector v)).
Definition find_average_volume (s : sys N) (vs : list vdata) : res (list vdata) :=
  mapM (average_volume s vs) (seq 0 (Z.to_nat (s_nop s))).
(** What a Voronoi search with outcome [s] does to the data: positions, types
    and the filter are the same before and after. *)
Definition voronoi_data (s : sys N) (vs : list vdata) : res (list vdata) :=
  vs <- foldM (fun vs ti =>
          match cells ti with
          | None => Ok vs
          | Some c => v <- get vs ti ;; v <- store_cell s ti c v ;; Ok (upd ti (fun _ => v) vs)
          end) (seq 0 (Z.to_nat (s_nop s))) vs ;;
  find_average_volume s vs.
(** core.py:392-572 with method='voronoi' and the data. *)
Definition find_neighbors_voronoi srt (s : sys N) (f : filt) (t pad : N) (nl : Z) (vs : list vdata)
    : res (sys N * option err * list vdata) :=
  '(s, e) <- find_neighbors srt faces_of area_pow inv s (mkArgs (MVoronoi raw) f t pad nl) ;;
  vs <- voronoi_data s vs ;; Ok (s, e, vs).

(** np.sum. *)
Variable npsum : list N -> N.
(** core.py:676-684; x**2 is taken as x*x. *)
Definition edge_length (vectors : list N) (vphase : list Z) (i : Z) : res N :=
  p <- py_get vphase i ;; let ipos := py_slice vectors (p * 3) (p * 3 + 3) in
  q <- py_get vphase (i + 1) ;; let jpos := py_slice vectors (q * 3) (q * 3 + 3) in
  i0 <- py_get ipos 0 ;; j0 <- py_get jpos 0 ;;
  i1 <- py_get ipos 1 ;; j1 <- py_get jpos 1 ;;
  i2 <- py_get ipos 2 ;; j2 <- py_get jpos 2 ;;
  Ok (nsqrt ((i0 - j0) * (i0 - j0) + (i1 - j1) * (i1 - j1) + (i2 - j2) * (i2 - j2))).
Definition face_edges (numbers : list Z) (vectors : list N) (st vno : Z) : res (list N) :=
  let vphase := py_slice numbers st (st + vno) in
  mapM (edge_length vectors vphase) (map (fun i => Z.of_nat i - 1)%Z (seq 0 (length vphase))).
(** core.py:665-687. *)
Fixpoint edge_lengths (numbers : list Z) (vectors : list N) (st : Z) (orders : list Z) : res (list (list N)) :=
  match orders with
  | [] => Ok []
  | vno :: orders =>
      ed <- face_edges numbers vectors st vno ;;
      r <- edge_lengths numbers vectors (st + (vno + 1)) orders ;;
      Ok (ed :: r)
  end.
(** core.py:690-697. *)
Definition refined_edges (edge_cutoff area_cutoff : N) (weights : list N) (edges : list (list N)) : res (list nat) :=
  l <- mapM (fun p =>
         let sum := npsum (snd p) in
         w <- py_get weights (Z.of_nat (fst p)) ;;
         if area_cutoff <? w then Ok [length (filter (fun x => edge_cutoff <? x) (map (fun x => x / sum) (snd p)))]
         else Ok []) (combine (seq 0 (length edges)) edges) ;;
  Ok (concat l).
(** core.py:700-710. *)
Definition vorovector (refined : list nat) : list Z :=
  fold_left (fun v ed =>
    match v with
    | [n3; n4; n5; n6] =>
        if (ed =? 3)%nat then [n3 + 1; n4; n5; n6]
        else if (ed =? 4)%nat then [n3; n4 + 1; n5; n6]
        else if (ed =? 5)%nat then [n3; n4; n5 + 1; n6]
        else if (ed =? 6)%nat then [n3; n4; n5; n6 + 1]
        else v
    | _ => v
    end)%Z refined [0; 0; 0; 0]%Z.
(** core.py:663-713, one atom: face_vertices and neighbor_weights give the first
    n_neighbors entries. *)
Definition atom_vorovector (edge_cutoff area_cutoff : N) (a : atom N) (v : vdata) : res vdata :=
  edges <- edge_lengths (vd_numbers v) (vd_vectors v) 1 (firstn (length (a_nbrs a)) (vd_orders v)) ;;
  refined <- refined_edges edge_cutoff area_cutoff (map nb_weight (a_nbrs a)) edges ;;
  Ok (mkVd (vd_volume v) (vd_avgvolume v) (vd_numbers v) (vd_vectors v) (vd_positions v) (vd_orders v) edges (vorovector refined)).
(** core.py:623-714: the data of the real atoms afterwards; images are made
    again from the real atoms, with their data. *)
Definition calculate_vorovector (s : sys N) (vs : list vdata) (edge_cutoff area_cutoff : N)
    : res (sys N * list vdata) :=
  l <- get_atoms s ;;
  ws <- mapM (fun p => atom_vorovector edge_cutoff area_cutoff (fst p) (snd p)) (combine l vs) ;;
  s <- atoms_set inv raw s l ;;
  Ok (s, ws).
End Voro.
