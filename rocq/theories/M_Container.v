(** Box and atom bookkeeping: core.py:79-152, 221-268, 1909-1972, 2111-2184 and
    system.cpp:16-239.  Model only. *)
From Verif Require Import Base Num Types M_Geometry.
Set Implicit Arguments.
Unset Strict Implicit.

Section Container.
Variable N : num.
Open Scope num_scope.

(** atom.cpp:14-63 with the defaults of atom_binding.cpp:75.  Members the
    constructor does not initialise keep the content [raw] of the memory
    (condition, cutoff, frenkelnumber, avq6q6, structure, nn1, centrosymmetry,
    sii, disorder, avgdisorder). *)
Definition atom_ctor (raw : atom N) (pos : v3 N) (id typ : Z) : atom N :=
  raw <| a_pos := pos |> <| a_id := id |> <| a_type := typ |> <| a_ghost := 0%Z |>
      <| a_belongs := (-1)%Z |> <| a_solid := false |> <| a_surface := false |>
      <| a_loc := 0%Z |> <| a_nbrs := [] |> <| a_temp := [] |> <| a_lcluster := false |>
      <| a_sij := repeat (nofZ (-1)) 300 |>
      <| a_q := repeat (nofZ (-1)) 11 |> <| a_aq := repeat (nofZ (-1)) 11 |>
      <| a_qc := repeat (repeat (nofZ (-1), nofZ (-1)) 25) 11 |>
      <| a_aqc := repeat (repeat (nofZ (-1), nofZ (-1)) 25) 11 |>.

(** system.cpp:16-41 and core.py:79-86.  boxx, boxy, boxz, rot and rotinv are
    not initialised: they keep the content of [raw]. *)
Definition zero_m3 : m3 N :=
  let z := mkV n0 n0 n0 in mkM z z z.
Definition sys_ctor (raw : sys N) : sys N :=
  raw <| s_atoms := [] |> <| s_nop := 0%Z |> <| s_real := 0%Z |> <| s_ghost := 0%Z |>
      <| s_box := zero_m3 |> <| s_tri := false |> <| s_actual := None |>
      <| s_nd := nofZ 0 |> <| s_filter := 0%Z |> <| s_usecells := false |>
      <| s_vorused := false |> <| s_maxclus := (-1)%Z |> <| s_found := false |>
      <| s_ghosts_created := false |>.

(** core.py:97-105, box getter. *)
Definition box_get (s : sys N) : m3 N :=
  match s_actual s with Some b => b | None => s_box s end.

(** core.py:113-117: sum of the cosines between consecutive box vectors
    ([userbox[i-1]] is the last row for i = 0).  numpy gives nan for a zero
    vector; here the value of [ndiv _ 0]. *)
Definition cos_sum (b : m3 N) : N :=
  let c u v := vdot u v / (norm u * norm v) in
  n0 + c (r2 b) (r0 b) + c (r0 b) (r1 b) + c (r1 b) (r2 b).

(** Rows and columns exchanged, [np.array(userbox).T]. *)
Definition mtrans (m : m3 N) : m3 N :=
  mkM (mkV (vx (r0 m)) (vx (r1 m)) (vx (r2 m)))
      (mkV (vy (r0 m)) (vy (r1 m)) (vy (r2 m)))
      (mkV (vz (r0 m)) (vz (r1 m)) (vz (r2 m))).

(** np.linalg.inv is an oracle: [None] is LinAlgError (singular matrix),
    which is a subclass of ValueError. *)
Variable inv : m3 N -> option (m3 N).

(** core.py:107-126, box setter. *)
Definition box_set (s : sys N) (b : m3 N) : res (sys N) :=
  if nlit 1 1000000 <? nabs (cos_sum b) then
    let rot := mtrans b in
    match inv rot with
    | Some ri => Ok (sbox (assign_triclinic_params s rot ri) b)
    | None => Err ValueError
    end
  else Ok (sbox s b).

(** core.py:1975-2025, embed_in_cubic_box: the box lengths of the cell written
    with its first vector along x and its second in the xy plane, and the
    orthogonal box around it.  Python's min and max return the first of equal
    arguments.  The member newbox is not modelled. *)
Definition py_min (x y : N) : N := if y <? x then y else x.
Definition py_max (x y : N) : N := if x <? y then y else x.
Definition cube_of (b : m3 N) : m3 N :=
  let a := r0 b in let v := r1 b in let c := r2 b in
  let cosa := vdot v c / (norm v * norm c) in
  let cosb := vdot c a / (norm c * norm a) in
  let cosc := vdot a v / (norm a * norm v) in
  let lx := norm a in
  let xy := norm v * cosc in
  let xz := norm c * cosb in
  let ly := nsqrt (norm v * norm v - xy * xy) in
  let yz := (norm v * norm c * cosa - xy * xz) / ly in
  let lz := nsqrt (norm c * norm c - xz * xz - yz * yz) in
  let xlo_bound := n0 + py_min (py_min (py_min n0 xy) xz) (xy + xz) in
  let xhi_bound := lx + py_max (py_max (py_max n0 xy) xz) (xy + xz) in
  let ylo_bound := n0 + py_min n0 yz in
  let yhi_bound := ly + py_max n0 yz in
  mkM (mkV (xhi_bound - xlo_bound) n0 n0) (mkV n0 (yhi_bound - ylo_bound) n0) (mkV n0 n0 (lz - n0)).
Definition embed_in_cubic_box (s : sys N) : res (sys N) := box_set s (cube_of (s_box s)).

(** Numbers of non-ghost and ghost atoms, the loops of system.cpp:125-134 and
    158-168. *)
Definition is_real (a : atom N) : bool := Z.eqb (a_ghost a) 0.
Definition count_real (l : list (atom N)) : Z := Z.of_nat (length (filter is_real l)).
Definition count_ghost (l : list (atom N)) : Z :=
  Z.of_nat (length (filter (fun a => negb (is_real a)) l)).

(** system.cpp:117-142, set_atoms. *)
Definition set_atoms (s : sys N) (l : list (atom N)) : sys N :=
  s <| s_atoms := l |> <| s_nop := Z.of_nat (length l) |>
    <| s_ghost := count_ghost l |> <| s_real := count_real l |>.

(** system.cpp:146-154, get_atoms: the first real_nop stored atoms. *)
Definition get_atoms (s : sys N) : res (list (atom N)) :=
  mapM (fun i => get (s_atoms s) i) (seq 0 (Z.to_nat (s_real s))).

(** system.cpp:225-233, get_all_atoms. *)
Definition get_all_atoms (s : sys N) : res (list (atom N)) :=
  mapM (fun i => get (s_atoms s) i) (seq 0 (Z.to_nat (s_nop s))).

(** system.cpp:156-222, add_atoms (core.py:154-166). *)
Definition add_atoms (s : sys N) (l : list (atom N)) : res (sys N) :=
  let tg := count_ghost l in
  let tl := count_real l in
  s1 <- (if Z.eqb (s_ghost s) 0 then
           if Z.eqb tg 0 then Ok (s <| s_atoms := s_atoms s ++ l |>) else Ok s
         else if Z.ltb 0 (s_ghost s) then
           old <- get_all_atoms s ;;
           let keep := filter is_real old ++ filter is_real l in
           let gh := filter (fun a => negb (is_real a)) old
                     ++ filter (fun a => negb (is_real a)) l in
           Ok (s <| s_atoms := keep ++ gh |>)
         else Ok s) ;;
  Ok (s1 <| s_ghost := (s_ghost s + tg)%Z |> <| s_real := (s_real s + tl)%Z |>
         <| s_nop := (s_nop s + Z.of_nat (length l))%Z |>).

(** system.cpp:235, gatom; a negative index is out of range too. *)
Definition get_atom (s : sys N) (i : Z) : res (atom N) :=
  if Z.ltb i 0 then Err UB else get (s_atoms s) (Z.to_nat i).

(** system.cpp:236-239, satom: writes at the index stored in the atom. *)
Definition set_atom (s : sys N) (a : atom N) : res (sys N) :=
  if Z.ltb (a_loc a) 0 then Err UB
  else l <- put (s_atoms s) (Z.to_nat (a_loc a)) a ;; Ok (s <| s_atoms := l |>).

(** core.py:1944-1960: the copy of [a] shifted by (i,j,k) cells.
    [raw id] is the uninitialised memory of the new object. *)
Variable raw : Z -> atom N.

Definition shift_pos (b : m3 N) (p : v3 N) (ijk : Z * Z * Z) : v3 N :=
  let '(i, j, k) := ijk in
  vadd (vadd (vadd p (vscale (nofZ i) (r0 b))) (vscale (nofZ j) (r1 b)))
       (vscale (nofZ k) (r2 b)).

Definition copy_atom (b : m3 N) (ghost : bool) (ijk : Z * Z * Z) (id : Z) (a : atom N)
  : atom N :=
  let c := atom_ctor (raw id) (mkV n0 n0 n0) 0 0 in
  let c := c <| a_pos := shift_pos b (a_pos a) ijk |> <| a_id := id |>
             <| a_type := a_type a |> in
  if ghost then c <| a_ghost := 1%Z |> else c.

(** core.py:1944-1948: the shifts in loop order, without (0,0,0). *)
Definition shifts (rx ry rz : Z) : list (Z * Z * Z) :=
  filter (fun t => let '(i, j, k) := t in negb (Z.eqb i 0 && Z.eqb j 0 && Z.eqb k 0))
    (flat_map (fun i => flat_map (fun j => map (fun k => (i, j, k))
       (zrange (- rz) (rz + 1))) (zrange (- ry) (ry + 1))) (zrange (- rx) (rx + 1))).

(** core.py:1944-1961: the loops with the running id. *)
Fixpoint number_from (b : m3 N) (ghost : bool) (id : Z) (l : list ((Z * Z * Z) * atom N))
  : list (atom N) :=
  match l with
  | [] => []
  | (t, a) :: l => copy_atom b ghost t id a :: number_from b ghost (id + 1) l
  end.
Definition copies (b : m3 N) (ghost : bool) (reps : Z * Z * Z) (atoms : list (atom N))
  : list (atom N) :=
  let '(rx, ry, rz) := reps in
  number_from b ghost (Z.of_nat (length atoms) + 1)
    (flat_map (fun t => map (fun a => (t, a)) atoms) (shifts rx ry rz)).

Definition scale_box (b : m3 N) (reps : Z * Z * Z) : m3 N :=
  let '(rx, ry, rz) := reps in
  mkM (vscale (nofZ (2 * rx + 1)) (r0 b)) (vscale (nofZ (2 * ry + 1)) (r1 b))
      (vscale (nofZ (2 * rz + 1)) (r2 b)).

(** core.py:1909-1972, repeat.  Returns the new system and the list. *)
Definition repeat_cell (s : sys N) (reps : Z * Z * Z) (oatoms : option (list (atom N)))
    (ghost scale : bool) : res (sys N * list (atom N)) :=
  let b := box_get s in
  let s1 := s <| s_actual := Some b |> in
  atoms <- (match oatoms with Some l => Ok l | None => get_atoms s1 end) ;;
  let new := copies b ghost reps atoms in
  s2 <- (if scale then box_set s1 (scale_box b reps) else Ok s1) ;;
  let s3 := if ghost then s2 <| s_ghosts_created := true |> else s2 in
  Ok (s3, atoms ++ new).

(** core.py:142-146: the repetition count for a list of [n] atoms.
    int(needed_cells ** (1/3)) is the floor of the cube root: of the values
    needed_cells takes for n in 1..199 only 1 and 8 are perfect cubes, and
    there the double power is exact. *)
Fixpoint icbrt_aux (fuel : nat) (r n : Z) : Z :=
  match fuel with
  | O => r
  | S f => if Z.leb ((r + 1) * (r + 1) * (r + 1)) n then icbrt_aux f (r + 1) n else r
  end.
Definition icbrt (n : Z) : Z := icbrt_aux 200 0 n.
Definition ceil_div (a b : Z) : Z := (- ((- a) / b))%Z.
Definition small_reps (n : Z) : Z :=
  let needed_cells := ceil_div (200 - n) n in
  ceil_div (icbrt needed_cells) 2.

(** np.sum of the 3x3 box. *)
Definition box_sum (b : m3 N) : N :=
  vx (r0 b) + vy (r0 b) + vz (r0 b) + vx (r1 b) + vy (r1 b) + vz (r1 b)
  + vx (r2 b) + vy (r2 b) + vz (r2 b).

(** core.py:135-152, atoms setter. *)
Definition atoms_set (s : sys N) (l : list (atom N)) : res (sys N) :=
  let n := Z.of_nat (length l) in
  if Z.ltb n 200 then
    if Z.eqb n 0 then Err ZeroDivisionError
    else
      let nx := small_reps n in
      if box_sum (box_get s) =? n0 then Err ValueError
      else
        '(s1, l1) <- repeat_cell s (nx, nx, nx) (Some l) true true ;;
        Ok (set_atoms s1 l1)
  else Ok (set_atoms s l).

(** core.py:2134-2147: one coordinate of the remapping in Python. *)
Definition remap_py (b : m3 N) (p : v3 N) : v3 N :=
  mkV (remap1 (vx (r0 b)) (vx p)) (remap1 (vy (r1 b)) (vy p)) (remap1 (vz (r2 b)) (vz p)).

Definition inside (b : m3 N) (p : v3 N) : bool :=
  (n0 <=? vx p) && (vx p <? vx (r0 b)) && ((n0 <=? vy p) && (vy p <? vy (r1 b)))
  && ((n0 <=? vz p) && (vz p <? vz (r2 b))).

(** core.py:2161-2171: indices of the atoms to drop, then the survivors. *)
Definition dup_indices (s : sys N) (dtol : N) (l : list (atom N)) : list nat :=
  flat_map (fun p => match nth_error l (fst p), nth_error l (snd p) with
                     | Some a, Some b =>
                         if abs_distance s (a_pos a) (a_pos b) <=? dtol then [fst p] else []
                     | _, _ => [] end) (pairs (length l)).
Definition drop_indices (bad : list nat) (l : list (atom N)) : list (atom N) :=
  map snd (filter (fun p => negb (existsb (Nat.eqb (fst p)) bad))
             (combine (seq 0 (length l)) l)).

(** core.py:2111-2184, remap_atoms.  The result is the list that is assigned
    or returned, and the system after the call. *)
Definition remap_atoms (s : sys N) (remove_images assign remove_atoms : bool) (dtol : N)
  : res (sys N * list (atom N)) :=
  let b := box_get s in
  l <- get_atoms s ;;
  s1 <- box_set s b ;;
  let l1 := map (fun a => a <| a_pos := remap_py b (a_pos a) |>) l in
  let l2 := if remove_atoms then filter (fun a => inside b (a_pos a)) l1 else l1 in
  let l3 := if remove_images then drop_indices (dup_indices s1 dtol l2) l2 else l2 in
  Ok (if assign then set_atoms s1 l3 else s1, l3).

End Container.
