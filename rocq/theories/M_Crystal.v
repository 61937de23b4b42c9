(** make_crystal: crystal_structures.py:9-281.  Model only. *)
From Coq Require Import String.
From Verif Require Import Base Num Types M_Geometry M_Container M_Analysis.
Set Implicit Arguments.
Unset Strict Implicit.

Section Crystal.
Variable N : num.
Open Scope num_scope.
(** Uninitialised memory of the new Atom objects, by id. *)
Variable raw : Z -> atom N.
(** np.random.normal: the value of the call with the given number, centre and
    scale. *)
Variable normal : Z -> N -> N -> N.

(** The unit cell: types and positions of its atoms and the factors for the
    sides of the cell, crystal_structures.py:59-247.  coord_no is the length of
    the lists; natoms is not used by the code. *)
Record unit_cell := mkCell { uc_types : list Z; uc_pos : list (v3 N); uc_fact : v3 N }.

(** 59-73, sc *)
Definition cell_sc (a : N) : unit_cell :=
  mkCell [1%Z] [mkV n0 n0 n0] (mkV n1 n1 n1).
(** 75-91, bcc *)
Definition cell_bcc (a : N) : unit_cell :=
  mkCell [1%Z; 1%Z]
    [mkV n0 n0 n0; mkV (nlit 1 2 * a) (nlit 1 2 * a) (nlit 1 2 * a)] (mkV n1 n1 n1).
(** 94-113, fcc *)
Definition fcc_pos (a : N) : list (v3 N) :=
  [mkV n0 n0 n0; mkV (nlit 1 2 * a) n0 (nlit 1 2 * a); mkV n0 (nlit 1 2 * a) (nlit 1 2 * a);
   mkV (nlit 1 2 * a) (nlit 1 2 * a) n0].
Definition cell_fcc (a : N) : unit_cell :=
  mkCell [1%Z; 1%Z; 1%Z; 1%Z] (fcc_pos a) (mkV n1 n1 n1).
(** 115-135, hcp *)
Definition cell_hcp (a ca : N) : unit_cell :=
  let yfact := nsqrt (nofZ 3) in
  let zfact := ca in
  mkCell [1%Z; 1%Z; 1%Z; 1%Z]
    [mkV n0 n0 n0; mkV (nlit 1 2 * a) (nlit 1 2 * a * yfact) n0;
     mkV (nlit 1 2 * a) (a * (n1 / nofZ 6) * yfact) (nlit 1 2 * a * zfact);
     mkV n0 (n2 * a * (n1 / yfact)) (nlit 1 2 * a * zfact)]
    (mkV n1 yfact zfact).
(** 137-171, diamond *)
Definition cell_diamond (a : N) : unit_cell :=
  let q := nlit 1 4 * a in let h := nlit 1 2 * a in let t := nlit 3 4 * a in let z := n0 * a in
  mkCell (repeat 1%Z 8)
    [mkV n0 n0 n0; mkV q q q; mkV h h z; mkV t t q; mkV h z h; mkV z h h; mkV t q t; mkV q t t]
    (mkV n1 n1 n1).
(** 173-207, a15 *)
Definition cell_a15 (a : N) : unit_cell :=
  let q := nlit 1 4 * a in let h := nlit 1 2 * a in let t := nlit 3 4 * a in let z := n0 * a in
  mkCell (repeat 1%Z 8)
    [mkV n0 n0 n0; mkV h h h; mkV q h z; mkV t h z; mkV z q h; mkV z t h; mkV h z q; mkV h z t]
    (mkV n1 n1 n1).
(** 210-229, l12 *)
Definition cell_l12 (a : N) : unit_cell :=
  mkCell [1%Z; 2%Z; 2%Z; 2%Z] (fcc_pos a) (mkV n1 n1 n1).
(** 231-247, b2 *)
Definition cell_b2 (a : N) : unit_cell :=
  mkCell [1%Z; 2%Z]
    [mkV n0 n0 n0; mkV (nlit 1 2 * a) (nlit 1 2 * a) (nlit 1 2 * a)] (mkV n1 n1 n1).

(** 59-250: the chain of comparisons of the structure name. *)
Definition the_cell (structure : string) (a ca : N) : res unit_cell :=
  if String.eqb structure "sc" then Ok (cell_sc a)
  else if String.eqb structure "bcc" then Ok (cell_bcc a)
  else if String.eqb structure "fcc" then Ok (cell_fcc a)
  else if String.eqb structure "hcp" then Ok (cell_hcp a ca)
  else if String.eqb structure "diamond" then Ok (cell_diamond a)
  else if String.eqb structure "a15" then Ok (cell_a15 a)
  else if String.eqb structure "l12" then Ok (cell_l12 a)
  else if String.eqb structure "b2" then Ok (cell_b2 a)
  else Err ValueError.

(** 265-279: one atom; [co] is the running id, [i], [j], [k] count from 1. *)
Definition crystal_atom (a noise : N) (fact : v3 N) (i j k : Z) (co : Z) (p : Z * v3 N) : atom N :=
  let '(t, u) := p in
  let posx := vx u + a * vx fact * (nofZ i - n1) in
  let posy := vy u + a * vy fact * (nofZ j - n1) in
  let posz := vz u + a * vz fact * (nofZ k - n1) in
  let '(posx, posy, posz) :=
    if n0 <? noise then
      (normal (3 * co) posx noise, normal (3 * co + 1) posy noise, normal (3 * co + 2) posz noise)
    else (posx, posy, posz) in
  atom_ctor (raw co) (mkV n0 n0 n0) 0 0
    <| a_pos := mkV posx posy posz |> <| a_id := co |> <| a_type := t |> <| a_loc := (co - 1)%Z |>.
(** 261-279: the four loops. *)
Definition crystal_sites (nx ny nz : Z) (u : unit_cell) : list (Z * Z * Z * (Z * v3 N)) :=
  flat_map (fun i => flat_map (fun j => flat_map (fun k =>
    map (fun p => (i, j, k, p)) (combine (uc_types u) (uc_pos u)))
    (zrange 1 (nz + 1))) (zrange 1 (ny + 1))) (zrange 1 (nx + 1)).
Fixpoint place (a noise : N) (fact : v3 N) (co : Z) (l : list (Z * Z * Z * (Z * v3 N))) : list (atom N) :=
  match l with
  | [] => []
  | (i, j, k, p) :: l => crystal_atom a noise fact i j k co p :: place a noise fact (co + 1) l
  end.

(** 9-281.  repetitions is None or a list; shorter lists are an IndexError. *)
Definition make_crystal (structure : string) (a : N) (repetitions : option (list Z)) (ca noise : N)
  : res (list (atom N) * m3 N) :=
  '(nx, ny, nz) <- match repetitions with
    | None => Ok (1%Z, 1%Z, 1%Z)
    | Some l => nx <- py_get l 0 ;; ny <- py_get l 1 ;; nz <- py_get l 2 ;; Ok (nx, ny, nz)
    end ;;
  u <- the_cell structure a ca ;;
  let f := uc_fact u in
  let xh := nofZ nx * a * vx f in
  let yh := nofZ ny * a * vy f in
  let zh := nofZ nz * a * vz f in
  Ok (place a noise f 1 (crystal_sites nx ny nz u),
      mkM (mkV xh n0 n0) (mkV n0 yh n0) (mkV n0 n0 zh)).
End Crystal.
