(** Specification of C61, C66 and C67: polyhedra. *)
From Coq Require Import Reals ZArith List.
From Verif Require Import Base Num NumR Types.
Import ListNotations.
Close Scope R_scope. Close Scope Z_scope.

(** [n] elements of the list have the property. *)
Inductive such {A} (P : A -> Prop) : list A -> nat -> Prop :=
| such_nil : such P [] 0
| such_yes x l n : P x -> such P l n -> such P (x :: l) (S n)
| such_no x l n : ~ P x -> such P l n -> such P (x :: l) n.

(** The edges of a polygon: from the vertex before it to each vertex; before
    the first comes the last. *)
Definition edges {A} (p : list A) : list (A * A) :=
  match p with
  | [] => []
  | x :: _ => combine (last p x :: p) p
  end.
Definition distance {N : num} (e : v3 N * v3 N) : N :=
  let (a, b) := e in
  nsqrt (nadd (nadd (nmul (nsub (vx a) (vx b)) (nsub (vx a) (vx b))) (nmul (nsub (vy a) (vy b)) (nsub (vy a) (vy b))))
              (nmul (nsub (vz a) (vz b)) (nsub (vz a) (vz b)))).

(** A cell: its vertices, and for each face the vertices in order and the area. *)
Record poly (N : num) := mkPoly { p_vertices : list (v3 N); p_faces : list (list nat * N) }.
Arguments mkPoly {N}. Arguments p_vertices {N}. Arguments p_faces {N}.
Definition points {N : num} (p : poly N) (f : list nat * N) : list (v3 N) :=
  map (fun k => nth k (p_vertices p) (mkV n0 n0 n0)) (fst f).
(** The three vectors of numbers that voro++ gives for it: numbers of vertices
    of the faces; for each face the number and then the vertices; coordinates. *)
Definition laid_out {N : num} (p : poly N) (orders numbers : list Z) (vectors : list N) : Prop :=
  orders = map (fun f => Z.of_nat (length (fst f))) (p_faces p) /\
  numbers = concat (map (fun f => Z.of_nat (length (fst f)) :: map Z.of_nat (fst f)) (p_faces p)) /\
  vectors = concat (map (fun v => [vx v; vy v; vz v]) (p_vertices p)) /\
  Forall (fun f => Forall (fun k => k < length (p_vertices p)) (fst f)) (p_faces p).

(** The face with its weight counts with [k] edges: more than the cutoffs, the
    edges relative to [sum] of their lengths. *)
Definition face_counts {N : num} (sum : list N -> N) (edge_cutoff area_cutoff : N) (k : nat) (pw : list (v3 N) * N) : Prop :=
  nltb area_cutoff (snd pw) = true /\
  such (fun e => nltb edge_cutoff (ndiv (distance e) (sum (map distance (edges (fst pw))))) = true) (edges (fst pw)) k.
(** As documented: at least the cutoffs. *)
Definition face_reaches {N : num} (sum : list N -> N) (edge_cutoff area_cutoff : N) (k : nat) (pw : list (v3 N) * N) : Prop :=
  nleb area_cutoff (snd pw) = true /\
  such (fun e => nleb edge_cutoff (ndiv (distance e) (sum (map distance (edges (fst pw))))) = true) (edges (fst pw)) k.
(** The faces with their weights, the share of the total of [f area]. *)
Definition weighted {N : num} (f : N -> N) (p : poly N) : list (list (v3 N) * N) :=
  let total := fold_left (fun t x => nadd t (f (snd x))) (p_faces p) (nofZ 0) in
  map (fun x => (points p x, ndiv (f (snd x)) total)) (p_faces p).
(** The entries n3, n4, n5 and n6. *)
Definition counts_faces {A} (P : nat -> A -> Prop) (faces : list A) (v : list Z) : Prop :=
  exists n3 n4 n5 n6, v = map Z.of_nat [n3; n4; n5; n6] /\
    such (P 3) faces n3 /\ such (P 4) faces n4 /\ such (P 5) faces n5 /\ such (P 6) faces n6.

(** The same on the reals, [over] being "more than" or "at least". *)
Local Open Scope R_scope.
Definition Rdistance (e : v3 Rnum * v3 Rnum) : R :=
  let (a, b) := e in
  sqrt ((vx a - vx b) * (vx a - vx b) + (vy a - vy b) * (vy a - vy b) + (vz a - vz b) * (vz a - vz b)).
Fixpoint total (l : list R) : R := match l with [] => 0 | x :: l => x + total l end.
Definition perimeter (p : list (v3 Rnum)) : R := total (map Rdistance (edges p)).
Definition R_face (over : R -> R -> Prop) (edge_cutoff area_cutoff : R) (k : nat) (pw : list (v3 Rnum) * R) : Prop :=
  over area_cutoff (snd pw) /\ such (fun e => over edge_cutoff (Rdistance e / perimeter (fst pw))) (edges (fst pw)) k.
(** The faces with their shares of the total area. *)
Definition R_weighted (p : poly Rnum) : list (list (v3 Rnum) * R) :=
  map (fun x => (points p x, snd x / total (map snd (p_faces p)))) (p_faces p).

(** A Voronoi search puts a triclinic cell without ghosts into a larger one
    (core.py:560-563); then it searches each atom and 26 copies of it. *)
Definition embedded {N : num} (s : sys N) : bool := andb (s_tri s) (negb (s_ghosts_created s)).
Definition searched {N : num} (s : sys N) : nat := if embedded s then 27 * length (s_atoms s) else length (s_atoms s).
Definition same_place {N : num} (a b : atom N) : Prop := a_pos a = a_pos b /\ a_ghost a = a_ghost b /\ a_type a = a_type b.
