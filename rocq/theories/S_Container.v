(** Specification vocabulary for boxes, atom lists, repetition and remapping. *)
From Coq Require Import ZArith List Reals.
From Verif Require Import Num NumR Types.
Import ListNotations.
Set Implicit Arguments.
Unset Strict Implicit.

(** Three vectors that are pairwise orthogonal (exact reals). *)
Definition orthogonal_box (b : m3 Rnum) : Prop :=
  let d (u v : v3 Rnum) : R := (vx u * vx v + vy u * vy v + vz u * vz v)%R in
  (d (r0 b) (r1 b) = 0 /\ d (r1 b) (r2 b) = 0 /\ d (r2 b) (r0 b) = 0)%R.

Section S.
Variable N : num.

Definition all_real (l : list (atom N)) : Prop := forall a, In a l -> a_ghost a = 0%Z.

(** [g] is the periodic image of [a] displaced by (i,j,k) box vectors: same
    type, coordinates p + i*v0 + j*v1 + k*v2 in this order of evaluation. *)
Definition displaced (b : m3 N) (i j k : Z) (p q : v3 N) : Prop :=
  let f (x c0 c1 c2 : N) : N :=
    nadd (nadd (nadd x (nmul (nofZ i) c0)) (nmul (nofZ j) c1)) (nmul (nofZ k) c2) in
  vx q = f (vx p) (vx (r0 b)) (vx (r1 b)) (vx (r2 b)) /\
  vy q = f (vy p) (vy (r0 b)) (vy (r1 b)) (vy (r2 b)) /\
  vz q = f (vz p) (vz (r0 b)) (vz (r1 b)) (vz (r2 b)).

(** [copies_of b r l new g0 first]: [new] consists of exactly one copy of every
    atom of [l] for every shift (i,j,k) <> (0,0,0) with |i|<=rx, |j|<=ry,
    |k|<=rz, with consecutive ids from [first] on and ghost flag [g0]. *)
Definition key := ((Z * Z * Z) * nat)%type.
Definition shift_ok (rx ry rz : Z) (k : key) (n : nat) : Prop :=
  let '((i, j, k'), m) := k in
  (- rx <= i <= rx)%Z /\ (- ry <= j <= ry)%Z /\ (- rz <= k' <= rz)%Z /\
  (i, j, k') <> (0, 0, 0)%Z /\ (m < n)%nat.
Definition copy_rel (b : m3 N) (l : list (atom N)) (g0 : Z) (k : key) (g : atom N) : Prop :=
  let '((i, j, k'), m) := k in
  exists a, nth_error l m = Some a /\ displaced b i j k' (a_pos a) (a_pos g) /\
            a_type g = a_type a /\ a_ghost g = g0.
Definition copies_of (b : m3 N) (rx ry rz : Z) (l new : list (atom N)) (g0 first : Z) : Prop :=
  exists keys : list key,
    NoDup keys /\ (forall k, In k keys <-> shift_ok rx ry rz k (length l)) /\
    Forall2 (copy_rel b l g0) keys new /\
    map (@a_id N) new = map (fun i => (first + Z.of_nat i)%Z) (seq 0 (length new)).

(** Counters in agreement with the stored atoms, real atoms stored first. *)
Definition counters_ok (s : sys N) : Prop :=
  exists reals ghosts,
    s_atoms s = reals ++ ghosts /\
    all_real reals /\ (forall a, In a ghosts -> a_ghost a <> 0%Z) /\
    s_real s = Z.of_nat (length reals) /\ s_ghost s = Z.of_nat (length ghosts) /\
    s_nop s = (s_real s + s_ghost s)%Z.

(** [l'] is a subsequence of [l]. *)
Inductive subseq {A} : list A -> list A -> Prop :=
| sub_nil : subseq [] []
| sub_skip a l' l : subseq l' l -> subseq l' (a :: l)
| sub_keep a l' l : subseq l' l -> subseq (a :: l') (a :: l).

End S.

(** Coordinate [x'] is [x] moved into [0, L) by a whole number of lengths
    (claimed for x within one length of the cell). *)
Definition remapped1 (L x x' : R) : Prop :=
  ((0 < L /\ - L <= x < 2 * L) -> 0 <= x' < L /\ exists k : Z, x' = x + IZR k * L)%R.
Definition remapped (b : m3 Rnum) (a a' : atom Rnum) : Prop :=
  remapped1 (vx (r0 b)) (vx (a_pos a)) (vx (a_pos a')) /\
  remapped1 (vy (r1 b)) (vy (a_pos a)) (vy (a_pos a')) /\
  remapped1 (vz (r2 b)) (vz (a_pos a)) (vz (a_pos a')) /\
  a' = a <| a_pos := a_pos a' |>.
Definition in_cell (b : m3 Rnum) (p : v3 Rnum) : Prop :=
  (0 <= vx p < vx (r0 b) /\ 0 <= vy p < vy (r1 b) /\ 0 <= vz p < vz (r2 b))%R.

(** Cosine of the angle between two box vectors. *)
Definition cosine (u v : v3 Rnum) : R :=
  ((vx u * vx v + vy u * vy v + vz u * vz v) /
   (sqrt (vx u * vx u + vy u * vy u + vz u * vz u) *
    sqrt (vx v * vx v + vy v * vy v + vz v * vz v)))%R.
