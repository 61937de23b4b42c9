(** Specifications for trajectories and time slices. *)
From Coq Require Import ZArith List Ascii String Sorted.
From Verif Require Import Base Num Types M_Text M_Traj S_Lammps.
Import ListNotations.
Local Open Scope Z_scope.

(** The lines of the i-th snapshot of [bs] lines. *)
Definition snapshot {A} (bs i : nat) (ls : list A) : list A := firstn bs (skipn (i * bs) ls).

(** Python slicing of a sequence of length n: negative positions count from
    the end, and start and stop may be anywhere. *)
Definition position (n i : Z) : Z := if i <? 0 then i + n else i.
Definition slice_first (n : Z) (step : Z) (start : option Z) : Z :=
  match start with
  | None => if 0 <? step then 0 else n - 1
  | Some i => if 0 <? step then Z.max 0 (position n i) else Z.min (n - 1) (position n i)
  end.
Definition before_stop (n step : Z) (stop : option Z) (x : Z) : Prop :=
  match stop with None => True | Some i => if 0 <? step then x < position n i else position n i < x end.
Definition selected (n : Z) (start stop : option Z) (step x : Z) : Prop :=
  0 <= x < n /\ (exists k, 0 <= k /\ x = slice_first n step start + step * k) /\ before_stop n step stop x.

(** The snapshots of a time slice, in order: trajectory and number. *)
Definition snapshots (s : tslice) : list (nat * Z) :=
  concat (map (fun p => map (pair (fst p)) (snd p)) (combine (sl_trajs s) (sl_blocks s))).
(** As many lists of blocks as trajectories, and at least one. *)
Definition slice_ok (s : tslice) : Prop := List.length (sl_trajs s) = List.length (sl_blocks s) /\ sl_trajs s <> [].
(** The leaves of an expression, from left to right. *)
Fixpoint leaves (e : texpr) : list nat := match e with Leaf i => [i] | Plus a b => leaves a ++ leaves b end.

(** Histories of a trajectory: blocks are loaded, unloaded, altered by the
    user or asked for as dictionaries. *)
Inductive op {N : num} := OLoad (i : Z) | OUnload (i : Z) | OEdit (i : Z) (b : block N) | ODict (i : Z).
Arguments op : clear implicits.
Definition step {N} (T : textnum N) (t : traj N) (o : op N) : res (traj N) :=
  match o with
  | OLoad i => load T t i
  | OUnload i => unload t i
  | OEdit i b => edit t i b
  | ODict i => r <- to_dict1 T t i ;; Ok (fst r)
  end.
Definition run {N} (T : textnum N) (t : traj N) (l : list (op N)) : res (traj N) := foldM (step T) l t.
(** Of the operations that load or unload block [i] of [n], the last one loads it. *)
Fixpoint is_loaded {N} (n : Z) (i : Z) (l : list (op N)) (now : bool) : bool :=
  match l with
  | [] => now
  | OLoad j :: l => is_loaded n i l (if position n j =? i then true else now)
  | OUnload j :: l => is_loaded n i l (if position n j =? i then false else now)
  | ODict j :: l => is_loaded n i l (if position n j =? i then false else now)
  | OEdit _ _ :: l => is_loaded n i l now
  end.

(** Numbers whose text reads as the same number. *)
Definition plain (w : text) : Prop := is_word w /\ ~ In "#"%char w.
Definition reads_back {N} (T : textnum N) (repr : N -> text) (x : N) : Prop :=
  plain (repr x) /\ parse_float T (repr x) = Ok x.
(** Finite integral numbers whose decimal digits read as the same number. *)
Definition integral {N} (T : textnum N) (x : N) : Prop :=
  neqb (nsub x x) n0 = true /\ parse_float T (show_int (ntrunc x)) = Ok x.
Definition int_name (k : text) : Prop := k = tx "id" \/ k = tx "type".
(** Data with [n] atoms: three rows of the same length for the box, named
    columns of the same length, ids or types among them and other columns. *)
Record good_data {N} (n : nat) (dd : block N) : Prop := {
  gd_n : (2 <= n)%nat;
  gd_box : exists rows m, b_box dd = A2 rows /\ List.length rows = 3%nat /\ (2 <= m)%nat /\ Forall (fun r => List.length r = m) rows;
  gd_keys : NoDup (map fst (b_atoms dd)) /\ Forall plain (map fst (b_atoms dd));
  gd_cols : Forall (fun p => List.length (snd p) = n) (b_atoms dd);
  gd_int : exists k, int_name k /\ In k (map fst (b_atoms dd));
  gd_other : exists k, ~ int_name k /\ In k (map fst (b_atoms dd))
}.
Arguments gd_n {N n dd}.
Arguments gd_box {N n dd}.
Arguments gd_keys {N n dd}.
Arguments gd_cols {N n dd}.
Arguments gd_int {N n dd}.
Arguments gd_other {N n dd}.
Definition good_numbers {N} (T : textnum N) (repr : N -> text) (dd : block N) : Prop :=
  (forall rows, b_box dd = A2 rows -> Forall (Forall (reads_back T repr)) rows) /\
  (forall k c, In (k, c) (b_atoms dd) -> ~ int_name k -> Forall (reads_back T repr) c) /\
  (forall k c, In (k, c) (b_atoms dd) -> int_name k -> Forall (integral T) c).
(** The same box and the same columns. *)
Definition same_data {N} (a b : block N) : Prop :=
  b_box a = b_box b /\ forall k, dget (b_atoms a) k = dget (b_atoms b) k.
