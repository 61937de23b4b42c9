(** Vocabulary for angles, short range order, radial distribution and
    concentration; independent of the model's functions. *)
From Coq Require Import Reals ZArith List Permutation.
From Verif Require Import Base Num NumR Types M_Geometry S_Geometry S_Container S_Steinhardt S_Local.
Import ListNotations.
Open Scope R_scope.

Definition zero_vec : v3 Rnum := mkV (0 : Rnum) (0 : Rnum) (0 : Rnum).
Definition nonzero_vec (v : v3 Rnum) : Prop := len2 (vx v) (vy v) (vz v) <> 0.
Definition vlen (v : v3 Rnum) : R := eucl (vx v) (vy v) (vz v).

(** A sum over, and a number of, the unordered pairs of entries of a list. *)
Definition over_pairs {A} (d : A) (f : A -> A -> R) (l : list A) : R :=
  Rsum (map (fun p => f (nth (fst p) l d) (nth (snd p) l d)) (pairs (length l))).
Definition count_pairs {A} (d : A) (P : A -> A -> bool) (l : list A) : nat :=
  length (filter (fun p => P (nth (fst p) l d) (nth (snd p) l d)) (pairs (length l))).

(** ** Angular criterion *)
(** [top] are at most [n] entries of [ws], none longer than the others. *)
Definition shortest (n : nat) (ws top : list (v3 Rnum)) : Prop :=
  exists rest, Permutation ws (top ++ rest) /\ length top = Nat.min n (length ws) /\
  forall v w, In v top -> In w rest -> vlen v <= vlen w.
Definition tetra_dev (v w : v3 Rnum) : R := (cosine v w + 1 / 3) ^ 2.
(** The vectors between an atom and the neighbours, by get_distance. *)
Definition neighbor_vectors (s : sys Rnum) (atoms : list (atom Rnum)) (a : atom Rnum) : list (v3 Rnum) :=
  map (fun e => match nth_error atoms (nb_idx e) with
                | Some b => distance_vector s (a_pos a) (a_pos b)
                | None => zero_vec
                end) (a_nbrs a).

(** numpy's argsort gives the positions in increasing order of value. *)
Definition argsorts (f : list Rnum -> list nat) : Prop :=
  forall l, Permutation (seq 0 (length l)) (f l) /\
  forall i j, (i < j < length l)%nat -> (nth (nth i (f l) 0%nat) l 0 <= nth (nth j (f l) 0%nat) l 0)%R.

(** ** Histograms *)
Definition in_bin (lo hi : R) (closed : bool) (x : R) : bool :=
  if Rle_dec lo x then
    if closed then if Rle_dec x hi then true else false else if Rlt_dec x hi then true else false
  else false.
Definition chi_edges : list R :=
  [- 1; - 945 / 1000; - 915 / 1000; - 755 / 1000; - 705 / 1000; - 195 / 1000;
   195 / 1000; 245 / 1000; 795 / 1000; 1].

(** ** Short range order *)
Definition is_type {N} (t : Z) (a : atom N) : bool := Z.eqb (a_type a) t.
Definition share {A} (P : A -> bool) (l : list A) : R := INR (length (filter P l)) / INR (length l).
Definition warren_cowley (ref : Z) (all shell : list (atom Rnum)) : R :=
  1 - share (fun a => negb (is_type ref a)) shell / share (fun a => negb (is_type ref a)) all.
(** de Fontaine's parameter; [delta] is 1 or 0. *)
Definition de_fontaine (delta : R) (comp : Z) (all shell : list (atom Rnum)) : R :=
  (share (is_type comp) shell - share (is_type comp) all) / (delta - share (is_type comp) all).
Definition neighbor_atoms {N} (atoms : list (atom N)) (a : atom N) (bs : list (atom N)) : Prop :=
  Forall2 (fun e b => nth_error atoms (nb_idx e) = Some b) (a_nbrs a) bs.
Definition dist_to (s : sys Rnum) (a b : atom Rnum) : R := abs_distance s (a_pos a) (a_pos b).
Definition mean_dist (s : sys Rnum) (a : atom Rnum) (bs : list (atom Rnum)) : R :=
  Rsum (map (dist_to s a) bs) / INR (length bs).
Definition first_shell (s : sys Rnum) (a : atom Rnum) (bs : list (atom Rnum)) : list (atom Rnum) :=
  filter (fun b => if Rle_dec (dist_to s a b) (mean_dist s a bs) then true else false) bs.
Definition second_shell (s : sys Rnum) (a : atom Rnum) (bs : list (atom Rnum)) : list (atom Rnum) :=
  filter (fun b => if Rlt_dec (mean_dist s a bs) (dist_to s a b) then true else false) bs.

(** ** Radial distribution function *)
Definition shell_volume (p r w : R) : R := 4 / 3 * p * ((r + w) ^ 3 - r ^ 3).
(** Pairs of the atoms [l] whose distance is in a bin. *)
Definition pairs_in_bin (s : sys Rnum) (l : list (atom Rnum)) (lo hi : R) (closed : bool) : nat :=
  length (filter (fun p => match nth_error l (fst p), nth_error l (snd p) with
                           | Some a, Some b => in_bin lo hi closed (abs_distance s (a_pos b) (a_pos a))
                           | _, _ => false
                           end) (pairs (length l))).
(** The sro attribute [new] of an atom after a call, for the documented value
    [W] of a shell; [old] is the attribute before. *)
Definition sro_entry (s : sys Rnum) (atoms : list (atom Rnum)) (ref shells : Z) (W : list (atom Rnum) -> R)
    (a : atom Rnum) (old new : list Rnum) : Prop :=
  if is_type ref a then
    exists bs, neighbor_atoms atoms a bs /\
    (shells = 2%Z -> exists x y : R, new = [x : Rnum; y : Rnum] /\
       (first_shell s a bs <> [] -> x = W (first_shell s a bs)) /\
       (second_shell s a bs <> [] -> y = W (second_shell s a bs))) /\
    (shells = 1%Z -> exists x : R, new = [x : Rnum] /\ (bs <> [] -> x = W bs)) /\
    (shells <> 1%Z -> shells <> 2%Z -> new = old)
  else new = old.
(** The mean over the atoms of the reference type; one value counts for both
    shells. *)
Definition sro_mean (ref : Z) (atoms : list (atom Rnum)) (sros : list (list Rnum)) (f : list Rnum -> R) : R :=
  let l := filter (fun p => is_type ref (fst p)) (combine atoms sros) in
  Rsum (map (fun p => f (snd p)) l) / INR (length l).
Definition number_of (t : Z) (l : list Z) : Z := Z.of_nat (length (filter (Z.eqb t) l)).
