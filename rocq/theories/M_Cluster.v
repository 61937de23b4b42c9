(** Clustering: system.cpp:1756-1883, core.py:975-1103.  Model only. *)
From Verif Require Import Base Num Types M_Geometry M_Container M_Neighbors M_Steinhardt.
Set Implicit Arguments.
Unset Strict Implicit.

Section Cluster.
Variable N : num.
Open Scope num_scope.

(** system.cpp:1790-1803, harvest_cluster.  The recursion is bounded by
    [fuel]; [Err Diverges] is the answer when it is used up (it never is with
    the fuel given below, C38).  The second component of the state is not in
    the code: the atoms harvest_cluster has been called with so far. *)
Fixpoint harvest_cluster (fuel : nat) (ci : Z) (st : list (atom N) * list nat) (ti : nat)
  : res (list (atom N) * list nat) :=
  match fuel with
  | O => Err Diverges
  | S fuel =>
      let '(l, calls) := st in
      a <- get l ti ;;
      foldM (fun st e =>
          let '(l, calls) := st in
          b <- get l (nb_idx e) ;;
          if negb (Z.eqb (a_ghost b) 0) then Ok (l, calls)
          else if Z.eqb (a_cond b) 0 then Ok (l, calls)
          else if negb (nb_dist e <=? a_cutoff a) then Ok (l, calls)
          else if Z.eqb (a_belongs b) (-1) then
            harvest_cluster fuel ci
              (upd (nb_idx e) (fun b => b <| a_belongs := ci |>) l, calls) (nb_idx e)
          else Ok (l, calls))
        (a_nbrs a) (l, calls ++ [ti])
  end.

(** system.cpp:1821-1830: one turn of the loop over the real atoms. *)
Definition cluster_step (fuel : nat) (st : list (atom N) * list nat * Z) (ti : nat)
  : res (list (atom N) * list nat * Z) :=
  let '(l, calls, ci) := st in
  a <- get l ti ;;
  if Z.eqb (a_cond a) 0 then Ok st
  else if negb (Z.eqb (a_ghost a) 0) then Ok st
  else if Z.eqb (a_belongs a) (-1) then
    '(l, calls) <- harvest_cluster fuel (ci + 1)
        (upd ti (fun a => a <| a_belongs := (ci + 1)%Z |>) l, calls) ti ;;
    Ok (l, calls, (ci + 1)%Z)
  else Ok st.

(** system.cpp:1805-1831, find_clusters_recursive; the second result is the
    list of the harvest_cluster calls. *)
Definition reset_clusters (real : nat) (l : list (atom N)) : list (atom N) :=
  map_first real (fun a => a <| a_belongs := (-1)%Z |>) l.
Definition find_clusters_recursive (s : sys N) (clustercutoff : N) : res (sys N * list nat) :=
  s <- (if clustercutoff =? n0 then Ok s
        else each_atom (fun a => a <| a_cutoff := clustercutoff |>) s) ;;
  let real := Z.to_nat (s_real s) in
  if negb (real <=? length (s_atoms s))%nat then Err UB else
  '(l, calls, _) <- foldM (cluster_step (length (s_atoms s))) (seq 0 real)
                          (reset_clusters real (s_atoms s), [], 0%Z) ;;
  Ok (s <| s_atoms := l |>, calls).

(** system.cpp:1835-1846: sizes.  The cells from real_nop on are not
    initialised in the code; they are written but never read. *)
Definition count_cluster (freq : list Z) (a : atom N) : res (list Z) :=
  if Z.eqb (a_belongs a) (-1) then Ok freq
  else f <- zget freq (a_belongs a - 1) ;; zput freq (a_belongs a - 1) (f + 1)%Z.
Definition cluster_sizes (real : nat) (l : list (atom N)) : res (list Z) :=
  foldM count_cluster (firstn real l) (repeat 0%Z (length l)).
(** system.cpp:1848-1856: the largest entry, its index plus one; the id is
    kept where no entry is positive. *)
Definition largest_of (freq : list Z) (real : nat) (id : Z) : Z * Z :=
  fold_left (fun mi p => if Z.ltb (fst mi) (snd p) then (snd p, (Z.of_nat (fst p) + 1)%Z) else mi)
            (combine (seq 0 real) freq) (0%Z, id).

(** system.cpp:1863-1883, get_largest_cluster_atoms. *)
Fixpoint liquid_neighbor (l : list (atom N)) (es : list (nbr N)) : res bool :=
  match es with
  | [] => Ok false
  | e :: es =>
      b <- get l (nb_idx e) ;;
      if negb (Z.eqb (a_ghost b) 0) then liquid_neighbor l es
      else if negb (a_solid b) then Ok true
      else liquid_neighbor l es
  end.
Definition mark_atom (id : Z) (l : list (atom N)) (ti : nat) : res (list (atom N)) :=
  a <- get l ti ;;
  surf <- (if a_solid a then liquid_neighbor l (a_nbrs a) else Ok true) ;;
  Ok (upd ti (fun a => a <| a_lcluster := Z.eqb (a_belongs a) id |> <| a_surface := surf |>) l).
Definition get_largest_cluster_atoms (s : sys N) : res (sys N) :=
  l <- foldM (mark_atom (s_maxclus s)) (seq 0 (Z.to_nat (s_real s))) (s_atoms s) ;;
  Ok (s <| s_atoms := l |>).

(** system.cpp:1835-1861, largest_cluster. *)
Definition largest_cluster (s : sys N) : res (sys N * Z) :=
  let real := Z.to_nat (s_real s) in
  if negb (real <=? length (s_atoms s))%nat then Err UB else
  freq <- cluster_sizes real (s_atoms s) ;;
  let '(max, id) := largest_of freq real (s_maxclus s) in
  s <- get_largest_cluster_atoms (s <| s_maxclus := id |>) ;;
  Ok (s, max).

(** core.py:1020-1060, cluster_atoms.  [condition] is the callable, or the
    look-up of the attribute (core.py:1642-1688); [Err] is an exception raised
    in it.  On the first atom any exception and any value but True/False/0/1
    ends in RuntimeError; the values of the other atoms are stored as they
    are. *)
Variable inv : m3 N -> option (m3 N).
Variable raw : Z -> atom N.
Definition test_condition (s : sys N) (condition : atom N -> res Z) : res unit :=
  a <- get (s_atoms s) 0 ;;
  match condition a with
  | Ok v => if Z.eqb v 0 || Z.eqb v 1 then Ok tt else Err RuntimeError
  | Err _ => Err RuntimeError
  end.
Definition set_cond (a : atom N) (v : Z) : atom N := a <| a_cond := v |>.
Definition cluster_atoms (s : sys N) (condition : atom N -> res Z) (cutoff : N)
  : res (sys N * Z) :=
  _ <- test_condition s condition ;;
  l <- get_atoms s ;;
  l <- mapM (fun a => v <- condition a ;; Ok (set_cond a v)) l ;;
  s <- atoms_set inv raw s l ;;
  '(s, _) <- find_clusters_recursive s cutoff ;;
  largest_cluster s.

End Cluster.
