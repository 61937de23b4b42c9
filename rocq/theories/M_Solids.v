(** Solid particles: system.cpp:1658-1753, core.py:828-949.  Model only. *)
From Verif Require Import Base Num Types M_Geometry M_Container M_Neighbors M_Steinhardt M_Cluster.
Set Implicit Arguments.
Unset Strict Implicit.

Section Solids.
Variable N : num.
Open Scope num_scope.

(** system.cpp:1658-1702, get_number_from_bond (both overloads). *)
Definition get_number_from_bond (solidq : Z) (a b : atom N) : res N :=
  '(si, sj, re, im) <-
    foldM (fun st mi =>
        let '(si, sj, re, im) := st in
        rowa <- zget (a_qc a) (solidq - 2) ;; '(ra, ia) <- zget rowa mi ;;
        rowb <- zget (a_qc b) (solidq - 2) ;; '(rb, ib) <- zget rowb mi ;;
        Ok (si + (ra * ra + ia * ia), sj + (rb * rb + ib * ib), re + ra * rb, im + ia * ib))
      (zrange 0 (2 * solidq + 1)) (n0, n0, n0, n0) ;;
  Ok ((re + im) / (nsqrt sj * nsqrt si)).

(** system.cpp:1717-1720.  The [else] belongs to the inner [if]. *)
Definition count_bond (comparecriteria : Z) (threshold scalar : N) (bonds : Z) : Z :=
  if Z.eqb comparecriteria 0 then
    if threshold <? scalar then (bonds + 1)%Z
    else if scalar <? threshold then (bonds + 1)%Z
    else bonds
  else bonds.

(** system.cpp:1704-1729, calculate_frenkel_numbers. *)
Definition frenkel_atom (solidq cc : Z) (threshold : N) (l : list (atom N)) (ti : nat)
  : res (list (atom N)) :=
  a <- get l ti ;;
  '(sij, bonds, avq) <-
    foldM (fun st ce =>
        let '(sij, bonds, avq) := st in
        b <- get l (nb_idx (snd ce)) ;;
        scalar <- get_number_from_bond solidq a b ;;
        sij <- put sij (fst ce) scalar ;;
        Ok (sij, count_bond cc threshold scalar bonds, avq + scalar))
      (combine (seq 0 (length (a_nbrs a))) (a_nbrs a)) (a_sij a, 0%Z, n0) ;;
  Ok (upd ti (fun a => a <| a_sij := sij |> <| a_frenkel := bonds |>
                         <| a_avq := avq / nofZ (Z.of_nat (length (a_nbrs a))) |>) l).
Definition calculate_frenkel_numbers (s : sys N) (solidq cc : Z) (threshold : N) : res (sys N) :=
  l <- foldM (frenkel_atom solidq cc threshold) (seq 0 (Z.to_nat (s_nop s))) (s_atoms s) ;;
  Ok (s <| s_atoms := l |>).

(** system.cpp:1732-1753, find_solid_atoms.  [minfrenkel] is a double. *)
Definition is_solid (criteria cc : Z) (minfrenkel avgthreshold : N) (a : atom N) : bool :=
  let avg := if Z.eqb cc 0 then avgthreshold <? a_avq a else a_avq a <? avgthreshold in
  if Z.eqb criteria 0 then (minfrenkel <? nofZ (a_frenkel a)) && avg
  else if Z.eqb criteria 1 then
    (minfrenkel <? nofZ (a_frenkel a) / nofZ (Z.of_nat (length (a_nbrs a)))) && avg
  else a_solid a.
Definition find_solid_atoms (s : sys N) (criteria cc : Z) (minfrenkel avgthreshold : N)
  : res (sys N) :=
  each_atom (fun a => a <| a_solid := is_solid criteria cc minfrenkel avgthreshold a |>) s.

(** Python numbers as find_solids distinguishes them. *)
Inductive pynum := PyInt (z : Z) | PyFloat (x : N) | PyOther.
Definition to_num (p : pynum) : N :=
  match p with PyInt z => nofZ z | PyFloat x => x | PyOther => n0 end.
Definition unit_interval (p : pynum) : res N :=
  match p with
  | PyOther => Err TypeError
  | _ => if (n0 <=? to_num p) && (to_num p <=? n1) then Ok (to_num p) else Err ValueError
  end.

(** core.py:828-949, find_solids.  [cc] is the attribute comparecriteria (0
    unless the user sets it); the argument [right] is not used by the code.
    The result is the system and the value returned. *)
Variable inv : m3 N -> option (m3 N).
Variable raw : Z -> atom N.
Definition find_solids (s : sys N) (cc : Z) (bonds threshold avgthreshold : pynum)
    (cluster : bool) (q : pynum) (cutoff : N) (right : bool) : res (sys N * option Z) :=
  if negb (s_found s) then Err RuntimeError else
  q <- (match q with
        | PyInt q => if Z.leb 2 q && Z.leb q 12 then Ok q else Err ValueError
        | _ => Err TypeError
        end) ;;
  threshold <- unit_interval threshold ;;
  avgthreshold <- unit_interval avgthreshold ;;
  criteria <- (match bonds with
               | PyInt _ => Ok 0%Z
               | PyFloat x => if (n0 <=? x) && (x <=? n1) then Ok 1%Z else Err TypeError
               | PyOther => Err TypeError
               end) ;;
  s <- calculate_q s [q] ;;
  s <- calculate_frenkel_numbers s q cc threshold ;;
  s <- find_solid_atoms s criteria cc (to_num bonds) avgthreshold ;;
  if cluster then
    '(s, lc) <- cluster_atoms inv raw s (fun a => Ok (Z.b2z (a_solid a))) cutoff ;;
    Ok (s, Some lc)
  else Ok (s, None).

End Solids.
Arguments PyInt {N} _.
Arguments PyFloat {N} _.
Arguments PyOther {N}.
