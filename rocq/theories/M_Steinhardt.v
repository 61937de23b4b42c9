(** Steinhardt's parameters: system.cpp:1304-1588, atom.cpp:225-314,
    core.py:318-359 and 736-825.  Model only. *)
From Verif Require Import Base Num Types M_Geometry M_Container M_Neighbors.
Set Implicit Arguments.
Unset Strict Implicit.

(** Array access with an int index. *)
Definition zget {A} (l : list A) (i : Z) : res A :=
  if Z.ltb i 0 then Err UB else get l (Z.to_nat i).
Definition zput {A} (l : list A) (i : Z) (a : A) : res (list A) :=
  if Z.ltb i 0 then Err UB else put l (Z.to_nat i) a.

Section Steinhardt.
Variable N : num.
Open Scope num_scope.

(** const double PI, atom.h:20. *)
Definition pi_lit : N := nlit 3141592653589793 1000000000000000.

(** system.cpp:1304-1311. *)
Definition dfactorial (l m : Z) : N :=
  n1 / fold_left (fun fac i => fac * nofZ (l + m - i)) (zrange 0 (2 * m)) n1.

(** system.cpp:1340-1372, PLM.  The message on cerr for an impossible
    combination has no effect on the value. *)
Definition plm_pmm (m : Z) (x : N) : N :=
  if Z.ltb 0 m then
    let somx2 := nsqrt ((n1 - x) * (n1 + x)) in
    fst (fold_left (fun pf _ => let '(pmm, fact) := pf in
                      (pmm * ((- fact) * somx2), fact + n2))
                   (zrange 1 (m + 1)) (n1, n1))
  else n1.
Definition PLM (l m : Z) (x : N) : N :=
  let pmm := plm_pmm m x in
  if Z.eqb l m then pmm
  else
    let pmmp1 := x * nofZ (2 * m + 1) * pmm in
    if Z.eqb l (m + 1) then pmmp1
    else
      let '(_, _, pll) :=
        fold_left (fun st ll => let '(pmm, pmmp1, _) := st in
                     let pll := (x * nofZ (2 * ll - 1) * pmmp1 - nofZ (ll + m - 1) * pmm)
                                / nofZ (ll - m) in
                     (pmmp1, pll, pll))
                  (zrange (m + 2) (l + 1)) (pmm, pmmp1, n0) in
      pll.

(** system.cpp:1374-1378: (phi, theta) of a vector. *)
Definition spherical (v : v3 N) : N * N :=
  let r := norm v in (natan2 (vy v) (vx v), nacos (vz v / r)).

(** system.cpp:1381-1389. *)
Definition YLM (l m : Z) (theta phi : N) : N * N :=
  let p := PLM l m (ncos theta) in
  let factor := (n2 * nofZ l + n1) / (nofZ 4 * pi_lit) * dfactorial l m in
  (nsqrt factor * p * ncos (nofZ m * phi), nsqrt factor * p * nsin (nofZ m * phi)).

(** system.cpp:1392-1404.  pow(-1.0, m) is the parity sign. *)
Definition QLM (l m : Z) (theta phi : N) : N * N :=
  if Z.ltb m 0 then
    let '(re, im) := YLM l (Z.abs m) theta phi in
    let sg := if Z.even m then nofZ 1 else nofZ (-1) in
    (sg * re, sg * im)
  else YLM l m theta phi.

(** system.cpp:1474-1481: one neighbour of the innermost loop; neighbours
    whose condition differs are skipped. *)
Definition qlm_step (l : list (atom N)) (a : atom N) (q mi : Z) (acc : N * N * N) (e : nbr N)
  : res (N * N * N) :=
  b <- get l (nb_idx e) ;;
  if negb (Z.eqb (a_cond a) (a_cond b)) then Ok acc
  else
    let '(re, im, w) := acc in
    let '(phi, theta) := spherical (nb_vec e) in
    let '(yr, yi) := QLM q mi theta phi in
    Ok (re + nb_weight e * yr, im + nb_weight e * yi, w + nb_weight e).

(** system.cpp:1471-1488.  The divisor is cast to float; the cast is not
    modelled. *)
Definition qlm_atom (vorused : bool) (l : list (atom N)) (a : atom N) (q mi : Z)
  : res (N * N) :=
  '(re, im, w) <- foldM (qlm_step l a q mi) (a_nbrs a) (nofZ 0, nofZ 0, nofZ 0) ;;
  Ok (if vorused then (re, im) else (re / w, im / w)).

(** realq[q-2][k] and imgq[q-2][k]. *)
Definition put2 {A} (qc : list (list A)) (i j : Z) (v : A) : res (list (list A)) :=
  row <- zget qc i ;; row' <- zput row j v ;; zput qc i row'.

(** system.cpp:1466-1503, one q of one atom. *)
Definition four_pi_over (q : Z) : N := nofZ 4 * pi_lit / nofZ (2 * q + 1).
Definition q_atom (vorused : bool) (ti : nat) (l : list (atom N)) (q : Z)
  : res (list (atom N)) :=
  '(l, summ) <- foldM (fun st mi => let '(l, summ) := st in
        a <- get l ti ;;
        '(re, im) <- qlm_atom vorused l a q mi ;;
        qc <- put2 (a_qc a) (q - 2) (mi + q) (re, im) ;;
        Ok (upd ti (fun a => a <| a_qc := qc |>) l, summ + (re * re + im * im)))
      (zrange (- q) (q + 1)) (l, nofZ 0) ;;
  a <- get l ti ;;
  qs <- zput (a_q a) (q - 2) (nsqrt (four_pi_over q * summ)) ;;
  Ok (upd ti (fun a => a <| a_q := qs |>) l).

(** system.cpp:1437-1511. *)
Definition calculate_q (s : sys N) (qs : list Z) : res (sys N) :=
  l <- foldM (fun l ti => foldM (q_atom (s_vorused s) ti) qs l)
             (seq 0 (Z.to_nat (s_nop s))) (s_atoms s) ;;
  Ok (s <| s_atoms := l |>).

(** system.cpp:1537-1544: the sum over the neighbours of one component. *)
Definition aqlm_step (l : list (atom N)) (a : atom N) (q mi : Z) (acc : N * N * Z) (e : nbr N)
  : res (N * N * Z) :=
  b <- get l (nb_idx e) ;;
  if negb (Z.eqb (a_cond a) (a_cond b)) then Ok acc
  else
    let '(re, im, k) := acc in
    row <- zget (a_qc b) (q - 2) ;;
    '(x, y) <- zget row mi ;;
    Ok (re + x, im + y, (k + 1)%Z).
Definition aqlm_atom (l : list (atom N)) (a : atom N) (q mi : Z) : res (N * N) :=
  row <- zget (a_qc a) (q - 2) ;;
  '(x, y) <- zget row mi ;;
  '(re, im, k) <- foldM (aqlm_step l a q mi) (a_nbrs a) (x, y, 0%Z) ;;
  Ok (re / nofZ (k + 1), im / nofZ (k + 1)).

(** system.cpp:1528-1563. *)
Definition aq_atom (ti : nat) (l : list (atom N)) (q : Z) : res (list (atom N)) :=
  '(l, summ) <- foldM (fun st mi => let '(l, summ) := st in
        a <- get l ti ;;
        '(re, im) <- aqlm_atom l a q mi ;;
        qc <- put2 (a_aqc a) (q - 2) mi (re, im) ;;
        Ok (upd ti (fun a => a <| a_aqc := qc |>) l, summ + (re * re + im * im)))
      (zrange 0 (2 * q + 1)) (l, nofZ 0) ;;
  a <- get l ti ;;
  qs <- zput (a_aq a) (q - 2) (nsqrt (four_pi_over q * summ)) ;;
  Ok (upd ti (fun a => a <| a_aq := qs |>) l).

(** system.cpp:1515-1568. *)
Definition calculate_aq (s : sys N) (qs : list Z) : res (sys N) :=
  l <- foldM (fun l ti => foldM (aq_atom ti) qs l)
             (seq 0 (Z.to_nat (s_nop s))) (s_atoms s) ;;
  Ok (s <| s_atoms := l |>).

(** system.cpp:1570-1588, gqvals and gaqvals. *)
Definition gqvals (s : sys N) (averaged : bool) (q : Z) : res (list N) :=
  mapM (fun i => a <- get (s_atoms s) i ;;
                 zget (if averaged then a_aq a else a_q a) (q - 2))
       (seq 0 (Z.to_nat (s_real s))).

(** [q in range(2, 13)], core.py:343, 352 and 779. *)
Definition q_ok (q : Z) : bool := Z.leb 2 q && Z.ltb q 13.

(** core.py:342-359, get_qvals with an int or a list. *)
Definition get_qvals1 (s : sys N) (q : Z) (averaged : bool) : res (list N) :=
  if q_ok q then gqvals s averaged q else Err ValueError.
Definition get_qvals (s : sys N) (qs : list Z) (averaged : bool) : res (list (list N)) :=
  if forallb q_ok qs then mapM (gqvals s averaged) qs else Err ValueError.

(** core.py:774-825, System.calculate_q.  [qs] is the list made of an int or
    the list given.  [condition] is the function that gives an atom its
    condition value (the trial call on the first atom, core.py:786-800, is not
    modelled); the atoms setter is called with the changed atoms. *)
Variable inv : m3 N -> option (m3 N).
Variable raw : Z -> atom N.
Definition set_condition (f : atom N -> Z) (s : sys N) : res (sys N) :=
  l <- get_atoms s ;;
  atoms_set inv raw s (map (fun a => a <| a_cond := f a |>) l).
Definition py_calculate_q (s : sys N) (qs : list Z) (averaged only_averaged : bool)
    (condition : option (atom N -> Z)) (clear_condition : bool) : res (sys N) :=
  if forallb q_ok qs then
    s <- (match condition with Some f => set_condition f s | None => Ok s end) ;;
    s <- (if clear_condition then set_condition (fun _ => 0%Z) s else Ok s) ;;
    s <- (if only_averaged then Ok s else calculate_q s qs) ;;
    if averaged || only_averaged then calculate_aq s qs else Ok s
  else Err ValueError.

(** atom.cpp:230-247 and 250-295, get_q and set_q with an int or lists; the
    checks are made one value at a time, so a list with a wrong value in it is
    stored up to that value before the exception.  [setvals[i]] beyond the
    end is outside the vector. *)
Definition q_range (q : Z) : bool := negb (Z.ltb q 2 || Z.ltb 12 q).
Definition atom_get_q (a : atom N) (q : Z) (averaged : bool) : res N :=
  if q_range q then zget (if averaged then a_aq a else a_q a) (q - 2) else Err ValueError.
Definition atom_get_qs (a : atom N) (qs : list Z) (averaged : bool) : res (list N) :=
  mapM (fun q => atom_get_q a q averaged) qs.
Definition atom_put_q (a : atom N) (q : Z) (v : N) (averaged : bool) : res (atom N) :=
  if averaged then l <- zput (a_aq a) (q - 2) v ;; Ok (a <| a_aq := l |>)
  else l <- zput (a_q a) (q - 2) v ;; Ok (a <| a_q := l |>).
Definition atom_set_q (a : atom N) (q : Z) (v : N) (averaged : bool) : res (atom N) :=
  if q_range q then atom_put_q a q v averaged else Err ValueError.
(** The atom after the call and the exception it raised, if any. *)
Fixpoint atom_set_qs (a : atom N) (qs : list Z) (vs : list N) (averaged : bool)
  : res (atom N * option err) :=
  match qs with
  | [] => Ok (a, None)
  | q :: qs =>
      if q_range q then
        match vs with
        | [] => Err UB
        | v :: vs => a <- atom_put_q a q v averaged ;; atom_set_qs a qs vs averaged
        end
      else Ok (a, Some ValueError)
  end.

(** atom.cpp:297-314, get_qcomps; no range check. *)
Definition get_qcomps (a : atom N) (q : Z) (averaged : bool) : res (list (N * N)) :=
  row <- zget (if averaged then a_aqc a else a_qc a) (q - 2) ;;
  mapM (zget row) (zrange 0 (2 * q + 1)).

End Steinhardt.
