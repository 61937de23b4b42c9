(** core.py:2027-2088, extract_cubic_box.  Model only. *)
From Verif Require Import Base Num Types M_Geometry M_Container.
Set Implicit Arguments.
Unset Strict Implicit.
Local Open Scope num_scope.

Section Cubic.
Variable N : num.
Variable inv : m3 N -> option (m3 N).
Variable raw : Z -> atom N.

(** pos[i] for the index lists of core.py:2048. *)
Definition coord (i : nat) (p : v3 N) : N :=
  match i with O => vx p | S O => vy p | _ => vz p end.
Definition others (count : nat) : nat * nat :=
  match count with O => (1, 2) | S O => (0, 2) | _ => (0, 1) end%nat.

(** core.py:2052-2054: the tests on one atom. *)
Definition aligned (count : nat) (anchor a : atom N) : bool :=
  let '(i, j) := others count in
  (nabs (coord i (a_pos a) - coord i (a_pos anchor)) <? nlit 1 100000)
  && (nabs (coord j (a_pos a) - coord j (a_pos anchor)) <? nlit 1 100000)
  && Z.eqb (a_type a) (a_type anchor).

(** core.py:2049-2058: the nearest aligned atom and its distance. *)
Definition nearest_step (s : sys N) (count : nat) (anchor : atom N)
    (st : N * option (atom N)) (a : atom N) : N * option (atom N) :=
  if aligned count anchor a then
    let dist := abs_distance s (a_pos anchor) (a_pos a) in
    if dist <? fst st then (dist, Some a) else st
  else st.
Definition nearest (s : sys N) (count : nat) (anchor : atom N) (l : list (atom N)) : option (atom N) :=
  snd (fold_left (nearest_step s count anchor) l (nofZ 10000, None)).

(** core.py:2059-2063: the bounds in one direction. *)
Definition bounds (s : sys N) (count : nat) (anchor : atom N) (l : list (atom N)) : res (N * N) :=
  match nearest s count anchor l with
  | None => Err ValueError
  | Some m =>
      Ok (py_min (coord count (a_pos anchor)) (coord count (a_pos m)),
          py_max (coord count (a_pos anchor)) (coord count (a_pos m)))
  end.

(** core.py:2067-2072. *)
Definition between (b : N * N) (x : N) : bool := (fst b <=? x) && (x <? snd b).

(** core.py:2044-2088: the system after the call, the box and the atoms.  The
    atoms of the list are copies, the stored ones are not moved. *)
Definition extract_cubic_box (s : sys N) (reps : Z * Z * Z) : res (sys N * (m3 N * list (atom N))) :=
  '(s, ratoms) <- repeat_cell inv raw s reps None false true ;;
  match ratoms with
  | [] => Err IndexError
  | anchor :: rest =>
      bx <- bounds s 0 anchor rest ;;
      by_ <- bounds s 1 anchor rest ;;
      bz <- bounds s 2 anchor rest ;;
      let l := filter (fun a => between bx (vx (a_pos a)) && between by_ (vy (a_pos a))
                                && between bz (vz (a_pos a))) ratoms in
      let l := map (fun a => a <| a_pos := mkV (vx (a_pos a) - fst bx) (vy (a_pos a) - fst by_)
                                               (vz (a_pos a) - fst bz) |>) l in
      let z := nofZ 0 in
      Ok (s, (mkM (mkV (snd bx - fst bx) z z) (mkV z (snd by_ - fst by_) z)
                  (mkV z z (snd bz - fst bz)), l))
  end.
End Cubic.
