(** core.py:1841-1906, calculate_energy.  Model only.  The members energy and
    avg_energy of the atoms (atom.h:242-243) are kept in a list beside the
    system, one pair per stored atom.  Writing the file and running LAMMPS
    (core.py:1883-1888 and routines.py) give the dictionary [eng] from ids to
    energies, an input here. *)
From Verif Require Import Base Num Types M_Geometry M_Container M_Neighbors.
Set Implicit Arguments.
Unset Strict Implicit.
Local Open Scope num_scope.

Section Energy.
Variable N : num.
Variable inv : m3 N -> option (m3 N).
Variable raw : Z -> atom N.
Variable srt : list (datom N) -> list (datom N).
Variable voro : nat -> option (list (nat * N)).
Variable area_pow : N -> N.
(** np.sum *)
Variable npsum : list N -> N.

(** indict[str(atom.id)], core.py:1893; the keys are compared as the texts of
    integers, so as integers. *)
Fixpoint lookup (eng : list (Z * N)) (id : Z) : res N :=
  match eng with
  | [] => Err KeyError
  | (i, e) :: eng => if Z.eqb i id then Ok e else lookup eng id
  end.

(** core.py:1902-1904, for the atom with energy [e]; [es] are the energies of
    the atoms of the list.  Lists raise IndexError outside their range. *)
Definition energy_at (es : list N) (x : nat) : res N :=
  match nth_error es x with Some e => Ok e | None => Err IndexError end.
Definition avg_energy (es : list N) (a : atom N) (e : N) : res N :=
  l <- mapM (fun b => energy_at es (nb_idx b)) (a_nbrs a) ;;
  Ok ((npsum l + e) / (nofZ (Z.of_nat (length (a_nbrs a))) + n1)).

(** core.py:1890-1906.  The copies in [atoms] are made before the search for
    neighbours; the second loop is not under [averaged].  The result is the
    system, the exception, and energy and averaged energy of the atoms. *)
Definition calculate_energy (s : sys N) (eng : list (Z * N)) (averaged : bool)
    : res (sys N * option err * list (N * N)) :=
  atoms <- get_atoms s ;;
  es <- mapM (fun a => lookup eng (a_id a)) atoms ;;
  '(s, e) <- (if averaged && negb (s_found s) then
                find_neighbors srt voro area_pow inv s
                  (mkArgs (MCutoff (CutVal (nofZ 0))) FNone (nofZ 2) (nlit 6 5) 6%Z)
              else Ok (s, None)) ;;
  match e with
  | Some _ => Ok (s, e, [])
  | None =>
      avs <- mapM (fun p => avg_energy es (fst p) (snd p)) (combine atoms es) ;;
      s <- atoms_set inv raw s atoms ;;
      Ok (s, None, combine es avs)
  end.
End Energy.
