(** Specification vocabulary for the run of LAMMPS behind calculate_energy. *)
From Coq Require Import ZArith List Permutation Ascii String.
From Verif Require Import Base Num Types M_Text M_Formats.
Import ListNotations.
Set Implicit Arguments.
Unset Strict Implicit.
Close Scope Z_scope.
Notation length := List.length.

(** The commands are in this order with none twice; what else is given is
    neither a potential nor a file. *)
Fixpoint in_order {A} (xs l : list A) : Prop :=
  match xs with
  | [] => True
  | x :: xs => exists l1 l2, l = l1 ++ x :: l2 /\ ~ In x l1 /\ ~ In x l2 /\ in_order xs l2
  end.
Definition starts (p t : text) : Prop := exists q, t = p ++ q.
Definition told (outfile pair_style pair_coeff : text) (cmds : list text) : Prop :=
  in_order [tx "units metal"; tx "read_data " ++ outfile; tx "pair_style " ++ pair_style; tx "pair_coeff " ++ pair_coeff;
            tx "compute 1 all pe/atom"; tx "run 0"] cmds /\
  (forall c, In c cmds -> starts (tx "read_") c -> c = tx "read_data " ++ outfile) /\
  (forall c, In c cmds -> starts (tx "pair_style") c -> c = tx "pair_style " ++ pair_style) /\
  (forall c, In c cmds -> starts (tx "pair_coeff") c -> c = tx "pair_coeff " ++ pair_coeff).

(** What is assumed of the two libraries: ASE numbers the atoms of a data file
    from 1 on in their order, and LAMMPS returns the energies of all atoms with
    their numbers, in any order.  [E o k] is the energy of the k-th atom of the
    object [o]. *)
Definition libraries_ok {N : num} (ase_write : text -> ase N -> res text)
    (lmp : text -> list text -> res (nat * (nat -> N) * (nat -> Z))) (cmds : list text) (E : ase N -> nat -> N) : Prop :=
  forall o content, ase_write (tx "lammps-data") o = Ok content ->
  exists eng ids, lmp content cmds = Ok (length (as_positions o), eng, ids) /\
    Permutation (map ids (seq 0 (length (as_positions o)))) (map Z.of_nat (seq 1 (length (as_positions o)))) /\
    forall x, x < length (as_positions o) -> eng x = E o (Z.to_nat (ids x) - 1).
