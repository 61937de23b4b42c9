(** routines.py:13-55 (get_energy_atom) and core.py:1883-1896, the part of
    calculate_energy around it (the rest is M_Energy).  Model only. *)
From Coq Require Import Ascii String.
From Verif Require Import Base Num Types M_Geometry M_Container M_Neighbors M_Energy M_Steinhardt M_Text M_Lammps M_Formats.
Set Implicit Arguments.
Unset Strict Implicit.

Section Routines.
Variable N : num.
Variable T : textnum N.
(** LAMMPS as a library, which can be imported: from the contents of the file
    it reads and the commands it got, the number of atoms and the arrays behind
    the pointers of extract_compute and extract_atom (routines.py:46-49). *)
Variable lmp : text -> list text -> res (nat * (nat -> N) * (nat -> Z)).

(** routines.py:28-45: the commands.  The species are not used. *)
Definition script (outfile pair_style pair_coeff : text) (mass : N) : list text :=
  [tx "echo log"; tx "units metal"; tx "atom_style atomic"; tx "boundary p p p"; (tx "read_data " ++ outfile)%list;
   (tx "pair_style " ++ pair_style)%list; (tx "pair_coeff " ++ pair_coeff)%list; (tx "mass * " ++ f6 T mass)%list;
   tx "compute 1 all pe/atom"; tx "run 0"].

(** dict(zip(ids, eng)), routines.py:53; the keys are texts of integers. *)
Fixpoint zset (d : list (Z * N)) (k : Z) (v : N) : list (Z * N) :=
  match d with
  | [] => [(k, v)]
  | (k', v') :: d => if Z.eqb k' k then (k', v) :: d else (k', v') :: zset d k v
  end.
Definition dict_zip (ids : list Z) (eng : list N) : list (Z * N) :=
  fold_left (fun d p => zset d (fst p) (snd p)) (combine ids eng) [].

(** routines.py:13-55; [content] is what the file holds. *)
Definition get_energy_atom (content outfile : text) (pair_style pair_coeff : option text) (mass : N) : res (list (Z * N)) :=
  match pair_style with
  | None => Err ValueError
  | Some ps =>
      match pair_coeff with
      | None => Err ValueError
      | Some pc =>
          '(natoms, eng, ids) <- lmp content (script outfile ps pc mass) ;;
          Ok (dict_zip (map ids (seq 0 natoms)) (map eng (seq 0 natoms)))
      end
  end.

Variable inv : m3 N -> option (m3 N).
Variable raw : Z -> atom N.
Variable srt : list (datom N) -> list (datom N).
Variable voro : nat -> option (list (nat * N)).
Variable area_pow : N -> N.
Variable npsum : list N -> N.
Variable known : text -> bool.
Variable ase_write : text -> ase N -> res text.
(** core.py:1841-1906.  [outfile] is the new name of 1883, [species] the list of
    names; a text counts as the list of its letters (the default 'Au' is
    [tx "A"; tx "u"]).  The argument mass is not used (1888).  Returned: the
    custom dictionaries, the file left behind if any, and the outcome. *)
Definition energies (outfile : text) (s : sys N) (customs : list (dict text)) (species : option (list text))
    (pair_style pair_coeff : option text) (mass : N) (averaged : bool)
    : list (dict text) * option text * res (sys N * option err * list (N * N)) :=
  match write_ase known ase_write (tx "lammps-data") s customs species with
  | (customs, file, Err e) => (customs, file, Err e)
  | (customs, None, Ok _) => (customs, None, Err IOError) (* not reached *)
  | (customs, Some content, Ok _) =>
      match get_energy_atom content outfile pair_style pair_coeff n1 with
      | Err e => (customs, Some content, Err e)
      | Ok d =>
          match (atoms <- get_atoms s ;; mapM (fun a => lookup d (a_id a)) atoms) with
          | Err e => (customs, Some content, Err e)
          | Ok _ => (customs, None, calculate_energy inv raw srt voro area_pow npsum s d averaged)
          end
      end
  end.
Definition default_species : option (list text) := Some [tx "A"; tx "u"].
End Routines.
