(** The other file formats: formats/vasp.py:43-115, formats/ase.py:11-143,
    formats/mdtraj.py:10-61, traj_process.py:27-180, core.py:168-218,
    1768-1823, trajectory.py:132-151, 563-583.  Model only.  A file is its
    content; ASE and mdtraj themselves are oracles. *)
From Coq Require Import Ascii String.
From Verif Require Import Base Num Types M_Geometry M_Container M_Steinhardt M_Analysis M_Text M_Lammps M_Traj.
Set Implicit Arguments.
Unset Strict Implicit.
Local Open Scope Z_scope.

(** np.unique of a list of strings: sorted by character codes, a prefix first. *)
Fixpoint tltb (a b : text) : bool :=
  match a, b with
  | [], [] => false
  | [], _ :: _ => true
  | _ :: _, [] => false
  | c :: a, d :: b =>
      if N.ltb (N_of_ascii c) (N_of_ascii d) then true
      else if Ascii.eqb c d then tltb a b else false
  end.
Fixpoint ins_text (t : text) (l : list text) : list text :=
  match l with
  | [] => [t]
  | u :: l => if tltb t u then t :: u :: l else if teqb t u then u :: l else u :: ins_text t l
  end.
Definition unique_text (l : list text) : list text := fold_right ins_text [] l.

Section Formats.
Variable N : num.
Variable T : textnum N.
(** As in M_Lammps: uninitialised memory and np.linalg.inv. *)
Variable raw raw' : Z -> atom N.
Variable inv : m3 N -> option (m3 N).

(** ** formats/vasp.py *)
Definition f14 (x : N) : text := show_float T 14 x.
(** 86-88 and 113. *)
Definition vec_line (indent : text) (v : v3 N) : text :=
  indent ++ f14 (vx v) ++ sp ++ f14 (vy v) ++ sp ++ f14 (vz v) ++ [nl].
(** 97-100: the atoms of each type that occurs. *)
Definition atom_groups (atoms : list (atom N)) (tt : list Z) : list (list (atom N)) :=
  map (fun t => filter (fun a => Z.eqb (a_type a) t) atoms) tt.
(** vasp.py:71-115: the content of the file. *)
Definition write_poscar (s : sys N) (comments : text) : res text :=
  let vecs := box_get s in
  atoms <- get_atoms s ;;
  let u := np_unique (map (@a_type N) atoms) in
  let indent := tx "      " in
  Ok (comments ++ [nl] ++ tx "   1.00000000000000" ++ [nl]
      ++ vec_line indent (r0 vecs) ++ vec_line indent (r1 vecs) ++ vec_line indent (r2 vecs)
      ++ tx "  " ++ concat (map (fun c => show_int (snd c) ++ tx "   ") u) ++ [nl]
      ++ tx "Cartesian" ++ [nl]
      ++ concat (map (fun g => concat (map (fun a => vec_line sp (a_pos a)) g)) (atom_groups atoms (map fst u)))).

(** ** formats/ase.py *)
(** An ase.Atoms object: cell, symbols and positions (pbc is always set). *)
Record ase := mkAse { as_cell : m3 N; as_symbols : list text; as_positions : list (v3 N) }.

(** ase.py:39-56 and mdtraj.py:33-50, the same code in both: types from the
    symbols, ids from 1, stored index from 0. *)
Definition species_key : text := tx "species".
Definition typedict (symbols : list text) : dict Z :=
  let u := unique_text symbols in
  fold_left (fun d p => dset d (fst p) (snd p)) (combine u (map (fun i => Z.of_nat i + 1) (seq 0 (length u)))) [].
Definition symbol_atom (symbols : list text) (d : dict Z) (count : nat) (p : v3 N) : res (catom N) :=
  c <- py_get symbols (Z.of_nat count) ;; t <- dref d c ;;
  Ok (atom_ctor (raw (Z.of_nat count)) (mkV n0 n0 n0) 0 0
        <| a_pos := p |> <| a_id := Z.of_nat count + 1 |> <| a_type := t |> <| a_loc := Z.of_nat count |>,
      [(species_key, c)]).
Definition symbol_atoms (symbols : list text) (positions : list (v3 N)) : res (list (catom N)) :=
  let d := typedict symbols in
  mapM (fun p => symbol_atom symbols d (fst p) (snd p)) (combine (seq 0 (length positions)) positions).
(** ase.py:11-58 for an Atoms object. *)
Definition ase_read_snap (o : ase) : res (list (catom N) * m3 N) :=
  l <- symbol_atoms (as_symbols o) (as_positions o) ;; Ok (l, as_cell o).

(** ase.Atom(symbol, ...) raises KeyError for an unknown symbol. *)
Variable known : text -> bool.
(** ase.py:110-112.  The dictionaries are shared with the atoms stored in the
    system: what is written here stays there.  Two atoms are taken not to share
    a dictionary, and what was written before an exception is not kept. *)
Definition assign_species (species : list text) (atoms : list (catom N)) : res (list (catom N)) :=
  mapM (fun a => v <- py_get species (a_type (fst a) - 1) ;; Ok (fst a, dset (snd a) species_key v)) atoms.
(** ase.py:121-126: the species of the first atom of each type. *)
Definition first_species (atoms : list (catom N)) (ut : Z) : res (list text) :=
  match filter (fun a => Z.eqb ut (a_type (fst a))) atoms with
  | [] => Ok []
  | a :: _ => v <- dref (snd a) species_key ;; Ok [v]
  end.
(** ase.py:66-143: the dictionaries afterwards and the ASE object. *)
Definition convert_snap (s : sys N) (customs : list (dict text)) (species : option (list text))
    : res (list (dict text) * ase) :=
  l <- get_atoms s ;;
  let atoms := combine l customs in
  let unique_types := map fst (np_unique (map (fun a : catom N => a_type (fst a)) atoms)) in
  match atoms with
  | [] => Err IndexError
  | a0 :: _ =>
      atoms <-
        (if negb (dmem (snd a0) species_key) then
           match species with
           | None => Err ValueError
           | Some species =>
               if negb (Nat.eqb (length unique_types) (length species)) then Err ValueError
               else assign_species species atoms
           end
         else
           _ <- mapM (first_species atoms) unique_types ;; Ok atoms) ;;
      symbols <- mapM (fun a : catom N => v <- dref (snd a) species_key ;; if known v then Ok v else Err KeyError) atoms ;;
      Ok (map snd atoms, mkAse (box_get s) symbols (map (fun a : catom N => a_pos (fst a)) atoms))
  end.

(** ** formats/mdtraj.py *)
(** An mdtraj.Trajectory: cells and positions by frame, names of the atoms. *)
Record mdtraj := mkMd { md_cells : list (m3 N); md_names : list text; md_xyz : list (list (v3 N)) }.
(** mdtraj.py:10-52: the first frame. *)
Definition md_read_snap (o : mdtraj) : res (list (catom N) * m3 N) :=
  box <- py_get (md_cells o) 0 ;;
  xyz <- py_get (md_xyz o) 0 ;;
  l <- symbol_atoms (md_names o) xyz ;; Ok (l, box).

(** ** traj_process.py *)
(** What a user passes as file name: the file or lines, or an object. *)
Inductive source := SFile (content : text) | SLines (l : list text) | SAse (o : ase) | SMd (o : mdtraj).
(** ase.io.read and ase.io.write by format ([None]: guessed). *)
Variable ase_read : option text -> source -> res ase.
Variable ase_write : text -> ase -> res text.
(** warnings.info: the module has no such attribute. *)
Definition warnings_info : res unit := Err AttributeError.
(** A bare except clause that raises another exception. *)
Definition except {A} (r : res A) (e : err) : res A := match r with Ok a => Ok a | Err _ => Err e end.

(** traj_process.py:27-72. *)
Definition read_file (format : text) (customkeys : list text) (f : source) : res (list (catom N) * m3 N) :=
  if teqb format (tx "lammps-dump") then
    '(atoms, box, _) <- match f with
                        | SFile c => read_snap T raw inv customkeys c
                        | SLines l => read_lines T raw inv customkeys l
                        | _ => Err TypeError
                        end ;;
    Ok (atoms, box)
  else if teqb format (tx "ase") then
    o <- match f with SAse o => Ok o | _ => ase_read None f end ;; ase_read_snap o
  else if teqb format (tx "mdtraj") then
    match f with SMd o => md_read_snap o | _ => Err AttributeError end
  else if teqb format (tx "poscar") then
    o <- ase_read (Some (tx "vasp")) f ;; ase_read_snap o
  else
    except (o <- ase_read (Some format) f ;; r <- ase_read_snap o ;; _ <- warnings_info ;; Ok r) TypeError.
(** core.py:168-218. *)
Definition read_inputfile_as (s : sys N) (format : text) (customkeys : list text) (f : source) : res (sys N * list (dict text)) :=
  '(atoms, box) <- read_file format customkeys f ;;
  s <- box_set inv s box ;;
  s <- atoms_set inv raw' s (map fst atoms) ;;
  Ok (s, map snd atoms).

(** As in M_Lammps: values of custom columns. *)
Variable V : Type.
Variable astype : list V -> list text.
Variable of_text : text -> V.
Variable of_num : N -> V.
Variable getattr : atom N -> text -> option V.
(** traj_process.py:74-133 (and core.py:1768-1823): the dictionaries
    afterwards, the file written if any, and the outcome. *)
Definition wrote := (list (dict text) * option text * res unit)%type.
Definition write_ase (format : text) (s : sys N) (customs : list (dict text)) (species : option (list text)) : wrote :=
  match convert_snap s customs species with
  | Err e => (customs, None, Err e)
  | Ok (customs, o) =>
      match ase_write format o with
      | Err e => (customs, None, Err e)
      | Ok t => (customs, Some t, Ok tt)
      end
  end.
Definition write_text (customs : list (dict text)) (r : res text) : wrote :=
  match r with Ok t => (customs, Some t, Ok tt) | Err e => (customs, None, Err e) end.
Definition write_file (format : text) (s : sys N) (customs : list (dict text)) (keys : list text)
    (vals : option (list (list V))) (timestep : Z) (species : option (list text)) : wrote :=
  if teqb format (tx "lammps-dump") then
    write_text customs (write_snap T astype of_text of_num getattr s customs keys vals timestep)
  else if teqb format (tx "lammps-data") then write_ase format s customs species
  else if teqb format (tx "poscar") then
    (* vasp.py:43-62 *)
    match species with
    | None => write_text customs (write_poscar s (tx "pyscal"))
    | Some _ => write_ase (tx "vasp") s customs species
    end
  else
    match write_ase format s customs species with
    | (customs, t, r) => (customs, t, except (_ <- r ;; warnings_info) TypeError)
    end.

(** traj_process.py:136-180; the file exists. *)
Definition split_trajectory (format infile content : text) : res (list (text * text)) :=
  if teqb format (tx "lammps-dump") then split_snaps infile content
  else if teqb format (tx "ase") || teqb format (tx "mdtraj") || teqb format (tx "poscar") then Err NotImplementedError
  else Err TypeError.

(** trajectory.py:563-583 and 132-151, with a new System object [s0]. *)
Definition block_as_ase (s0 : sys N) (t : traj N) (blockno : Z) (species : option (list text)) : res ase :=
  data <- get_block t blockno ;;
  '(s, customs) <- read_inputfile T raw raw' inv s0 [] data ;;
  r <- convert_snap s customs species ;; Ok (snd r).
Definition slice_to_ase (s0 : sys N) (env : list (traj N)) (sl : tslice) (species : option (list text)) : res (list ase) :=
  l <- mapM (fun p => t <- at_ (snd p) env ;; bl <- at_ (fst p) (sl_blocks sl) ;; mapM (fun x => block_as_ase s0 t x species) bl)
         (combine (seq 0 (length (sl_trajs sl))) (sl_trajs sl)) ;;
  Ok (concat l).
End Formats.
