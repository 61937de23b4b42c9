(** LAMMPS dump files: formats/lammps.py, traj_process.py:27-180 (the
    lammps-dump branches), core.py:168-218, 1642-1688, 1768-1823.  Model only.
    A file is its content; gzip is taken to return what was compressed. *)
From Coq Require Import Ascii String.
From Verif Require Import Base Num Types M_Geometry M_Container M_Steinhardt M_Analysis M_Text.
Set Implicit Arguments.
Unset Strict Implicit.
Local Open Scope Z_scope.

Section Lammps.
Variable N : num.
Variable T : textnum N.
(** Uninitialised memory of the new Atom objects, by position in the file. *)
Variable raw : Z -> atom N.
(** Uninitialised memory of the images the atoms setter creates, by id. *)
Variable raw' : Z -> atom N.
(** np.linalg.inv. *)
Variable inv : m3 N -> option (m3 N).

(** The dictionary atom.custom is kept beside the atom. *)
Definition catom := (atom N * dict text)%type.

(** ** Reading *)
(** The variables of read_snap, lammps.py:85-96.  [None]: not assigned yet. *)
Record rstate := mkR {
  r_read : bool;                      (* paramsread *)
  r_nblock : Z;
  r_bx : option (N * N); r_by : option (N * N); r_bz : option (N * N);
  r_xy : option N; r_xz : option N;
  r_tilts : option (N * N * N);       (* set together with triclinic *)
  r_header : dict Z;
  r_scaled : option bool;
  r_atoms : list catom                (* in reverse order *)
}.
Definition r_init : rstate := mkR false 0 None None None None None None [] None [].

(** 105-121: a line of the box; the first two fields and the third if there
    are exactly three. *)
Definition box_line (line : text) : res (N * N * option N) :=
  let w := words line in
  w0 <- py_get w 0 ;; lo <- parse_float T w0 ;;
  w1 <- py_get w 1 ;; hi <- parse_float T w1 ;;
  if Nat.eqb (length w) 3 then w2 <- py_get w 2 ;; t <- parse_float T w2 ;; Ok (lo, hi, Some t)
  else Ok (lo, hi, None).
Definition the {A} (o : option A) : res A := match o with Some a => Ok a | None => Err NameError end.

(** 126-141: the header line. *)
Definition header_of (w : list text) : dict Z :=
  fold_left (fun d p => dset d (fst p) (snd p - 2)) (combine w (map Z.of_nat (seq 0 (length w)))) [].
Definition pop_as (d : dict Z) (old new : text) : res (dict Z) :=
  v <- dref d old ;; Ok (dset (ddel d old) new v).
Definition header_line (customkeys : list text) (line : text) : res (dict Z * bool) :=
  let d := header_of (words line) in
  if negb (Nat.eqb (length customkeys) 0) && negb (forallb (dmem d) customkeys) then Err KeyError
  else if dmem d (tx "x") then Ok (d, false)
  else if dmem d (tx "xs") then
    d <- pop_as d (tx "xs") (tx "x") ;; d <- pop_as d (tx "ys") (tx "y") ;;
    d <- pop_as d (tx "zs") (tx "z") ;; Ok (d, true)
  else Err ValueError.

(** 147-167: one atom; [count] is the number of the line. *)
Definition atom_line (customkeys : list text) (d : dict Z) (count : Z) (line : text) : res catom :=
  let w := words line in
  let field k := i <- dref d k ;; py_get w i in
  wi <- field (tx "id") ;; idd <- parse_int wi ;;
  wt <- field (tx "type") ;; typ <- parse_int wt ;;
  wx <- field (tx "x") ;; x <- parse_float T wx ;;
  wy <- field (tx "y") ;; y <- parse_float T wy ;;
  wz <- field (tx "z") ;; z <- parse_float T wz ;;
  custom <- foldM (fun c k => v <- field k ;; Ok (dset c k v)) customkeys [] ;;
  Ok (atom_ctor (raw (count - 9)) (mkV n0 n0 n0) 0 0
        <| a_pos := mkV x y z |> <| a_id := idd |> <| a_type := typ |> <| a_loc := count - 8 |>, custom).

(** 97-167: the loop.  [Some]: go on, [None]: break. *)
Definition read_line (customkeys : list text) (st : rstate) (count : Z) (line : text) : res (option rstate) :=
  let '(mkR rd nb bx by_ bz xy xz ti hd sc at_) := st in
  if negb rd then
    if Z.eqb count 3 then
      natoms <- parse_int (strip line) ;; Ok (Some (mkR rd (natoms + 9) bx by_ bz xy xz ti hd sc at_))
    else if Z.eqb count 5 then
      '(lo, hi, t) <- box_line line ;;
      Ok (Some (mkR rd nb (Some (lo, hi)) by_ bz (match t with Some _ => t | None => xy end) xz ti hd sc at_))
    else if Z.eqb count 6 then
      '(lo, hi, t) <- box_line line ;;
      Ok (Some (mkR rd nb bx (Some (lo, hi)) bz xy (match t with Some _ => t | None => xz end) ti hd sc at_))
    else if Z.eqb count 7 then
      '(lo, hi, t) <- box_line line ;;
      match t with
      | Some yz =>
          xy' <- the xy ;; xz' <- the xz ;;
          Ok (Some (mkR rd nb bx by_ (Some (lo, hi)) xy xz (Some (xy', xz', yz)) hd sc at_))
      | None => Ok (Some (mkR rd nb bx by_ (Some (lo, hi)) xy xz ti hd sc at_))
      end
    else if Z.eqb count 8 then
      '(d, s) <- header_line customkeys line ;;
      Ok (Some (mkR true nb bx by_ bz xy xz ti d (Some s) at_))
    else Ok (Some st)
  else if Z.eqb count nb then Ok None
  else
    a <- atom_line customkeys hd count line ;;
    Ok (Some (mkR rd nb bx by_ bz xy xz ti hd sc (a :: at_))).
Fixpoint read_loop (customkeys : list text) (st : rstate) (count : Z) (f : list text) : res rstate :=
  match f with
  | [] => Ok st
  | line :: f =>
      o <- read_line customkeys st count line ;;
      match o with Some st => read_loop customkeys st (count + 1) f | None => Ok st end
  end.

(** Python's min and max of a list. *)
Definition pymin (a : N) (l : list N) : N := fold_left (fun m x => if nltb x m then x else m) l a.
Definition pymax (a : N) (l : list N) : N := fold_left (fun m x => if nltb m x then x else m) l a.

Definition move (f : v3 N -> v3 N) (a : catom) : catom := (fst a <| a_pos := f (a_pos (fst a)) |>, snd a).

(** 173-215: box and positions. *)
Definition read_end (st : rstate) : res (list catom * m3 N * bool) :=
  let atoms := rev (r_atoms st) in
  '(atoms, box) <-
    match r_tilts st with
    | Some (xy, xz, yz) =>
        let amin := pymin n0 [xy; xz; nadd xy xz] in
        let amax := pymax n0 [xy; xz; nadd xy xz] in
        let bmin := pymin n0 [yz] in
        let bmax := pymax n0 [yz] in
        '(bx0, bx1) <- the (r_bx st) ;; '(by0, by1) <- the (r_by st) ;; '(bz0, bz1) <- the (r_bz st) ;;
        let xlo := nsub bx0 amin in let xhi := nsub bx1 amax in
        let ylo := nsub by0 bmin in let yhi := nsub by1 bmax in
        let box := mkM (mkV (nsub xhi xlo) n0 n0) (mkV xy (nsub yhi ylo) n0) (mkV xz yz (nsub bz1 bz0)) in
        match inv (mtrans box) with
        | None => Err ValueError
        | Some _ =>
            Ok (map (move (fun p => mkV (nsub (vx p) bx0) (nsub (vy p) by0) (nsub (vz p) bz0))) atoms, box)
        end
    | None =>
        '(bx0, bx1) <- the (r_bx st) ;; '(by0, by1) <- the (r_by st) ;; '(bz0, bz1) <- the (r_bz st) ;;
        Ok (atoms, mkM (mkV (nsub bx1 bx0) n0 n0) (mkV n0 (nsub by1 by0) n0) (mkV n0 n0 (nsub bz1 bz0)))
    end ;;
  scaled <- the (r_scaled st) ;;
  let atoms :=
    if (scaled : bool) then
      map (move (fun p => vadd (vadd (vscale (vx p) (r0 box)) (vscale (vy p) (r1 box))) (vscale (vz p) (r2 box)))) atoms
    else atoms in
  Ok (atoms, box, match r_tilts st with Some _ => true | None => false end).

(** lammps.py:10-215 with check_triclinic=True; the input is a list of lines or
    the content of a file, opened in text mode. *)
Definition read_lines (customkeys : list text) (f : list text) : res (list catom * m3 N * bool) :=
  st <- read_loop customkeys r_init 0 f ;; read_end st.
Definition read_snap (customkeys : list text) (content : text) : res (list catom * m3 N * bool) :=
  read_lines customkeys (lines (univ content)).

(** core.py:168-218, read_inputfile with traj_process.py:56-57: the box is set
    before the atoms.  The custom dictionaries are returned beside the system. *)
Definition read_inputfile (s : sys N) (customkeys : list text) (f : list text) : res (sys N * list (dict text)) :=
  '(atoms, box, _) <- read_lines customkeys f ;;
  s <- box_set inv s box ;;
  s <- atoms_set inv raw' s (map fst atoms) ;;
  Ok (s, map snd atoms).

(** ** Writing *)
(** Values of custom columns: an arbitrary type, with the conversion
    np.array(list(...)).astype(str) of a row. *)
Variable V : Type.
Variable astype : list V -> list text.
Variable of_text : text -> V.
Variable of_num : N -> V.
(** getattr(atom, key): [None] is AttributeError. *)
Variable getattr : atom N -> text -> option V.

(** core.py:1642-1688, get_custom.  An empty key is an IndexError. *)
Definition get_custom1 (a : catom) (k : text) : res V :=
  match dget (snd a) k with
  | Some v => Ok (of_text v)
  | None =>
      match getattr (fst a) k with
      | Some v => Ok v
      | None =>
          match k with
          | [] => Err IndexError
          | c :: k' =>
              if Ascii.eqb c "q"%char then
                q <- parse_int k' ;; v <- atom_get_q (fst a) q false ;; Ok (of_num v)
              else match k with
                   | c :: d :: k'' =>
                       if Ascii.eqb c "a"%char && Ascii.eqb d "q"%char then
                         q <- parse_int k'' ;; v <- atom_get_q (fst a) q true ;; Ok (of_num v)
                       else Err AttributeError
                   | _ => Err AttributeError
                   end
          end
      end
  end.
Definition get_custom (a : catom) (keys : list text) : res (list V) := mapM (get_custom1 a) keys.

(** 259-269: the custom values.  The shape of [customvals] is compared with
    (natoms, ncustomkeys); with no atoms np.array([]) has the wrong shape. *)
Definition custom_rows (atoms : list catom) (keys : list text) (vals : option (list (list V))) : res (list (list V)) :=
  match keys with
  | [] => Ok []
  | _ =>
      match vals with
      | None => mapM (fun a => get_custom a keys) atoms
      | Some rows =>
          if Nat.eqb (length rows) (length atoms) && forallb (fun r => Nat.eqb (length r) (length keys)) rows
             && negb (Nat.eqb (length rows) 0)
          then Ok rows else Err ValueError
      end
  end.

Definition sp : text := tx " ".
Definition f6 (x : N) : text := show_float T 6 x.
(** 303-307: the line of an atom. *)
Definition out_atom (keys : list text) (row : list V) (a : atom N) : text :=
  let p := a_pos a in
  let base := show_int (a_id a) ++ sp ++ show_int (a_type a) ++ sp ++ f6 (vx p) ++ sp ++ f6 (vy p) ++ sp ++ f6 (vz p) in
  match keys with
  | [] => base ++ [nl]
  | _ => base ++ sp ++ join sp (astype row) ++ [nl]
  end.
Fixpoint out_atoms (keys : list text) (rows : list (list V)) (atoms : list catom) : res (list text) :=
  match atoms with
  | [] => Ok []
  | a :: atoms =>
      '(row, rows) <- match keys, rows with
                      | [], _ => Ok ([], rows)
                      | _, r :: rows => Ok (r, rows)
                      | _, [] => Err IndexError
                      end ;;
      l <- out_atoms keys rows atoms ;;
      Ok (out_atom keys row (fst a) :: l)
  end.

(** 252-255: np.sqrt(np.sum(np.array(v)**2)). *)
Definition vlen (v : v3 N) : N := nsqrt (nadd (nadd (nmul (vx v) (vx v)) (nmul (vy v) (vy v))) (nmul (vz v) (vz v))).

(** lammps.py:217-312.  [customs] are the custom dictionaries of the atoms.
    The result is the content of the file. *)
Definition write_snap (s : sys N) (customs : list (dict text)) (keys : list text) (vals : option (list (list V)))
    (timestep : Z) : res text :=
  let box := box_get s in
  l <- get_atoms s ;;
  let atoms := combine l customs in
  rows <- custom_rows atoms keys vals ;;
  body <- out_atoms keys rows atoms ;;
  let bound v := f6 n0 ++ sp ++ f6 (vlen v) ++ [nl] in
  Ok (tx "ITEM: TIMESTEP" ++ [nl] ++ show_int timestep ++ [nl]
      ++ tx "ITEM: NUMBER OF ATOMS" ++ [nl] ++ show_int (Z.of_nat (length atoms)) ++ [nl]
      ++ tx "ITEM: BOX BOUNDS" ++ [nl]
      ++ bound (r0 box) ++ bound (r1 box) ++ bound (r2 box)
      ++ match keys with
         | [] => tx "ITEM: ATOMS id type x y z" ++ [nl]
         | _ => tx "ITEM: ATOMS id type x y z " ++ join sp keys ++ [nl]
         end
      ++ concat body).
End Lammps.

(** ** Splitting a trajectory *)
(** 343-346: the number of atoms is on the fourth line. *)
Definition pre_read (f : list text) : res Z :=
  match f with _ :: _ :: _ :: l :: _ => parse_int (strip l) | _ => Err NameError end.
(** 363-382: the loop.  [count] runs from 1, [cur] are the lines of the current
    snapshot in reverse order, [start] counts the snapshots; the result are the
    files in order of writing. *)
Fixpoint split_loop (infile : text) (nblock count start : Z) (cur : list text) (f : list text) : list (text * text) :=
  match f with
  | [] => []
  | line :: f =>
      if Z.eqb count 1 then split_loop infile nblock (count + 1) start [line] f
      else if Z.ltb count nblock then split_loop infile nblock (count + 1) start (line :: cur) f
      else
        (join (tx ".") [infile; tx "snap"; show_int start; tx "dat"], concat (rev (line :: cur)))
        :: split_loop infile nblock 1 (start + 1) (line :: cur) f
  end.
(** lammps.py:315-386: the files written, in order; the first components are
    the returned names. *)
Definition split_snaps (infile content : text) : res (list (text * text)) :=
  let f := lines (univ content) in
  natoms <- pre_read f ;; Ok (split_loop infile (natoms + 9) 1 0 [] f).
