(** Trajectories: trajectory.py.  Model only.  A file is its content, read in
    binary mode; it is taken not to change while the Trajectory lives, and to
    be ASCII (decode("utf-8") is the identity).  os.linesep is "\n". *)
From Coq Require Import Ascii String.
From Verif Require Import Base Num Types M_Geometry M_Container M_Analysis M_Text M_Lammps.
Set Implicit Arguments.
Unset Strict Implicit.
Local Open Scope Z_scope.

(** ** Python builtins *)
(** range(a, b, s) for s <> 0. *)
Definition range_len (a b s : Z) : nat :=
  if 0 <? s then Z.to_nat ((b - a + s - 1) / s) else Z.to_nat ((a - b - s - 1) / (- s)).
Definition py_range (a b s : Z) : list Z := map (fun k => a + s * Z.of_nat k) (seq 0 (range_len a b s)).
(** slice(start, stop, step).indices(n). *)
Definition slice_indices (start stop step : option Z) (n : Z) : res (Z * Z * Z) :=
  let s := match step with Some s => s | None => 1 end in
  if n <? 0 then Err ValueError
  else if s =? 0 then Err ValueError
  else
    let lower := if s <? 0 then -1 else 0 in
    let upper := if s <? 0 then n - 1 else n in
    let bound i := if i <? 0 then Z.max (i + n) lower else Z.min i upper in
    Ok (match start with None => if s <? 0 then upper else lower | Some i => bound i end,
        match stop with None => if s <? 0 then lower else upper | Some i => bound i end, s).
(** l[i] = x for a list. *)
Definition py_put {A} (l : list A) (i : Z) (x : A) : res (list A) :=
  let n := Z.of_nat (length l) in
  let j := if i <? 0 then n + i else i in
  if (j <? 0) || (n <=? j) then Err IndexError else Ok (upd (Z.to_nat j) (fun _ => x) l).
(** l[:n] *)
Definition py_take {A} (n : Z) (l : list A) : list A :=
  firstn (Z.to_nat (if n <? 0 then Z.max (n + Z.of_nat (length l)) 0 else n)) l.
(** readline. *)
Fixpoint readline (s : text) : text * text :=
  match s with
  | [] => ([], [])
  | c :: s => if Ascii.eqb c nl then ([nl], s) else let '(l, r) := readline s in (c :: l, r)
  end.
Fixpoint readlines (n : nat) (s : text) : list text :=
  match n with O => [] | S n => let '(l, r) := readline s in l :: readlines n r end.

Section Traj.
Variable N : num.
Variable T : textnum N.
(** str of a numpy float. *)
Variable repr : N -> text.

(** ** Data of a loaded block *)
(** Arrays: of dimension 0, 1 or 2. *)
Inductive arr := A0 (x : N) | A1 (l : list N) | A2 (rows : list (list N)).
Record block := mkBlock { b_box : arr; b_atoms : dict (list N) }.

Record traj := mkTraj {
  t_content : text;
  t_natoms : Z;
  t_blocksize : Z;
  t_nblocks : Z;
  t_stray : Z;
  t_offset : list Z;                 (* line_offset *)
  t_load : list bool;                (* loadlist *)
  t_data : list (option block)
}.

(** ** Opening *)
(** trajectory.py:316-322: offsets of the lines. *)
Fixpoint offsets (off : Z) (f : list text) : list Z :=
  match f with [] => [] | l :: f => off :: offsets (off + Z.of_nat (length l)) f end.
(** trajectory.py:286-346 with 255-266.  int() of bytes is [parse_int]. *)
Definition traj_open (content : text) : res traj :=
  let f := lines content in
  natoms <- match f with _ :: _ :: _ :: l :: _ => parse_int l | _ => Err StopIteration end ;;
  let nlines := Z.of_nat (length f) in
  let blocksize := natoms + 9 in
  if blocksize =? 0 then Err ZeroDivisionError
  else
    let nblocks := nlines / blocksize in
    Ok (mkTraj content natoms blocksize nblocks (nlines - nblocks * blocksize) (offsets 0 f)
          (repeat false (Z.to_nat nblocks)) (repeat None (Z.to_nat nblocks))).

(** trajectory.py:392-417. *)
Definition get_block (t : traj) (blockno : Z) : res (list text) :=
  off <- py_get (t_offset t) (blockno * t_blocksize t) ;;
  Ok (readlines (Z.to_nat (t_blocksize t)) (skipn (Z.to_nat off) (t_content t))).

(** ** Loading *)
(** np.loadtxt: comments and empty lines are dropped, all rows must have the
    same length; the result has no dimensions of length 1. *)
Fixpoint uncomment (s : text) : text :=
  match s with [] => [] | c :: s => if Ascii.eqb c "#" then [] else c :: uncomment s end.
Definition table (f : list text) : list (list text) :=
  filter (fun r => negb (Nat.eqb (length r) 0)) (map (fun l => words (uncomment l)) f).
Definition rectangular {A} (rows : list (list A)) : bool :=
  match rows with [] => true | r :: rows => forallb (fun r' => Nat.eqb (length r') (length r)) rows end.
Definition squeeze (rows : list (list N)) : arr :=
  match rows with
  | [] => A1 []
  | [[x]] => A0 x
  | [r] => A1 r
  | _ => if forallb (fun r => Nat.eqb (length r) 1) rows then A1 (concat rows) else A2 rows
  end.
Definition loadtxt (f : list text) : res arr :=
  rows <- mapM (mapM (parse_float T)) (table f) ;;
  if rectangular rows then Ok (squeeze rows) else Err ValueError.
(** 443: np.loadtxt(data[8:9], dtype=str)[2:]. *)
Definition load_header (f : list text) : res (list text) :=
  match table f with
  | [] => Ok []
  | [[_]] => Err IndexError
  | r :: _ => Ok (skipn 2 r)
  end.
(** 447-448: columns[:,count]. *)
Definition column (c : arr) (i : nat) : res (list N) :=
  match c with
  | A2 rows => mapM (fun r => match nth_error r i with Some x => Ok x | None => Err IndexError end) rows
  | _ => Err IndexError
  end.
(** 440-448. *)
Definition block_of (data : list text) : res block :=
  box <- loadtxt (firstn 3 (skipn 5 data)) ;;
  columns <- loadtxt (skipn 9 data) ;;
  header <- load_header (firstn 1 (skipn 8 data)) ;;
  atoms <- foldM (fun d p => c <- column columns (fst p) ;; Ok (dset d (snd p) c)) (combine (seq 0 (length header)) header) [] ;;
  Ok (mkBlock box atoms).
Definition set_data (t : traj) (d : list (option block)) (l : list bool) : traj :=
  mkTraj (t_content t) (t_natoms t) (t_blocksize t) (t_nblocks t) (t_stray t) (t_offset t) l d.
(** 419-453. *)
Definition load (t : traj) (blockno : Z) : res traj :=
  data <- get_block t blockno ;;
  b <- block_of data ;;
  d <- py_put (t_data t) blockno (Some b) ;;
  l <- py_put (t_load t) blockno true ;;
  Ok (set_data t d l).
(** 455-470. *)
Definition unload (t : traj) (blockno : Z) : res traj :=
  d <- py_put (t_data t) blockno None ;;
  l <- py_put (t_load t) blockno false ;;
  Ok (set_data t d l).
(** An assignment of the user to traj.data[blockno]. *)
Definition edit (t : traj) (blockno : Z) (b : block) : res traj :=
  d <- py_put (t_data t) blockno (Some b) ;; Ok (set_data t d (t_load t)).

(** ** Writing *)
Definition line_of (l : list text) : text := join (tx " ") l ++ [nl].
(** 494-496: iterating over the box array; a number is a string of characters
    for join. *)
Definition box_text (b : arr) : res (list text) :=
  match b with
  | A0 _ => Err TypeError
  | A1 l => Ok (map (fun x => line_of (map (fun c => [c]) (repr x))) l)
  | A2 rows => Ok (map (fun r => line_of (map repr r)) rows)
  end.
Definition is_int_key (k : text) : bool := teqb k (tx "id") || teqb k (tx "type").
(** "%d" % x for a float; infinities raise too (OverflowError). *)
Definition show_d (x : N) : res text :=
  if neqb (nsub x x) n0 then Ok (show_int (ntrunc x)) else Err ValueError.
Definition at_ {A} (i : nat) (l : list A) : res A := match nth_error l i with Some x => Ok x | None => Err IndexError end.
(** 472-540.  Columns of different lengths do not make an array. *)
Definition convert (natoms : Z) (dd : block) : res (list text) :=
  box <- box_text (b_box dd) ;;
  let xd := filter (fun p => is_int_key (fst p)) (b_atoms dd) in
  let xf := filter (fun p => negb (is_int_key (fst p))) (b_atoms dd) in
  xdstrs <- match xd with
            | [] => Ok []
            | (_, c) :: _ =>
                mapM (fun i => w <- mapM (fun p => x <- at_ i (snd p) ;; show_d x) xd ;; Ok (join (tx " ") w)) (seq 0 (length c))
            end ;;
  _ <- (if rectangular (map snd xf) then Ok tt else Err ValueError) ;;
  xfstrs <- match xf with
            | [] => Ok []
            | (_, c) :: _ => mapM (fun i => w <- mapM (fun p => x <- at_ i (snd p) ;; Ok (repr x)) xf ;; Ok (line_of w)) (seq 0 (length c))
            end ;;
  let xdheader := join (tx " ") [tx "ITEM: ATOMS"; join (tx " ") (map fst xd)] in
  let mainheader := join (tx " ") [xdheader; join (tx " ") (map fst xf)] ++ [nl] in
  body <- mapM (fun i => a <- at_ i xdstrs ;; b <- at_ i xfstrs ;; Ok (join (tx " ") [a; b])) (seq 0 (length xfstrs)) ;;
  Ok ([tx "ITEM: TIMESTEP" ++ [nl]; show_int 0 ++ [nl]; tx "ITEM: NUMBER OF ATOMS" ++ [nl]; show_int natoms ++ [nl];
       tx "ITEM: BOX BOUNDS pp pp pp" ++ [nl]] ++ box ++ [mainheader] ++ body).
Definition convert_data_to_lines (t : traj) (blockno : Z) : res (list text) :=
  o <- py_get (t_data t) blockno ;;
  match o with Some dd => convert (t_natoms t) dd | None => Err TypeError end.
(** 585-610: what is written for one block. *)
Definition block_lines (t : traj) (x : Z) : res (list text) :=
  loaded <- py_get (t_load t) x ;;
  if (loaded : bool) then convert_data_to_lines t x else get_block t x.
Definition blocks_to_file (t : traj) (blocklist : list Z) : res text :=
  l <- mapM (block_lines t) blocklist ;; Ok (concat (concat l)).

(** ** Time slices *)
(** Timeslice objects with the attributes trajectories and blocklists.  The
    lists belong to one object each: __init__ makes them. *)
Record tslice := mkSlice { sl_trajs : list nat; sl_blocks : list (list Z) }.
Definition new_slice (traj : nat) (blocklist : list Z) : tslice := mkSlice [traj] [blocklist].

(** 273-284, __getitem__. *)
Inductive item := ISlice (start stop step : option Z) | IInt (i : Z).
Definition getitem (t : traj) (self : nat) (i : item) : res tslice :=
  match i with
  | ISlice a b c => '(x, y, s) <- slice_indices a b c (t_nblocks t) ;; Ok (new_slice self (py_range x y s))
  | IInt i => Ok (new_slice self [i])
  end.
Definition heap := list tslice.
(** 88-98, __add__: the left operand is extended and returned.  Appending to
    the list that is iterated over never ends. *)
Definition add (h : heap) (self other : nat) : res (heap * nat) :=
  a <- at_ self h ;; b <- at_ other h ;;
  if Nat.eqb self other && negb (Nat.eqb (length (sl_trajs b)) 0 && Nat.eqb (length (sl_blocks b)) 0) then Err Diverges
  else Ok (upd self (fun _ => mkSlice (sl_trajs a ++ sl_trajs b) (sl_blocks a ++ sl_blocks b)) h, self).
(** sum(l): 0 + l[0] is __radd__ (101-108), which returns l[0]; the sum of no
    slices is the number 0. *)
Definition py_sum (h : heap) (l : list nat) : res (heap * option nat) :=
  match l with
  | [] => Ok (h, None)
  | i :: l =>
      _ <- at_ i h ;;
      '(h, r) <- foldM (fun st j => add (fst st) (snd st) j) l (h, i) ;; Ok (h, Some r)
  end.
(** Expressions built with +. *)
Inductive texpr := Leaf (i : nat) | Plus (a b : texpr).
Fixpoint eval (h : heap) (e : texpr) : res (heap * nat) :=
  match e with
  | Leaf i => _ <- at_ i h ;; Ok (h, i)
  | Plus a b => '(h, i) <- eval h a ;; '(h, j) <- eval h b ;; add h i j
  end.

(** 165-187, to_file with mode "w": the content of the file.  [env] are the
    trajectories. *)
Definition to_file (env : list traj) (s : tslice) : res text :=
  l <- mapM (fun p => t <- at_ (snd p) env ;; bl <- at_ (fst p) (sl_blocks s) ;; blocks_to_file t bl)
         (combine (seq 0 (length (sl_trajs s))) (sl_trajs s)) ;;
  Ok (concat l).
(** 110-128, to_system: the systems read, with the custom columns beside. *)
Variable raw raw' : Z -> atom N.
Variable inv : m3 N -> option (m3 N).
Variable fresh : sys N.
Definition block_as_system (t : traj) (x : Z) (customkeys : list text) : res (sys N * list (dict text)) :=
  data <- get_block t x ;; read_inputfile T raw raw' inv fresh customkeys data.
Definition to_system (env : list traj) (s : tslice) (customkeys : list text) : res (list (sys N * list (dict text))) :=
  l <- mapM (fun p => t <- at_ (snd p) env ;; bl <- at_ (fst p) (sl_blocks s) ;; mapM (fun x => block_as_system t x customkeys) bl)
         (combine (seq 0 (length (sl_trajs s))) (sl_trajs s)) ;;
  Ok (concat l).
(** 153-163, to_dict for one block: load, read, unload. *)
Definition to_dict1 (t : traj) (x : Z) : res (traj * option block) :=
  t <- load t x ;; o <- py_get (t_data t) x ;; t <- unload t x ;; Ok (t, o).

(** ** Iterating *)
(** 356-390, output="index".  [shuffle] is random.shuffle. *)
Variable shuffle : list Z -> list Z.
Definition iter_index (t : traj) (method : text) (n_slices : option Z) : res (list Z) :=
  let n := match n_slices with Some n => n | None => t_nblocks t end in
  if teqb method (tx "ascending") then Ok (py_range 0 n 1)
  else if teqb method (tx "descending") then Ok (map (fun i => t_nblocks t - i) (py_range 0 n 1))
  else if teqb method (tx "random") then Ok (py_take n (shuffle (py_range 0 (t_nblocks t) 1)))
  else Err ValueError.
(** output="system": the systems yielded, if no step raises an error. *)
Definition iter_system (t : traj) (method : text) (n_slices : option Z) : res (list (sys N * list (dict text))) :=
  l <- iter_index t method n_slices ;; mapM (fun i => block_as_system t i []) l.
End Traj.
