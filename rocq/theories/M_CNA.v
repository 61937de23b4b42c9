(** Common neighbour analysis and diamond identification: system.cpp:965-1076,
    2034-2477, core.py:574-600, 951-972, 1236-1331.  Model only. *)
From Verif Require Import Base Num Types M_Geometry M_Container M_Neighbors M_Steinhardt.
Set Implicit Arguments.
Unset Strict Implicit.

Section CNA.
Variable N : num.
Open Scope num_scope.

(** get_abs_distance(m, n, ...) of two stored atoms. *)
Definition dist_at (s : sys N) (l : list (atom N)) (m n : nat) : res N :=
  a <- get l m ;; b <- get l n ;; Ok (fst (abs_distance_ij s (a_pos a) (a_pos b))).

(** system.cpp:2145-2180, get_common_neighbors.  For every neighbour slot the
    number cna[k][0] and the list common[k].  The members cna, common and
    bonds of the atom are cleared before each use and read only by the two
    functions below, so they are results here and not part of the atom; the
    functions take the cutoff and the neighbour indices of atom ti. *)
Definition common_step (s : sys N) (l : list (atom N)) (cutoff : N) (ns : list nat)
    (st : list (Z * list nat)) (p : nat * nat) : res (list (Z * list nat)) :=
  m <- get ns (fst p) ;; n <- get ns (snd p) ;;
  d <- dist_at s l m n ;;
  if d <=? cutoff then
    Ok (upd (snd p) (fun c => ((fst c + 1)%Z, snd c ++ [m]))
         (upd (fst p) (fun c => ((fst c + 1)%Z, snd c ++ [n])) st))
  else Ok st.
Definition get_common_neighbors (s : sys N) (l : list (atom N)) (cutoff : N) (ns : list nat)
  : res (list (Z * list nat)) :=
  foldM (common_step s l cutoff ns) (pairs (length ns)) (repeat (0%Z, []) (length ns)).

(** system.cpp:2183-2222, get_common_bonds: the four entries of cna[k]. *)
Definition sig : Type := Z * Z * Z * Z.
Definition bond_step (s : sys N) (l : list (atom N)) (cutoff : N) (common : list nat)
    (st : Z * list Z) (p : nat * nat) : res (Z * list Z) :=
  let '(c1, bonds) := st in
  m <- get common (fst p) ;; n <- get common (snd p) ;;
  d <- dist_at s l m n ;;
  if d <=? cutoff then
    Ok ((c1 + 1)%Z, upd (snd p) (fun x => (x + 1)%Z) (upd (fst p) (fun x => (x + 1)%Z) bonds))
  else Ok st.
Definition bond_sig (s : sys N) (l : list (atom N)) (cutoff : N) (c : Z * list nat) : res sig :=
  let n := Z.to_nat (fst c) in
  '(c1, bonds) <- foldM (bond_step s l cutoff (snd c)) (pairs n) (0%Z, repeat 0%Z n) ;;
  Ok (fst c, c1, fold_left (fun x b => Z.max b x) bonds 0%Z, fold_left (fun x b => Z.min b x) bonds 8%Z).
Definition get_common_bonds (s : sys N) (l : list (atom N)) (cutoff : N)
    (cs : list (Z * list nat)) : res (list sig) :=
  mapM (bond_sig s l cutoff) cs.
Definition signatures (s : sys N) (l : list (atom N)) (cutoff : N) (ns : list nat) : res (list sig) :=
  cs <- get_common_neighbors s l cutoff ns ;; get_common_bonds s l cutoff cs.
Definition nbr_idx (a : atom N) : list nat := map (@nb_idx N) (a_nbrs a).

(** The counters of system.cpp:2240-2260 and 2293-2306. *)
Definition sig_is (w x y z : Z) (c : sig) : bool :=
  let '(c1, c2, c3, c4) := c in Z.eqb c1 w && Z.eqb c2 x && Z.eqb c3 y && Z.eqb c4 z.
Definition count_sig (f : sig -> bool) (cs : list sig) : Z := Z.of_nat (length (filter f cs)).
Definition label12 (cs : list sig) : Z :=
  let nfcc := count_sig (sig_is 4 2 1 1) cs in
  let nhcp := count_sig (fun c => negb (sig_is 4 2 1 1 c) && sig_is 4 2 2 0 c) cs in
  let nico := count_sig (fun c => negb (sig_is 4 2 1 1 c) && negb (sig_is 4 2 2 0 c) && sig_is 5 5 2 2 c) cs in
  if Z.eqb nfcc 12 then 1%Z
  else if Z.eqb nfcc 6 && Z.eqb nhcp 6 then 2%Z
  else if Z.eqb nico 12 then 4%Z
  else 0%Z.
Definition label14 (cs : list sig) : Z :=
  let nbcc1 := count_sig (sig_is 4 4 2 2) cs in
  let nbcc2 := count_sig (fun c => negb (sig_is 4 4 2 2 c) && sig_is 6 6 2 2 c) cs in
  if Z.eqb nbcc1 6 && Z.eqb nbcc2 8 then 3%Z else 0%Z.

(** system.cpp:2224-2271 and 2273-2312, identify_cn12 and identify_cn14. *)
Definition identify_atom (label : list sig -> Z) (s : sys N) (l : list (atom N)) (ti : nat)
  : res (list (atom N)) :=
  a <- get l ti ;;
  if Z.eqb (a_struct a) 0 then
    cs <- signatures s l (a_cutoff a) (nbr_idx a) ;;
    Ok (upd ti (fun a => a <| a_struct := label cs |>) l)
  else Ok l.
Definition identify (label : list sig -> Z) (s : sys N) : res (sys N) :=
  l <- foldM (identify_atom label s) (seq 0 (Z.to_nat (s_nop s))) (s_atoms s) ;;
  Ok (s <| s_atoms := l |>).
Definition identify_cn12 := identify label12.
Definition identify_cn14 := identify label14.

(** The loops "for i < k: process_neighbor(ti, temp_neighbors[i].index)". *)
Definition take_temp (s : sys N) (k : nat) (l : list (atom N)) (ti : nat) : res (list (atom N)) :=
  a <- get l ti ;;
  foldM (fun l i => t <- get (a_temp a) i ;; process_neighbor s l ti (d_idx t)) (seq 0 k) l.

(** system.cpp:2066-2098, get_cna_neighbors; temp_neighbors[i] is not checked. *)
Definition get_cna_neighbors (s : sys N) (lattice_constant : N) (style14 : bool) : res (sys N) :=
  s <- reset_main_neighbors s ;;
  let factor := if style14 then nlit 1207 1000 else nlit 854 1000 in
  let ncount := if style14 then 14 else 12 in
  l <- foldM (fun l ti =>
         _ <- get l ti ;;
         take_temp s ncount (set_cutoff l ti (factor * lattice_constant)) ti)
       (seq 0 (Z.to_nat (s_nop s))) (s_atoms s) ;;
  Ok (s <| s_atoms := l |>).

(** system.cpp:2100-2143, get_acna_neighbors: atoms with too few candidates
    are passed over. *)
Definition acna_cutoff (style14 : bool) (ds : list N) : N :=
  if style14 then
    nlit 1207 1000 * nsum (map (fun d => nlit 11547 10000 * d) (firstn 8 ds) ++ firstn 6 (skipn 8 ds)) / nofZ 14
  else nlit 1207 1000 * nsum (firstn 12 ds) / nofZ 12.
Definition get_acna_neighbors (s : sys N) (style14 : bool) : res (sys N) :=
  s <- reset_main_neighbors s ;;
  let ncount := if style14 then 14 else 12 in
  l <- foldM (fun l ti =>
         a <- get l ti ;;
         if (ncount - 1 <? length (a_temp a))%nat then
           take_temp s ncount (set_cutoff l ti (acna_cutoff style14 (map (@d_dist N) (a_temp a)))) ti
         else Ok l)
       (seq 0 (Z.to_nat (s_nop s))) (s_atoms s) ;;
  Ok (s <| s_atoms := l |>).

(** "for ti < real_nop: analyis[atoms[ti].structure] += 1". *)
Definition tally (n : nat) (s : sys N) : res (list Z) :=
  foldM (fun r ti => a <- get (s_atoms s) ti ;; c <- zget r (a_struct a) ;; zput r (a_struct a) (c + 1)%Z)
        (seq 0 (Z.to_nat (s_real s))) (repeat 0%Z n).
Definition clear_struct (s : sys N) : res (sys N) := each_atom (fun a => a <| a_struct := 0%Z |>) s.

(** system.cpp:2424-2476, calculate_cna and core.py:1269-1282: [None] is the
    adaptive analysis.  The result of the search is ignored.  The five counts
    in the order others, fcc, hcp, bcc, ico. *)
Variable srt : list (datom N) -> list (datom N).
Definition calculate_cna (s : sys N) (lattice_constant : option N) : res (sys N * list Z) :=
  s <- clear_struct s ;;
  '(s, _) <- get_all_neighbors_bynumber srt s (nofZ 3) 14 false ;;
  let nbrs s style14 := match lattice_constant with
                        | Some c => get_cna_neighbors s c style14
                        | None => get_acna_neighbors s style14
                        end in
  s <- nbrs s false ;; s <- identify_cn12 s ;;
  s <- nbrs s true ;; s <- identify_cn14 s ;;
  r <- tally 5 s ;;
  Ok (s, r).

(** system.cpp:2037-2064, get_diamond_neighbors. *)
Definition diamond_atom (s : sys N) (l : list (atom N)) (ti : nat) : res (list (atom N)) :=
  a <- get l ti ;;
  js <- mapM (fun j => t <- get (a_temp a) j ;; Ok (d_idx t)) (seq 0 4) ;;
  let l := upd ti (fun a => a <| a_nn1 := js |>) l in
  foldM (fun l tj =>
      b <- get l tj ;;
      foldM (fun l k =>
          t <- get (a_temp b) k ;;
          if (ti =? d_idx t)%nat then Ok l else process_neighbor s l ti (d_idx t)) (seq 0 4) l)
    js l.
Definition get_diamond_neighbors (s : sys N) : res (sys N) :=
  s <- reset_main_neighbors s ;;
  l <- foldM (diamond_atom s) (seq 0 (Z.to_nat (s_nop s))) (s_atoms s) ;;
  Ok (s <| s_atoms := l |>).

(** system.cpp:2373-2383. *)
Definition diamond_cutoff (a : atom N) : atom N :=
  if (11 <? length (a_nbrs a))%nat
  then a <| a_cutoff := nlit 1207 1000 * nsum (firstn 12 (map (@nb_dist N) (a_nbrs a))) / nofZ 12 |>
  else a.
(** system.cpp:2389-2397. *)
Definition diamond_rename (a : atom N) : atom N :=
  if Z.eqb (a_struct a) 1 then a <| a_struct := 5%Z |>
  else if Z.eqb (a_struct a) 2 then a <| a_struct := 8%Z |>
  else a.
(** The inner loops of system.cpp:2401-2411 and 2416-2426. *)
Fixpoint shell_label (l : list (atom N)) (cubic hex : Z) (ns : list nat) : res (option Z) :=
  match ns with
  | [] => Ok None
  | n :: ns =>
      b <- get l n ;;
      if Z.eqb (a_struct b) 5 then Ok (Some cubic)
      else if Z.eqb (a_struct b) 8 then Ok (Some hex)
      else shell_label l cubic hex ns
  end.
Definition shell_atom (skip : list Z) (cubic hex : Z) (shell : atom N -> list nat)
    (l : list (atom N)) (ti : nat) : res (list (atom N)) :=
  a <- get l ti ;;
  if existsb (Z.eqb (a_struct a)) skip then Ok l
  else
    r <- shell_label l cubic hex (shell a) ;;
    Ok (match r with Some v => upd ti (fun a => a <| a_struct := v |>) l | None => l end).
Definition shell_pass (skip : list Z) (cubic hex : Z) (shell : atom N -> list nat) (s : sys N)
  : res (sys N) :=
  l <- foldM (shell_atom skip cubic hex shell) (seq 0 (Z.to_nat (s_nop s))) (s_atoms s) ;;
  Ok (s <| s_atoms := l |>).
(** system.cpp:2349-2428, identify_cndia. *)
Definition identify_cndia (s : sys N) : res (sys N) :=
  s <- get_diamond_neighbors s ;;
  s <- each_atom diamond_cutoff s ;;
  s <- identify_cn12 s ;;
  s <- each_atom diamond_rename s ;;
  s <- shell_pass [5; 8]%Z 6 9 (@a_nn1 N) s ;;
  shell_pass [5; 8; 6; 9]%Z 7 10 nbr_idx s.
(** system.cpp:2314-2347, identify_diamond_structure. *)
Definition identify_diamond_structure (s : sys N) : res (sys N * list Z) :=
  s <- clear_struct s ;;
  s <- identify_cndia s ;;
  r <- tally 11 s ;;
  Ok (s, r).

(** core.py:1311-1330 and 597-600; [Err] is also an exception raised by
    find_neighbors. *)
Variable voro : nat -> option (list (nat * N)).
Variable area_pow : N -> N.
Variable inv : m3 N -> option (m3 N).
Definition find_four (s : sys N) (threshold : N) : res (sys N) :=
  s <- reset_neighbors s ;;
  '(s, e) <- find_neighbors srt voro area_pow inv s
               (mkArgs (MNumber N 4 false) FNone threshold (nlit 12 10) 6) ;;
  match e with None => Ok s | Some e => Err e end.
Definition identify_diamond (s : sys N) (find : bool) : res (sys N * list Z) :=
  s <- (if find then find_four s (nofZ 3) else Ok s) ;;
  identify_diamond_structure s.
Definition find_diamond_neighbors (s : sys N) : res (sys N) :=
  s <- find_four s (nofZ 2) ;; get_diamond_neighbors s.

(** system.cpp:965-982, set_atom_cutoff. *)
Definition set_atom_cutoff (s : sys N) (factor : N) : res (sys N) :=
  each_atom (fun a => a <| a_cutoff :=
    factor * (nsum (map (@nb_dist N) (a_nbrs a)) / nofZ (Z.of_nat (length (a_nbrs a)))) |>) s.

(** system.cpp:1050-1076, store_neighbor_info: for every atom the lists
    next_neighbors (with the distances) of its neighbours; next_neighbor_counts
    are their lengths. *)
Definition next_neighbors (l : list (atom N)) (a : atom N) : res (list (list (nat * N))) :=
  mapM (fun e => b <- get l (nb_idx e) ;; Ok (map (fun e => (nb_idx e, nb_dist e)) (a_nbrs b))) (a_nbrs a).
Definition store_neighbor_info (s : sys N) : res (list (list (list (nat * N)))) :=
  mapM (fun ti => a <- get (s_atoms s) ti ;; next_neighbors (s_atoms s) a) (seq 0 (Z.to_nat (s_nop s))).

End CNA.
