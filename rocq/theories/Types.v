(** Records of the model: vectors, neighbour entries, atoms, systems. *)
From Coq Require Import String.
From Verif Require Import Base Num.
From RecordUpdate Require Export RecordSet.
Export RecordSetNotations.
Set Implicit Arguments.
Set Maximal Implicit Insertion.

Section Types.
Variable N : num.

Record v3 := mkV { vx : N; vy : N; vz : N }.
(** 3x3 matrix by rows. *)
Record m3 := mkM { r0 : v3; r1 : v3; r2 : v3 }.

(** One slot of the parallel arrays neighbors, neighbordist, neighborweight,
    n_diffx/y/z of atom.h:90-97.  The arrays are always written slot by slot
    together (except by get_all_neighbors_voronoi with a filter, modelled
    separately), so the first n_neighbors slots are one list.  n_r, n_phi and
    n_theta (atom.h:98-100) are functions of the vector and are recomputed
    where they are used. *)
Record nbr := mkNbr { nb_idx : nat; nb_dist : N; nb_weight : N; nb_vec : v3 }.

(** struct datom, atom.h:25-28. *)
Record datom := mkDatom { d_dist : N; d_idx : nat }.

(** class Atom, atom.h:38-330 (the members the modelled functions use). *)
Record atom := mkAtom {
  a_pos : v3;                 (* posx, posy, posz *)
  a_id : Z; a_loc : Z; a_type : Z;
  a_cond : Z;                 (* condition *)
  a_ghost : Z;
  a_nbrs : list nbr;          (* the first n_neighbors slots *)
  a_temp : list datom;        (* temp_neighbors *)
  a_cutoff : N;
  a_q : list N; a_aq : list N;                 (* q[11], aq[11] *)
  a_qc : list (list (N * N));                  (* realq/imgq [11][25] *)
  a_aqc : list (list (N * N));                 (* arealq/aimgq [11][25] *)
  a_sij : list N;
  a_frenkel : Z; a_avq : N;                    (* frenkelnumber, avq6q6 *)
  a_belongs : Z;                               (* belongsto *)
  a_lcluster : bool; a_surface : bool; a_solid : bool;
  a_struct : Z;                                (* structure *)
  a_nn1 : list nat;                            (* nn1[4] *)
  a_centro : N;                                (* centrosymmetry *)
  a_sii : N; a_disorder : N; a_avgdisorder : N
}.

#[global] Instance eta_atom : Settable _ := settable! mkAtom
  <a_pos; a_id; a_loc; a_type; a_cond; a_ghost; a_nbrs; a_temp; a_cutoff;
   a_q; a_aq; a_qc; a_aqc; a_sij; a_frenkel; a_avq; a_belongs; a_lcluster;
   a_surface; a_solid; a_struct; a_nn1; a_centro; a_sii; a_disorder;
   a_avgdisorder>.

(** class System (system.h:29-229) together with the attributes core.System
    adds (core.py:79-86). *)
Record sys := mkSys {
  s_atoms : list atom;
  s_nop : Z; s_real : Z; s_ghost : Z;          (* nop, real_nop, ghost_nop *)
  s_box : m3;                                  (* box[3][3], Python _box *)
  s_len : v3;                                  (* boxx, boxy, boxz *)
  s_tri : bool;                                (* triclinic *)
  s_rot : m3; s_rotinv : m3;
  s_actual : option m3;                        (* Python actual_box *)
  s_nd : N;                                    (* neighbordistance *)
  s_filter : Z; s_usecells : bool;
  s_vorused : bool;                            (* voronoiused *)
  s_maxclus : Z;                               (* maxclusterid *)
  s_found : bool;                              (* Python neighbors_found *)
  s_ghosts_created : bool                      (* Python ghosts_created *)
}.

#[global] Instance eta_sys : Settable _ := settable! mkSys
  <s_atoms; s_nop; s_real; s_ghost; s_box; s_len; s_tri; s_rot; s_rotinv;
   s_actual; s_nd; s_filter; s_usecells; s_vorused; s_maxclus; s_found;
   s_ghosts_created>.

End Types.
Arguments mkV {N} _ _ _. Arguments vx {N} _. Arguments vy {N} _. Arguments vz {N} _.
Arguments mkM {N} _ _ _. Arguments r0 {N} _. Arguments r1 {N} _. Arguments r2 {N} _.
Arguments mkNbr {N} _ _ _ _. Arguments mkDatom {N} _ _.
