(** Properties C15-C24: neighbour finding. *)
From Coq Require Import Reals Lra ZArith Lia Permutation Sorted.
From Verif Require Import Base Num NumR NumF Types Ex M_Geometry M_Container M_Neighbors S_Geometry S_Neighbors
  P_Geometry P_Box P_Neighbors P_Search P_FindN P_History P_Cutoff.
Close Scope R_scope. Close Scope Z_scope.
#[local] Opaque abs_distance_ij.

(** ** Concrete systems *)
(** What the examples look at: the neighbour indices of every atom, the found
    flag and the exception. *)
Definition lists {N : num} (r : res (outcome N)) : option (list (list nat) * bool * option err) :=
  match r with
  | Ok (s, e) => Some (map (fun a => map (@nb_idx N) (a_nbrs a)) (s_atoms s), s_found s, e)
  | Err _ => None
  end.
(** Atoms given by integer coordinates and a type, in a cubic box. *)
Definition cub (N : num) (L : Z) (l : list (Z * Z * Z * Z)) : sys N :=
  set_atoms (sbox (sys_ctor (raw_sys N)) (diag (nofZ L) (nofZ L) (nofZ L)))
    (map (fun p => let '(x, y, z, t) := p in at_pos (zv N x y z) <| a_type := t |>) l).
(** Insertion sort: one function satisfying the promise of std::sort. *)
Fixpoint ins {N : num} (d : datom N) (l : list (datom N)) : list (datom N) :=
  match l with
  | [] => [d]
  | x :: r => if nltb (d_dist d) (d_dist x) then d :: l else x :: ins d r
  end.
Fixpoint isort {N : num} (l : list (datom N)) : list (datom N) :=
  match l with [] => [] | d :: r => ins d (isort r) end.
Example isort_sorts : sorts (@isort Rnum).
Proof.
  intros l. induction l as [|d l [P S]]; simpl; [split; [apply Permutation_refl|constructor]|].
  assert (G : forall m, StronglySorted (fun x y => nltb (n := Rnum) (d_dist y) (d_dist x) = false) m ->
     Permutation (ins d m) (d :: m) /\
     StronglySorted (fun x y => nltb (n := Rnum) (d_dist y) (d_dist x) = false) (ins d m)).
  { induction m as [|x m IH]; simpl; intros Sm; [split; auto; repeat constructor|].
    inversion Sm as [|? ? Sm' Fm]; subst. destruct (Rltb (d_dist d) (d_dist x)) eqn:E.
    - split; [apply Permutation_refl|]. constructor; auto. apply Rltb_true in E. constructor.
      + apply Rltb_false. lra.
      + eapply Forall_impl; [|exact Fm]. intros y Hy. simpl in Hy. apply Rltb_false in Hy. apply Rltb_false. lra.
    - destruct (IH Sm') as [P1 S1]. split.
      + apply perm_trans with (x :: d :: m); [now constructor|apply perm_swap].
      + constructor; auto. apply (Permutation_Forall (Permutation_sym P1)). now constructor. }
  destruct (G _ S) as [P1 S1]. split; auto. apply perm_trans with (d :: isort l); auto.
Qed.
Definition no_voro {N : num} : nat -> option (list (nat * N)) := fun _ => None.
Definition idp {N : num} : N -> N := fun x => x.
Definition no_inv {N : num} : m3 N -> option (m3 N) := fun _ => None.
Definition run {N : num} (s : sys N) (a : fn_args N) : res (outcome N) :=
  find_neighbors isort no_voro idp no_inv s a.
Definition cutoff_args (N : num) (c : Z) (f : filt) : fn_args N :=
  mkArgs (MCutoff (CutVal (nofZ c))) f (nofZ 2) (nlit 6 5) 6.
(** Five atoms in a 20 box: 0, 1, 2, 3 along a line (1 across the boundary). *)
Definition e_sys (N : num) : sys N := cub N 20 [(1,1,1,1); (19,1,1,2); (3,1,1,1); (6,1,1,1); (10,10,10,2)]%Z.

(** Such systems are what the box setter and set_atoms (exposed to Python,
    system_binding.cpp:55) produce; the atoms setter would pad them. *)
Example e_sys_reached : forall N : num,
  nltb (nlit 1 1000000) (nabs (cos_sum (diag (N := N) (nofZ 20) (nofZ 20) (nofZ 20)))) = false ->
  exists s, box_set (@no_inv N) (sys_ctor (raw_sys N)) (diag (nofZ 20) (nofZ 20) (nofZ 20)) = Ok s /\
    e_sys N = set_atoms s (s_atoms (e_sys N)).
Proof. intros N H. unfold box_set. rewrite H. eexists. split; reflexivity. Qed.

(** ** C15 *)
(** The list of every atom is the specified one, in index order. *)
Theorem C15_cutoff_neighbours :
  forall (N : num) srt voro area_pow inv (s : sys N) (r t pad : N) (nl : Z) (f : filt),
  stored s -> (s_real s <= 2300)%Z -> neqb r n0 = false ->
  (forall i, i < length (s_atoms s) -> length (neighbors_within s r f i) <= 300) ->
  exists s',
    find_neighbors srt voro area_pow inv s (mkArgs (MCutoff (CutVal r)) f t pad nl) = Ok (s', None) /\
    s_found s' = true /\ length (s_atoms s') = length (s_atoms s) /\
    forall i a, nth_error (s_atoms s) i = Some a ->
      exists a', nth_error (s_atoms s') i = Some a' /\ same_atom a' a /\
        a_nbrs a' = neighbors_within s r f i /\ (a_nbrs a' <> [] -> a_cutoff a' = r).
Proof.
  intros N srt voro area_pow inv s r t pad nl f St Hs Hr Hf.
  unfold find_neighbors. rewrite (reset_stored St). cbn [bind]. cbv zeta.
  cbn [fa_method fa_filter fa_threshold]. rewrite Hr. unfold real_count.
  match goal with |- context [Z.ltb 2300 ?x] => change x with (s_real s) end.
  assert (E : Z.ltb 2300 (s_real s) = false) by (apply Z.ltb_ge; lia). rewrite E.
  pose proof (@normal_spec N s f r St) as H.
  destruct (get_all_neighbors_normal _) as [s'|e]; cbn [bind].
  - destruct H as [[HL H] _]. eexists. split; [reflexivity|]. split; [reflexivity|]. split; [exact HL|].
    intros i a Ha. destruct (H i a Ha) as (a' & H1 & H2 & H3 & _ & _ & H4). exists a'. auto.
  - destruct H as (_ & i & Hi & H). specialize (Hf i Hi). unfold max_nbrs in H. lia.
Qed.
Print Assumptions C15_cutoff_neighbours.

(** Membership, and no repetitions. *)
Theorem C15_membership :
  forall (N : num) (s : sys N) (r : N) (f : filt) (i : nat),
  NoDup (map (@nb_idx N) (neighbors_within s r f i)) /\
  forall e, In e (neighbors_within s r f i) <->
    i <> nb_idx e /\ link s i (nb_idx e) = Some e /\ nltb (nb_dist e) r = true /\
    allowed f (type_at s i) (type_at s (nb_idx e)) = true.
Proof.
  intros. split; [apply NoDup_within|]. intros e. rewrite In_neighbors_within. split.
  - intros (H & H1 & H2). split; [|auto]. now destruct (link_idx H) as (_ & _ & ? & _).
  - tauto.
Qed.
Print Assumptions C15_membership.

(** In exact arithmetic, for atoms in an orthogonal box: the neighbours are
    the other atoms whose closest image is closer than the cutoff. *)
Theorem C15_minimum_image_neighbours :
  forall (s : sys Rnum) (r : R) (i j : nat) (a b : atom Rnum),
  ortho s -> nth_error (s_atoms s) i = Some a -> nth_error (s_atoms s) j = Some b ->
  in_box (s_len s) (a_pos a) -> in_box (s_len s) (a_pos b) ->
  (In j (map (@nb_idx Rnum) (neighbors_within s r FNone i)) <->
   i <> j /\ exists d, is_min_image_distance (s_len s) (a_pos a) (a_pos b) d /\ (d < r)%R).
Proof.
  intros s r i j a b Ho Ha Hb Ia Ib.
  assert (L : i <> j -> exists e, link s i j = Some e /\ nb_idx e = j /\
             nb_dist e = abs_distance s (a_pos a) (a_pos b)).
  { intros Hij. unfold link. rewrite Ha, Hb. destruct (Nat.ltb_spec i j).
    - destruct (abs_distance_ij s (a_pos a) (a_pos b)) as [d v] eqn:E. eexists. split; [reflexivity|].
      split; [reflexivity|]. cbn [nb_dist]. rewrite abs_distance_sym by (apply ortho_nonneg; auto).
      rewrite <- fst_ij, E. reflexivity.
    - destruct (Nat.ltb_spec j i); [|lia].
      destruct (abs_distance_ij s (a_pos b) (a_pos a)) as [d v] eqn:E. eexists. split; [reflexivity|].
      split; [reflexivity|]. cbn [nb_dist]. rewrite <- fst_ij, E. reflexivity. }
  rewrite in_map_iff. split.
  - intros (e & Ej & He). apply In_neighbors_within in He. destruct He as (H1 & H2 & _).
    destruct (link_idx H1) as (_ & _ & Hne & _). subst j. split; auto.
    destruct (L Hne) as (e' & E1 & _ & E3). rewrite H1 in E1. injection E1 as <-.
    exists (abs_distance s (a_pos a) (a_pos b)). split; [now apply abs_distance_min|].
    rewrite <- E3. now apply Rltb_true.
  - intros (Hne & d & [[x [y [z Hd]]] Hmin] & Hd2). destruct (L Hne) as (e & E1 & E2 & E3).
    exists e. split; auto. apply In_neighbors_within. rewrite E2. split; auto. split; auto.
    apply Rltb_true. rewrite E3. apply Rle_lt_trans with d; auto.
    destruct (abs_distance_min s _ _ Ho Ia Ib) as [_ Hm]. rewrite Hd. apply Hm.
Qed.
Print Assumptions C15_minimum_image_neighbours.

Example C15_hyp : stored (e_sys F64) /\ (s_real (e_sys F64) <= 2300)%Z /\
  neqb (n := F64) (nofZ 3) n0 = false /\
  (forall i, i < length (s_atoms (e_sys F64)) -> length (neighbors_within (e_sys F64) (nofZ 3) FNone i) <= 300).
Proof.
  split; [reflexivity|]. split; [discriminate|]. split; [reflexivity|].
  intros i Hi. change (length (s_atoms (e_sys F64))) with 5 in Hi.
  assert (F : forallb (fun i => length (neighbors_within (e_sys F64) (nofZ 3) FNone i) <=? 300) (seq 0 5) = true)
    by (vm_compute; reflexivity).
  rewrite forallb_forall in F. apply Nat.leb_le, F, in_seq. lia.
Qed.
Example C15_runs : lists (run (e_sys F64) (cutoff_args F64 3 FNone)) =
  Some ([[1; 2]; [0]; [0]; []; []], true, None).
Proof. vm_compute. reflexivity. Qed.
(** The comparison is strict: atoms 2 and 3 are exactly 3 apart. *)
Example C15_runs' : lists (run (e_sys F64) (cutoff_args F64 4 FNone)) =
  Some ([[1; 2]; [0]; [0; 3]; [2]; []], true, None).
Proof. vm_compute. reflexivity. Qed.

(** ** C16.  Both search paths, any arithmetic. *)
Theorem C16_symmetric :
  forall (N : num) srt voro area_pow inv (s s' : sys N) (r t pad : N) (nl : Z) (f : filt) e,
  stored s -> neqb r n0 = false ->
  find_neighbors srt voro area_pow inv s (mkArgs (MCutoff (CutVal r)) f t pad nl) = Ok (s', e) ->
  forall i en, In en (nbrs_at s' i) ->
    i <> nb_idx en /\ nb_weight en = n1 /\
    exists en', In en' (nbrs_at s' (nb_idx en)) /\ nb_idx en' = i /\ nb_dist en' = nb_dist en /\
      nb_weight en' = n1 /\
      ((i < nb_idx en /\ nb_vec en' = vopp (nb_vec en)) \/
       (nb_idx en < i /\ nb_vec en = vopp (nb_vec en'))).
Proof.
  intros N srt voro area_pow inv s s' r t pad nl f e St Hr E i en H.
  destruct (cutoff_mirror St Hr E H) as (A & B & _ & _ & C). auto.
Qed.
Print Assumptions C16_symmetric.

Example C16_hyp : stored (e_sys F64) /\ neqb (n := F64) (nofZ 4) n0 = false /\
  exists s' e, find_neighbors isort no_voro idp no_inv (e_sys F64) (cutoff_args F64 4 FNone) = Ok (s', e) /\
    map (@nb_idx F64) (nbrs_at s' 2) = [0; 3].
Proof.
  split; [reflexivity|]. split; [reflexivity|].
  assert (F : match find_neighbors isort no_voro idp no_inv (e_sys F64) (cutoff_args F64 4 FNone) with
              | Ok (s', e) => map (@nb_idx F64) (nbrs_at s' 2) | Err _ => [] end = [0; 3])
    by (vm_compute; reflexivity).
  destruct (find_neighbors _ _ _ _ _ _) as [[s' e]|]; [|discriminate]. eauto.
Qed.

(** ** C17 *)
(** Numeric cutoffs, both search paths, any arithmetic. *)
Theorem C17_cutoff_filter :
  forall (N : num) srt voro area_pow inv (s s' : sys N) (r t pad : N) (nl : Z) (f : filt) e,
  stored s -> neqb r n0 = false ->
  find_neighbors srt voro area_pow inv s (mkArgs (MCutoff (CutVal r)) f t pad nl) = Ok (s', e) ->
  forall i en, In en (nbrs_at s' i) -> allowed f (type_at s i) (type_at s (nb_idx en)) = true.
Proof.
  intros N srt voro area_pow inv s s' r t pad nl f e St Hr E i en H.
  destruct (cutoff_mirror St Hr E H) as (_ & _ & _ & A & _). auto.
Qed.
Print Assumptions C17_cutoff_filter.
Example C17_runs : lists (run (e_sys F64) (cutoff_args F64 4 FType)) =
    Some ([[2]; []; [0; 3]; [2]; []], true, None) /\
  lists (run (e_sys F64) (cutoff_args F64 4 FTypeR)) =
    Some ([[1]; [0]; []; []; []], true, None).
Proof. split; vm_compute; reflexivity. Qed.

(** Pairs the filter forbids that are nevertheless neighbours. *)
Definition forbidden {N : num} (f : filt) (s : sys N) (r : res (outcome N)) : list (nat * nat) :=
  match r with
  | Ok (s', None) =>
      flat_map (fun i => flat_map (fun e =>
        if allowed f (type_at s i) (type_at s (nb_idx e)) then [] else [(i, nb_idx e)]) (nbrs_at s' i))
        (seq 0 (length (s_atoms s')))
  | _ => []
  end.
Lemma forbidden_In {N : num} f (s : sys N) r p : In p (forbidden f s r) ->
  exists s' e, r = Ok (s', None) /\ In e (nbrs_at s' (fst p)) /\ nb_idx e = snd p /\
    allowed f (type_at s (fst p)) (type_at s (snd p)) = false.
Proof.
  unfold forbidden. destruct r as [[s' [e|]]|]; try (intros []; fail).
  rewrite in_flat_map. intros (i & _ & H). rewrite in_flat_map in H. destruct H as (e & He & H).
  destruct (allowed _ _ _) eqn:E; [destruct H|]. destruct H as [<-|[]]. exists s', e. auto.
Qed.

(** method='number' and cutoff='sann' ignore the filter. *)
Theorem C17_number_refuted :
  exists (s s' : sys F64) (i : nat) (e : nbr F64),
    run s (mkArgs (N := F64) (MNumber _ 2 true) FType (nofZ 5) (nlit 6 5) 6) = Ok (s', None) /\
    In e (nbrs_at s' i) /\ allowed FType (type_at s i) (type_at s (nb_idx e)) = false.
Proof.
  set (s := e_sys F64). exists s.
  assert (F : forbidden FType s (run s (mkArgs (N := F64) (MNumber _ 2 true) FType (nofZ 5) (nlit 6 5) 6)) =
    [(0, 1); (1, 0); (1, 2); (4, 3); (4, 2)]) by (vm_compute; reflexivity).
  destruct (@forbidden_In F64 FType s _ (0, 1) ltac:(rewrite F; left; reflexivity)) as (s' & e & E & He & Hi & Ha).
  exists s', 0, e. cbn [fst snd] in *. rewrite Hi. auto.
Qed.
Print Assumptions C17_number_refuted.

(** Two clusters of six atoms, of alternating types. *)
Definition two_clusters (N : num) : sys N :=
  cub N 60 [(10,10,10,1); (11,10,10,2); (10,11,10,1); (10,10,11,2); (11,11,10,1); (11,10,11,2);
            (30,30,30,1); (31,30,30,2); (30,31,30,1); (30,30,31,2); (31,31,30,1); (31,30,31,2)]%Z.
Definition sann_args (N : num) (f : filt) : fn_args N := mkArgs (MCutoff (CutSann _)) f (nofZ 5) (nlit 6 5) 6.
Theorem C17_sann_refuted :
  exists (s s' : sys F64) (i : nat) (e : nbr F64),
    run s (sann_args F64 FType) = Ok (s', None) /\
    In e (nbrs_at s' i) /\ allowed FType (type_at s i) (type_at s (nb_idx e)) = false.
Proof.
  set (s := two_clusters F64). exists s.
  assert (F : hd_error (forbidden FType s (run s (sann_args F64 FType))) = Some (0, 3)) by (vm_compute; reflexivity).
  destruct (@forbidden_In F64 FType s (run s (sann_args F64 FType)) (0, 3)) as (s' & e & E & He & Hi & Ha).
  { destruct (forbidden _ _ _) as [|p l]; [discriminate|]. injection F as ->. left. reflexivity. }
  exists s', 0, e. cbn [fst snd] in *. rewrite Hi. auto.
Qed.
Print Assumptions C17_sann_refuted.
(** The Voronoi method tests the type of the atom whose index is the face
    number.  Three atoms of types 1, 1, 2; voro++ reports atom 2 as the only
    neighbour of atom 0. *)
Definition v_sys (N : num) : sys N := cub N 20 [(1,1,1,1); (5,1,1,1); (9,1,1,2)]%Z.
Definition v_voro {N : num} (i : nat) : option (list (nat * N)) :=
  match i with 0 => Some [(2, n1)] | _ => Some [] end.
Theorem C17_voronoi_refuted :
  exists (s s' : sys F64) voro (i : nat) (e : nbr F64),
    find_neighbors isort voro idp no_inv s (mkArgs (N := F64) (MVoronoi (fun _ => raw_atom F64)) FType (nofZ 2) (nlit 6 5) 6) = Ok (s', None) /\
    In e (nbrs_at s' i) /\ allowed FType (type_at s i) (type_at s (nb_idx e)) = false.
Proof.
  set (s := v_sys F64). exists s.
  set (r := find_neighbors isort v_voro idp no_inv s (mkArgs (N := F64) (MVoronoi (fun _ => raw_atom F64)) FType (nofZ 2) (nlit 6 5) 6)).
  assert (F : forbidden FType s r = [(0, 2)]) by (vm_compute; reflexivity).
  destruct (@forbidden_In F64 FType s r (0, 2)) as (s' & e & E & He & Hi & Ha).
  { rewrite F. left. reflexivity. }
  exists s', v_voro, 0, e. cbn [fst snd] in *. rewrite Hi. auto.
Qed.
Print Assumptions C17_voronoi_refuted.

(** ** C18 *)
Theorem C18_cells_equal_brute_force :
  forall (s : sys Rnum) (r : R) (f : filt),
  stored s -> cells_ok s r ->
  let s0 := s <| s_atoms := map (@reset_atom_all Rnum) (s_atoms s) |>
              <| s_filter := filter_code f |> <| s_nd := r |> in
  match get_all_neighbors_cells s0, get_all_neighbors_normal s0 with
  | Ok sc, Ok sn => length (s_atoms sc) = length (s_atoms sn) /\
      forall i, Permutation (nbrs_at sc i) (nbrs_at sn i)
  | Err ec, Err en => ec = en
  | Ok _, Err _ | Err _, Ok _ =>
      exists i, i < length (s_atoms s) /\ 300 < length (neighbors_within s r f i)
  end.
Proof.
  intros s r f St Hc s0. pose proof (cells_spec f St Hc) as C. pose proof (@normal_spec Rnum s f r St) as B.
  fold s0 in C, B.
  destruct (get_all_neighbors_cells s0) as [sc|ec], (get_all_neighbors_normal s0) as [sn|en].
  - destruct C as [(lst & [CL CH] & CP) _]. destruct B as [[BL BH] _]. split; [congruence|].
    intros i. destruct (Nat.lt_ge_cases i (length (s_atoms s))) as [Hi|Hi].
    + rewrite (nbrs_at_result (conj CL CH) Hi), (nbrs_at_result (conj BL BH) Hi). auto.
    + rewrite (nbrs_at_out (conj CL CH) Hi), (nbrs_at_out (conj BL BH) Hi). constructor.
  - now destruct B as [_ B].
  - now destruct C as [_ C].
  - destruct B as [-> _], C as [-> _]. reflexivity.
Qed.
Print Assumptions C18_cells_equal_brute_force.

(** Neither search fails when no atom has more than 300 neighbours, so the
    neighbour lists of find_neighbors are the specified ones up to order for
    systems of any size. *)
Theorem C18_find_neighbors_any_size :
  forall srt voro area_pow inv (s : sys Rnum) (r t pad : R) (nl : Z) (f : filt),
  stored s -> cells_ok s r ->
  (forall i, i < length (s_atoms s) -> length (neighbors_within s r f i) <= 300) ->
  exists s',
    find_neighbors srt voro area_pow inv s (mkArgs (N := Rnum) (MCutoff (CutVal (N := Rnum) r)) f t pad nl) = Ok (s', None) /\
    forall i, i < length (s_atoms s) -> Permutation (nbrs_at s' i) (neighbors_within s r f i).
Proof.
  intros srt voro area_pow inv s r t pad nl f St Hc Hf.
  assert (Hr : neqb (n := Rnum) r n0 = false).
  { destruct Hc as [(_ & H & _) _]. unfold neqb; simpl. unfold Reqb. destruct (Req_EM_T r 0); auto.
    exfalso. revert H. subst. lra. }
  unfold find_neighbors. rewrite (reset_stored St). cbn [bind]. cbv zeta.
  cbn [fa_method fa_filter fa_threshold]. rewrite Hr.
  pose proof (cells_spec f St Hc) as C. pose proof (@normal_spec Rnum s f r St) as B.
  destruct (Z.ltb 2300 _).
  - destruct (get_all_neighbors_cells _) as [sc|ec]; cbn [bind].
    + destruct C as [(lst & CR & CP) _]. eexists. split; [reflexivity|]. intros i Hi.
      change (Permutation (nbrs_at sc i) (neighbors_within s r f i)).
      rewrite (nbrs_at_result CR Hi). auto.
    + destruct C as (_ & i & Hi & H). specialize (Hf i Hi). unfold max_nbrs in H. lia.
  - destruct (get_all_neighbors_normal _) as [sc|ec]; cbn [bind].
    + destruct B as [CR _]. eexists. split; [reflexivity|]. intros i Hi.
      change (Permutation (nbrs_at sc i) (neighbors_within s r f i)).
      rewrite (nbrs_at_result CR Hi). auto.
    + destruct B as (_ & i & Hi & H). specialize (Hf i Hi). unfold max_nbrs in H. lia.
Qed.
Print Assumptions C18_find_neighbors_any_size.

Definition cell_sys : sys Rnum := cub Rnum 12 [(1,1,1,1); (11,1,1,1); (-3,2,2,1); (5,5,5,2)]%Z.
Example C18_hyp : stored cell_sys /\ cells_ok cell_sys (7/2)%R.
Proof.
  assert (L : s_len cell_sys = mkV (N:=Rnum) 12%R 12%R 12%R).
  { unfold cell_sys, cub. cbn [set_atoms sbox s_len]. apply diag_len; simpl; lra. }
  split; [reflexivity|]. split.
  - unfold three_wide, ortho, pos3. rewrite L. cbn [vx vy vz]. repeat split; lra.
  - rewrite L. intros a Ha. simpl in Ha. unfold coord_ok. cbn [vx vy vz].
    destruct Ha as [<-|[<-|[<-|[<-|[]]]]]; cbn; repeat split; try lra; intros [? ?]; lra.
Qed.

(** An atom at -4e-7 is put into the first cell instead of the last one, and a
    neighbour at distance 3 - 3e-7 is missed with cutoff 3. *)
Definition snap_sys (N : num) : sys N :=
  set_atoms (sbox (sys_ctor (raw_sys N)) (diag (nofZ 12) (nofZ 12) (nofZ 12)))
    [at_pos (mkV (nlit (-4) 10000000) n1 n1); at_pos (mkV (nlit 89999999 10000000) n1 n1)].
Theorem C18_snap_refuted :
  exists (s sc sn : sys F64),
    get_all_neighbors_cells s = Ok sc /\ get_all_neighbors_normal s = Ok sn /\
    map (@nb_idx F64) (nbrs_at sc 0) = [] /\ map (@nb_idx F64) (nbrs_at sn 0) = [1].
Proof.
  set (s := snap_sys F64 <| s_nd := nofZ (n := F64) 3 |>).
  assert (F : match get_all_neighbors_cells s, get_all_neighbors_normal s with
              | Ok sc, Ok sn => (map (@nb_idx F64) (nbrs_at sc 0), map (@nb_idx F64) (nbrs_at sn 0))
              | _, _ => ([], []) end = ([], [1])) by (vm_compute; reflexivity).
  exists s. destruct (get_all_neighbors_cells s) as [sc|]; [|discriminate].
  destruct (get_all_neighbors_normal s) as [sn|]; [|discriminate].
  injection F as F1 F2. exists sc, sn. auto.
Qed.
Print Assumptions C18_snap_refuted.
(** Outside the stated condition: with two cells across, a neighbour is listed
    eight times. *)
Theorem C18_two_cells_refuted :
  exists (s sc sn : sys F64),
    get_all_neighbors_cells s = Ok sc /\ get_all_neighbors_normal s = Ok sn /\
    map (@nb_idx F64) (nbrs_at sc 0) = [1; 1; 1; 1; 1; 1; 1; 1] /\
    map (@nb_idx F64) (nbrs_at sn 0) = [1].
Proof.
  set (s := cub F64 8 [(1,1,1,1); (7,7,7,1)]%Z <| s_nd := nlit (n := F64) 18 5 |>).
  assert (F : match get_all_neighbors_cells s, get_all_neighbors_normal s with
              | Ok sc, Ok sn => (map (@nb_idx F64) (nbrs_at sc 0), map (@nb_idx F64) (nbrs_at sn 0))
              | _, _ => ([], []) end = ([1;1;1;1;1;1;1;1], [1])) by (vm_compute; reflexivity).
  exists s. destruct (get_all_neighbors_cells s) as [sc|]; [|discriminate].
  destruct (get_all_neighbors_normal s) as [sn|]; [|discriminate].
  injection F as F1 F2. exists sc, sn. auto.
Qed.
Print Assumptions C18_two_cells_refuted.

(** ** C19.  [few_within s r i k]: fewer than k atoms are closer to atom i
    than the guessed distance. *)
Theorem C19_number_method :
  forall srt, sorts srt -> forall voro area_pow inv (s : sys Rnum) (f : filt) (t pad : R) (nl k : Z),
  stored s -> nonneg3 (s_len s) -> (1 <= t)%R -> (0 <= k)%Z ->
  ((4000 < s_real s)%Z -> cells_ok s (guess_distance s t)) ->
  match find_neighbors srt voro area_pow inv s (mkArgs (N := Rnum) (MNumber _ k true) f t pad nl) with
  | Ok (s', None) => s_found s' = true /\ length (s_atoms s') = length (s_atoms s) /\
      forall i a, nth_error (s_atoms s) i = Some a ->
        exists a', nth_error (s_atoms s') i = Some a' /\ same_atom a' a /\ nearest s i (Z.to_nat k) (a_nbrs a')
  | Ok (s', Some e) => e = RuntimeError /\ s_found s' = s_found s /\
      exists i, i < length (s_atoms s) /\ few_within s (guess_distance s t) i k
  | Err e => e = UB /\ (300 < k)%Z
  end.
Proof.
  intros srt Hs voro area_pow inv s f t pad nl k St HL Ht Hk Hc.
  pose proof (@number_spec srt Hs voro area_pow inv s f t pad nl k St HL Ht Hc) as H.
  destruct (find_neighbors _ _ _ _ _ _) as [[s' [e|]]|e]; auto.
  - destruct H as (A & B & i & Hi & [H|H]); [lia|]. eauto.
  - destruct H as (A & B & H). split; auto. split; auto. intros i a Ha.
    destruct (H i a Ha) as (a' & ? & ? & _ & ?). eauto.
Qed.
Print Assumptions C19_number_method.
Example C19_runs : lists (run (e_sys F64) (mkArgs (N := F64) (MNumber _ 2 true) FNone (nofZ 5) n1 6)) =
    Some ([[2; 1]; [0; 2]; [0; 3]; [2; 0]; [3; 2]], true, None) /\
  lists (run (e_sys F64) (mkArgs (N := F64) (MNumber _ 5 true) FNone (nofZ 5) n1 6)) =
    Some ([[]; []; []; []; []], false, Some RuntimeError).
Proof. split; vm_compute; reflexivity. Qed.
Example C19_hyp : exists srt, sorts (N := Rnum) srt /\ stored cell_sys /\ nonneg3 (s_len cell_sys) /\
  ((4000 < s_real cell_sys)%Z -> cells_ok cell_sys (guess_distance cell_sys 2%R)).
Proof.
  exists isort. split; [exact isort_sorts|]. split; [reflexivity|]. split.
  - destruct C18_hyp as [_ [[O _] _]]. now apply ortho_nonneg.
  - intros H. exfalso. discriminate H.
Qed.

(** ** C20 *)
Theorem C20_adaptive_method :
  forall srt, sorts srt -> forall voro area_pow inv (s : sys Rnum) (f : filt) (t pad : R) (k : Z) (c : cut Rnum),
  c = CutAdaptive _ \/ c = CutVal (N := Rnum) 0%R ->
  stored s -> nonneg3 (s_len s) -> (1 <= t)%R -> (1 <= k)%Z ->
  ((4000 < s_nop s)%Z -> cells_ok s (guess_distance s t)) ->
  match find_neighbors srt voro area_pow inv s (mkArgs (N := Rnum) (MCutoff c) f t pad k) with
  | Ok (s', None) => s_found s' = true /\ length (s_atoms s') = length (s_atoms s) /\
      forall i a, nth_error (s_atoms s) i = Some a ->
        exists a', nth_error (s_atoms s') i = Some a' /\ same_atom a' a /\
          adaptive_rule s i (Z.to_nat k) pad f
            (fun d => if Z.ltb 4000 (s_nop s) then (d < guess_distance s t)%R else (d <= guess_distance s t)%R)
            (a_nbrs a')
  | Ok (s', Some e) => e = RuntimeError /\ s_found s' = s_found s /\
      exists i, i < length (s_atoms s) /\ few_within s (guess_distance s t) i k
  | Err e => e = UB
  end.
Proof.
  intros srt Hs voro area_pow inv s f t pad k c Hcut St HL Ht Hk Hc.
  pose proof (@adaptive_find srt Hs voro area_pow s f t pad k St HL Hk Hc) as H. cbv zeta in H.
  assert (Et : nltb (n := Rnum) t n1 = false) by (apply Rltb_false; exact Ht).
  assert (G : find_neighbors srt voro area_pow inv s (mkArgs (N := Rnum) (MCutoff c) f t pad k) =
    ('(s, ok) <- get_all_neighbors_adaptive srt (s <| s_atoms := map (@reset_atom_all Rnum) (s_atoms s) |>
      <| s_filter := filter_code f |> <| s_usecells := Z.ltb 4000 (s_nop s) |>) t k pad ;;
          if ok then found s else Ok (s, Some RuntimeError))).
  { unfold find_neighbors. rewrite (reset_stored St). cbn [bind]. cbv zeta.
    cbn [fa_method fa_filter fa_threshold fa_nlimit fa_padding].
    destruct Hcut as [-> | ->].
    - rewrite Et. reflexivity.
    - assert (E0 : neqb (n := Rnum) 0%R n0 = true) by (unfold neqb; simpl; unfold Reqb; destruct (Req_EM_T _ _); auto; lra).
      rewrite E0, Et. reflexivity. }
  rewrite G. destruct (get_all_neighbors_adaptive _ _ _ _ _) as [[s' [|]]|e]; cbn [bind].
  - unfold found. destruct H as [HL' H]. split; [reflexivity|]. split; [exact HL'|].
    intros i a Ha. destruct (H i a Ha) as (a' & H1 & H2 & (near & H3 & H4 & H5)). exists a'. split; [exact H1|].
    split; [exact H2|]. exists near. split; [exact H3|]. split; [exact H4|]. intros e. rewrite (H5 e).
    unfold temp_cmp. destruct (Z.ltb 4000 (s_nop s)); [rewrite Rltb_true|rewrite Rleb_true]; tauto.
  - destruct H as [H1 H2]. auto.
  - tauto.
Qed.
Print Assumptions C20_adaptive_method.
Example C20_runs : lists (run (e_sys F64) (mkArgs (N := F64) (MCutoff (CutAdaptive _)) FNone (nofZ 5) (nlit 5 4) 2)) =
    Some ([[2; 1]; [0]; [0; 3]; [2]; [3; 2; 1; 0]], true, None) /\
  lists (run (e_sys F64) (mkArgs (N := F64) (MCutoff (CutVal (N := F64) n0)) FType (nofZ 5) (nlit 5 4) 2)) =
    Some ([[2]; []; [0; 3]; [2]; [1]], true, None).
Proof. split; vm_compute; reflexivity. Qed.

(** ** C21 *)
(** Atom 5 is among the five nearest atoms of atom 0 (it is sqrt 2 away), but
    the far atom 6 is listed instead: the fourth nearest is skipped. *)
Theorem C21_sann_skips_refuted :
  exists (s s' : sys F64) (e : nbr F64),
    run s (sann_args F64 FNone) = Ok (s', None) /\
    map (@nb_idx F64) (nbrs_at s' 0) = [3; 2; 1; 4; 6] /\
    link s 0 5 = Some e /\ In 6 (map (@nb_idx F64) (nbrs_at s' 0)) /\
    exists e6, link s 0 6 = Some e6 /\ nltb (nb_dist e) (nb_dist e6) = true.
Proof.
  set (s := two_clusters F64). exists s.
  assert (F : match run s (sann_args F64 FNone) with
              | Ok (s', None) => map (@nb_idx F64) (nbrs_at s' 0) | _ => [] end = [3; 2; 1; 4; 6])
    by (vm_compute; reflexivity).
  assert (G : match link s 0 5, link s 0 6 with
              | Some e, Some e6 => nltb (nb_dist e) (nb_dist e6) | _, _ => false end = true)
    by (vm_compute; reflexivity).
  clearbody s.
  destruct (run s (sann_args F64 FNone)) as [[s' [|]]|]; [discriminate| |discriminate].
  destruct (link s 0 5) as [e|]; [|discriminate]. destruct (link s 0 6) as [e6|]; [|discriminate].
  exists s', e. rewrite F. split; auto. split; auto. split; auto. split; [simpl; tauto|]. eauto.
Qed.
Print Assumptions C21_sann_skips_refuted.
(** With four candidates, all within the first radius, the candidate list is
    read one element past its end. *)
Theorem C21_sann_reads_outside_refuted :
  exists s : sys F64, stored s /\ length (s_atoms s) = 5 /\
    run s (sann_args F64 FNone) = Err UB.
Proof.
  set (s := cub F64 20 [(1,1,1,1); (2,1,1,1); (1,2,1,1); (2,2,1,1); (1,1,2,1)]%Z). exists s.
  split; [reflexivity|]. split; [reflexivity|].
  assert (F : match run s (sann_args F64 FNone) with Err UB => true | _ => false end = true)
    by (vm_compute; reflexivity).
  clearbody s.
  destruct (run s (sann_args F64 FNone)) as [[? ?]|e]; [discriminate|]. destruct e; try discriminate. reflexivity.
Qed.
Print Assumptions C21_sann_reads_outside_refuted.

(** ** C22 *)
(** The call writes outside the arrays exactly when some atom has more than
    300 neighbours (any arithmetic). *)
Theorem C22_overrun_iff :
  forall (N : num) srt voro area_pow inv (s : sys N) (r t pad : N) (nl : Z) (f : filt),
  stored s -> (s_real s <= 2300)%Z -> neqb r n0 = false ->
  (find_neighbors srt voro area_pow inv s (mkArgs (MCutoff (CutVal r)) f t pad nl) = Err UB <->
   exists i, i < length (s_atoms s) /\ 300 < length (neighbors_within s r f i)).
Proof.
  intros N srt voro area_pow inv s r t pad nl f St Hs Hr.
  unfold find_neighbors. rewrite (reset_stored St). cbn [bind]. cbv zeta.
  cbn [fa_method fa_filter fa_threshold]. rewrite Hr. unfold real_count.
  match goal with |- context [Z.ltb 2300 ?x] => change x with (s_real s) end.
  assert (E : Z.ltb 2300 (s_real s) = false) by (apply Z.ltb_ge; lia). rewrite E.
  pose proof (@normal_spec N s f r St) as H.
  destruct (get_all_neighbors_normal _) as [s'|e]; cbn [bind].
  - destruct H as [[HL H] _]. split; [discriminate|]. intros (i & Hi & Hlen).
    destruct (nth_error (s_atoms s) i) as [a|] eqn:Ea; [|apply nth_error_None in Ea; lia].
    destruct (H i a Ea) as (a' & _ & _ & H3 & _ & H5 & _). rewrite H3 in H5. unfold max_nbrs in H5. lia.
  - destruct H as (-> & H). split; auto.
Qed.
Print Assumptions C22_overrun_iff.
Theorem C22_overrun_refuted :
  exists s : sys F64, stored s /\ run s (cutoff_args F64 1 FNone) = Err UB.
Proof.
  set (s := cub F64 20 (repeat (1,1,1,1)%Z 302)). exists s. split; [reflexivity|].
  assert (F : match run s (cutoff_args F64 1 FNone) with Err UB => true | _ => false end = true)
    by (vm_compute; reflexivity).
  clearbody s.
  destruct (run s (cutoff_args F64 1 FNone)) as [[? ?]|e]; [discriminate|]. destruct e; try discriminate. reflexivity.
Qed.
Print Assumptions C22_overrun_refuted.

(** ** C23.  [calls]: earlier searches with any arguments (including ones that
    raised) and calls of reset_neighbors ([None]); the earlier searches do not
    put a triclinic cell without ghosts into a larger one (core.py:560). *)
Theorem C23_history_independent :
  forall (N : num) srt voro area_pow inv (s0 s s' : sys N) (B : m3 N) (l : list (atom N))
         (calls : list (option (fn_args N))) (args : fn_args N),
  box_set inv s0 B = Ok s ->
  (forall a mem, In (Some a) calls -> fa_method a = MVoronoi mem -> s_tri s = false \/ s_ghosts_created s = true) ->
  foldM (earlier srt voro area_pow inv) calls (set_atoms s l) = Ok s' ->
  match find_neighbors srt voro area_pow inv (set_atoms s l) args,
        find_neighbors srt voro area_pow inv s' args with
  | Ok (s1, e1), Ok (s2, e2) => e1 = e2 /\ length (s_atoms s1) = length (s_atoms s2) /\
                                forall i, nbrs_at s1 i = nbrs_at s2 i
  | Err e1, Err e2 => e1 = e2
  | _, _ => False
  end.
Proof.
  intros N srt voro area_pow inv s0 s s' B l calls args HB HN E.
  assert (St : stored (set_atoms s l)) by reflexivity.
  assert (Se : box_settled inv (set_atoms s l)) by (apply set_atoms_settled; eapply box_set_settled; eauto).
  assert (Ne : forall a, In (Some a) calls -> no_embed (set_atoms s l) a).
  { intros a Ha. specialize (HN a). unfold no_embed. destruct (fa_method a) as [| |mem|]; auto. exact (HN mem Ha eq_refl). }
  pose proof (@history N srt voro area_pow inv (set_atoms s l) calls s' args St Se Ne E) as H.
  unfold searches in H. 
  destruct (find_neighbors srt voro area_pow inv (set_atoms s l) args) as [[s1 e1]|e1],
           (find_neighbors srt voro area_pow inv s' args) as [[s2 e2]|e2]; try exact H.
  destruct H as [[HL _] He]. cbn [fst snd] in *. split; auto. split; [now apply La_length|].
  intros i. unfold nbrs_at. clear -HL. revert i. induction HL; intros [|i]; simpl; auto.
  now apply Ra_nbrs.
Qed.
Print Assumptions C23_history_independent.
Example C23_runs : 
  match foldM (earlier isort no_voro idp no_inv)
          [Some (sann_args F64 FType); None; Some (cutoff_args F64 4 FTypeR);
           Some (mkArgs (N := F64) (MNumber _ 2 true) FType n1 n1 6)] (two_clusters F64) with
  | Ok s => lists (run s (cutoff_args F64 2 FType)) | Err _ => None end =
  lists (run (two_clusters F64) (cutoff_args F64 2 FType)) /\
  lists (run (two_clusters F64) (cutoff_args F64 2 FType)) =
    Some ([[2; 4]; [3; 5]; [0; 4]; [1; 5]; [0; 2]; [1; 3];
           [8; 10]; [9; 11]; [6; 10]; [7; 11]; [6; 8]; [7; 9]], true, None).
Proof. split; vm_compute; reflexivity. Qed.

(** ** C24 *)
Definition threshold_method {N : num} (m : meth N) : Prop :=
  match m with
  | MCutoff (CutSann _) | MCutoff (CutAdaptive _) | MNumber _ _ _ => True
  | MCutoff (CutVal c) => neqb c n0 = true
  | _ => False
  end.
Theorem C24_bad_arguments_rejected :
  forall (N : num) srt voro area_pow inv (s : sys N) (args : fn_args N) (e : err),
  stored s ->
  (threshold_method (fa_method args) /\ nltb (fa_threshold args) n1 = true /\ e = ValueError) \/
  ((fa_method args = MCutoff (CutNone N) \/ fa_method args = MCutoff (CutStr N)) /\ e = TypeError) ->
  exists s', find_neighbors srt voro area_pow inv s args = Ok (s', Some e) /\
    s_found s' = s_found s /\ forall i, nbrs_at s' i = [].
Proof.
  intros N srt voro area_pow inv s args e St H.
  exists (s <| s_atoms := map (@reset_atom_all N) (s_atoms s) |> <| s_filter := filter_code (fa_filter args) |>).
  split; [|split; [reflexivity|]].
  - unfold find_neighbors. rewrite (reset_stored St). cbn [bind]. cbv zeta.
    destruct H as [(Hm & Ht & ->)|([Hm|Hm] & ->)]; [|rewrite Hm; reflexivity..].
    unfold threshold_method in Hm. destruct (fa_method args) as [[| | | |c]|k a| |]; try contradiction.
    + now rewrite Ht.
    + now rewrite Ht.
    + rewrite Hm. now rewrite Ht.
    + now rewrite Ht.
  - intros i. unfold nbrs_at. simpl. rewrite nth_error_map. destruct (nth_error (s_atoms s) i); reflexivity.
Qed.
Print Assumptions C24_bad_arguments_rejected.
(** An unknown method is accepted: neighbours are reported as found and every
    list is empty, for every system. *)
Theorem C24_unknown_method_refuted :
  forall (N : num) srt voro area_pow inv (s : sys N) f t pad nl, stored s ->
  exists s', find_neighbors srt voro area_pow inv s (mkArgs (MOther N) f t pad nl) = Ok (s', None) /\
    s_found s' = true /\ forall i, nbrs_at s' i = [].
Proof.
  intros N srt voro area_pow inv s f t pad nl St.
  eexists. split; [|split; [|]].
  - unfold find_neighbors. rewrite (reset_stored St). cbn [bind]. reflexivity.
  - reflexivity.
  - intros i. unfold nbrs_at. simpl. rewrite nth_error_map. destruct (nth_error (s_atoms s) i); reflexivity.
Qed.
Print Assumptions C24_unknown_method_refuted.
(** A rejected call after a successful one deletes the neighbours but leaves
    them reported as found. *)
Theorem C24_stale_flag_refuted :
  exists (s s1 s2 : sys F64) (a1 a2 : fn_args F64),
    run s a1 = Ok (s1, None) /\ run s1 a2 = Ok (s2, Some ValueError) /\
    s_found s2 = true /\ map (@nb_idx F64) (nbrs_at s1 0) = [1; 2] /\ forall i, nbrs_at s2 i = [].
Proof.
  set (s := e_sys F64). set (a1 := cutoff_args F64 4 FNone).
  assert (F : match run s a1 with Ok (s1, None) => (map (@nb_idx F64) (nbrs_at s1 0), s_found s1, Z.of_nat (length (s_atoms s1)), s_nop s1)
              | _ => ([], false, 0%Z, 0%Z) end = ([1; 2], true, 5%Z, 5%Z)) by (vm_compute; reflexivity).
  clearbody s a1.
  destruct (run s a1) as [[s1 [|]]|] eqn:E; [discriminate| |discriminate].
  injection F as F1 F2 F3 F4.
  set (a2 := mkArgs (N := F64) (MNumber _ 2 true) FNone n0 n1 6).
  destruct (@C24_bad_arguments_rejected F64 isort no_voro idp no_inv s1 a2 ValueError) as (s2 & H1 & H2 & H3).
  - unfold stored. congruence.
  - left. repeat split.
  - exists s, s1, s2, a1, a2. rewrite F2 in H2. auto.
Qed.
Print Assumptions C24_stale_flag_refuted.
