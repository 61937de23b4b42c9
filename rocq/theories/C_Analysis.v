(** Properties C44, C45, C46, C49, C50: angles, short range order, radial
    distribution function and concentration. *)
From Coq Require Import Reals Lra ZArith List Lia Permutation Sorted.
From Verif Require Import Base Num NumR NumF NumP Types Ex M_Geometry M_Container M_Neighbors M_Analysis
  S_Geometry P_Geometry P_Box S_Container S_Neighbors S_Steinhardt S_CNA S_Local S_Analysis
  P_Container P_Neighbors P_Harmonics P_FindN P_CNA P_Centro P_Analysis
  C_Neighbors C_Cluster C_CNA C_Steinhardt.
Import ListNotations.
Close Scope R_scope. Close Scope Z_scope.
#[local] Open Scope nat_scope.

(** One function satisfying the promise of np.argsort. *)
Definition arg_sort {N : num} (l : list N) : list nat :=
  map (@d_idx N) (isort (map (fun i => mkDatom (nth i l n0) i) (seq 0 (length l)))).
Example arg_sort_sorts : argsorts (@arg_sort Rnum).
Proof.
  intros l. unfold arg_sort. set (ds := map (fun i => mkDatom (N := Rnum) (nth i l n0) i) (seq 0 (length l))).
  destruct (isort_sorts ds) as [P S].
  assert (E : map (@d_idx Rnum) ds = seq 0 (length l)).
  { unfold ds. rewrite map_map. cbn [d_idx]. apply map_id. }
  split.
  - rewrite <- E. apply Permutation_map. now symmetry.
  - intros i j [H1 H2]. assert (L : length (isort ds) = length l).
    { rewrite (Permutation_length P). unfold ds. now rewrite map_length, seq_length. }
    assert (G : forall k, k < length l -> exists d, nth_error (isort ds) k = Some d /\ nth k (map (@d_idx Rnum) (isort ds)) 0 = d_idx d /\ d_dist d = nth (d_idx d) l n0).
    { intros k Hk. destruct (nth_error (isort ds) k) as [d|] eqn:Ek; [|apply nth_error_None in Ek; lia].
      exists d. split; auto. split; [now apply nth_error_nth, map_nth_error|].
      apply nth_error_In in Ek. apply (Permutation_in _ P) in Ek. unfold ds in Ek. apply in_map_iff in Ek as (m & <- & _). reflexivity. }
    destruct (G i ltac:(lia)) as (d & D1 & D2 & D3). destruct (G j ltac:(lia)) as (e & E1 & E2 & E3).
    rewrite D2, E2. change 0%R with (n0 : Rnum). change R with (carrier Rnum). rewrite <- D3, <- E3.
    clear -S D1 E1 H1. revert i j H1 D1 E1. induction S as [|x m Sm IH F]; intros [|i] [|j] H1 D1 E1; cbn in D1, E1; try discriminate; try lia.
    + injection D1 as ->. apply nth_error_In in E1. rewrite Forall_forall in F. specialize (F _ E1). cbn in F. apply Rltb_false in F. lra.
    + apply (IH i j); auto. lia.
Qed.

(** ** C44 *)
(** Every call: each value is the sum over the pairs of the (at most) four
    nearest neighbours of (cos + 1/3)^2; the other outcomes. *)
Theorem C44_value :
  forall inv raw argsort, argsorts argsort -> forall (s : sys Rnum) atoms, get_atoms s = Ok atoms ->
  match calculate_angularcriteria inv raw argsort s with
  | Ok (t, vals) => atoms_set inv raw s atoms = Ok t /\
      Forall2 (fun a (v : Rnum) => exists top, shortest 4 (neighbor_vectors s atoms a) top /\
                                     v = over_pairs zero_vec tetra_dev top) atoms vals
  | Err x => (x = IndexError /\ exists a e, In a atoms /\ In e (a_nbrs a) /\ length atoms <= nb_idx e) \/
      atoms_set inv raw s atoms = Err x
  end.
Proof.
  intros inv raw argsort Hs s atoms E. unfold calculate_angularcriteria. rewrite E. cbn [bind].
  destruct (mapM (angular_value argsort s atoms) atoms) as [vals|x] eqn:M; cbn [bind].
  - destruct (atoms_set inv raw s atoms) as [t|x] eqn:A; cbn [bind]; [|now right]. split; auto.
    apply mapM_inv in M. eapply Forall2_impl; [|exact M]. intros a v Hv.
    pose proof (angular_run Hs s atoms a) as R. rewrite Hv in R. exact R.
  - left. apply mapM_Err in M as (a & Ha & Hx). pose proof (angular_run Hs s atoms a) as R. rewrite Hx in R.
    destruct R as (-> & e & He & L). split; auto. now exists a, e.
Qed.
Print Assumptions C44_value.

(** With four neighbours or more: six terms, never negative, and 0 exactly when
    all six angles are tetrahedral. *)
Theorem C44_tetrahedral :
  forall inv raw argsort, argsorts argsort -> forall (s : sys Rnum) atoms t vals, get_atoms s = Ok atoms ->
  calculate_angularcriteria inv raw argsort s = Ok (t, vals) ->
  forall i a, nth_error atoms i = Some a -> 4 <= length (a_nbrs a) ->
  exists v1 v2 v3 v4 (x : R), shortest 4 (neighbor_vectors s atoms a) [v1; v2; v3; v4] /\
    nth_error vals i = Some (x : Rnum) /\
    (x = (cosine v1 v2 + 1/3)^2 + (cosine v1 v3 + 1/3)^2 + (cosine v1 v4 + 1/3)^2 +
         (cosine v2 v3 + 1/3)^2 + (cosine v2 v4 + 1/3)^2 + (cosine v3 v4 + 1/3)^2)%R /\
    (0 <= x)%R /\
    (x = 0%R <-> forall v w, In (v, w) [(v1, v2); (v1, v3); (v1, v4); (v2, v3); (v2, v4); (v3, v4)] ->
                  cosine v w = (- (1/3))%R).
Proof.
  intros inv raw argsort Hs s atoms t vals E Q i a Ea Ln.
  pose proof (C44_value inv raw argsort Hs s atoms E) as V. rewrite Q in V. destruct V as [_ F].
  assert (G : forall l l', Forall2 (fun a (v : Rnum) => exists top, shortest 4 (neighbor_vectors s atoms a) top /\
                                     v = over_pairs zero_vec tetra_dev top) l l' ->
    forall i, nth_error l i = Some a -> exists v top, nth_error l' i = Some v /\ shortest 4 (neighbor_vectors s atoms a) top /\
                                     v = over_pairs zero_vec tetra_dev top).
  { clear. intros l l' F. induction F as [|b v l l' H F IH]; intros [|i] Hi; cbn in Hi; try discriminate; [|exact (IH _ Hi)].
    injection Hi as ->. destruct H as (top & H1 & H2). exists v, top. auto. }
  destruct (G _ _ F _ Ea) as (x & top & N1 & N2 & N3). clear G F.
  assert (Lt : length top = 4).
  { destruct N2 as (rest & _ & L & _). rewrite L. unfold neighbor_vectors. rewrite map_length. lia. }
  destruct top as [|v1 [|v2 [|v3 [|v4 [|]]]]]; try discriminate. clear Lt.
  exists v1, v2, v3, v4, x. split; auto. split; auto.
  assert (X : (x = (cosine v1 v2 + 1/3)^2 + (cosine v1 v3 + 1/3)^2 + (cosine v1 v4 + 1/3)^2 +
         (cosine v2 v3 + 1/3)^2 + (cosine v2 v4 + 1/3)^2 + (cosine v3 v4 + 1/3)^2)%R).
  { rewrite N3. unfold over_pairs. change (pairs (length [v1; v2; v3; v4])) with [(0,1);(0,2);(0,3);(1,2);(1,3);(2,3)].
    cbn [map fst snd nth]. rewrite !Rsum_cons. change (Rsum []) with 0%R. unfold tetra_dev. lra. }
  split; [exact X|]. clear -X.
  pose proof (pow2_ge_0 (cosine v1 v2 + 1/3)). pose proof (pow2_ge_0 (cosine v1 v3 + 1/3)).
  pose proof (pow2_ge_0 (cosine v1 v4 + 1/3)). pose proof (pow2_ge_0 (cosine v2 v3 + 1/3)).
  pose proof (pow2_ge_0 (cosine v2 v4 + 1/3)). pose proof (pow2_ge_0 (cosine v3 v4 + 1/3)).
  split; [rewrite X; lra|]. split.
  - intros Z. rewrite X in Z.
    assert (S0 : forall y, (y ^ 2 <= 0)%R -> y = 0%R).
    { intros y Hy. destruct (Req_dec y 0) as [|Ny]; auto. pose proof (Rsqr_pos_lt y Ny) as Q. unfold Rsqr in Q. cbn [pow] in Hy. lra. }
    intros v w [K|[K|[K|[K|[K|[K|[]]]]]]]; injection K as <- <-;
      [pose proof (S0 (cosine v1 v2 + 1/3)%R ltac:(lra))|pose proof (S0 (cosine v1 v3 + 1/3)%R ltac:(lra))
      |pose proof (S0 (cosine v1 v4 + 1/3)%R ltac:(lra))|pose proof (S0 (cosine v2 v3 + 1/3)%R ltac:(lra))
      |pose proof (S0 (cosine v2 v4 + 1/3)%R ltac:(lra))|pose proof (S0 (cosine v3 v4 + 1/3)%R ltac:(lra))]; lra.
  - intros K. rewrite X, !K by (cbn; auto 10). lra.
Qed.
Print Assumptions C44_tetrahedral.

(** The list of atoms indexed has no ghosts: a ghost neighbour (an index not
    below the number of real atoms) raises IndexError, for any arithmetic. *)
Theorem C44_ghost_neighbour :
  forall (N : num) inv raw argsort (s : sys N) atoms a e, get_atoms s = Ok atoms ->
  In a atoms -> In e (a_nbrs a) -> length atoms <= nb_idx e ->
  calculate_angularcriteria inv raw argsort s = Err IndexError.
Proof.
  intros N inv raw argsort s atoms a e E Ha He L. unfold calculate_angularcriteria. rewrite E. cbn [bind].
  assert (D : forall b x, angular_value argsort s atoms b = Err x -> x = IndexError).
  { intros b x. unfold angular_value.
    match goal with |- bind ?m _ = _ -> _ => destruct m as [dv|y] eqn:M end; cbn [bind].
    - set (l := combos _). generalize (n0 (N := N)). induction l as [|c l IH]; intros z; cbn [foldM]; [discriminate|].
      destruct (py_get (map snd dv) (Z.of_nat (fst c))) as [v1|y1] eqn:P1; cbn [bind];
        [|apply py_get_cases in P1 as [-> _]; now intros [= <-]].
      destruct (py_get (map snd dv) (Z.of_nat (snd c))) as [v2|y2] eqn:P2; cbn [bind];
        [|apply py_get_cases in P2 as [-> _]; now intros [= <-]].
      apply IH.
    - intros [= <-]. apply mapM_Err in M as (d & _ & M).
      destruct (py_get atoms (Z.of_nat (nb_idx d))) as [b'|y1] eqn:P1; cbn [bind] in M; [discriminate|].
      injection M as <-. now apply py_get_cases in P1 as [-> _]. }
  destruct (mapM (angular_value argsort s atoms) atoms) as [vals|x] eqn:M; cbn [bind].
  - exfalso. apply mapM_inv in M.
    assert (H : exists v, angular_value argsort s atoms a = Ok v).
    { assert (Q : forall m m', Forall2 (fun a b => angular_value argsort s atoms a = Ok b) m m' -> In a m -> exists v, angular_value argsort s atoms a = Ok v); [|exact (Q _ _ M Ha)]. clear. intros m m' M. induction M as [|b v m m' H M IH]; intros []; subst; eauto. }
    destruct H as [v H]. unfold angular_value in H.
    match type of H with bind ?m _ = _ => destruct m as [dv|y] eqn:K end; cbn [bind] in H; [|discriminate].
    apply mapM_inv in K. clear -K He L. revert K He. generalize (a_nbrs a). intros ns K He.
    induction K as [|d r m m' H M IH]; [destruct He|]. destruct He as [->|He]; [|exact (IH He)].
    rewrite py_get_Err in H by exact L. discriminate.
  - apply mapM_Err in M as (b & _ & M). now rewrite (D _ _ M).
Qed.
Print Assumptions C44_ghost_neighbour.

(** An atom with the four neighbours of a tetrahedron, and a fifth one. *)
Definition tet_sys (N : num) : sys N :=
  let s := cub N 20 [(5,5,5,1); (6,6,6,1); (6,4,4,1); (4,6,4,1); (4,4,6,1); (7,7,5,1)]%Z in
  set_atoms s (match s_atoms s with
    | a :: l => (a <| a_nbrs := [nb N 5 2 2 0 n1; nb N 1 1 1 1 n1; nb N 2 1 (-1) (-1) n1;
                                 nb N 3 (-1) 1 (-1) n1; nb N 4 (-1) (-1) 1 n1] |>) :: l
    | [] => [] end).
Definition any_inv {N : num} : m3 N -> option (m3 N) := fun m => Some m.
Definition rawf {N : num} : Z -> atom N := fun _ => raw_atom N.
Example C44_hyp : argsorts (@arg_sort Rnum) /\ exists atoms t vals, get_atoms (tet_sys Rnum) = Ok atoms /\
  calculate_angularcriteria any_inv rawf arg_sort (tet_sys Rnum) = Ok (t, vals) /\
  exists a, nth_error atoms 0 = Some a /\ length (a_nbrs a) = 5.
Proof.
  split; [exact arg_sort_sorts|]. set (l := s_atoms (tet_sys Rnum)).
  assert (E : get_atoms (tet_sys Rnum) = Ok l) by reflexivity.
  pose proof (C44_value any_inv rawf arg_sort arg_sort_sorts (tet_sys Rnum) l E) as V.
  assert (A : exists t, atoms_set any_inv rawf (tet_sys Rnum) l = Ok t).
  { apply atoms_set_ok; [discriminate| |discriminate]. cbn. unfold box_sum. cbn. apply Reqb_false. lra. }
  destruct A as [t Et].
  destruct (calculate_angularcriteria any_inv rawf arg_sort (tet_sys Rnum)) as [[t' vals]|x].
  - exists l, t', vals. split; auto. split; auto. eexists. split; reflexivity.
  - exfalso. rewrite Et in V. destruct V as [(_ & a & e & Ha & He & L)|V]; [|discriminate].
    change (length l) with 6 in L. cbn in Ha.
    repeat (destruct Ha as [<-|Ha]; [cbn in He; repeat (destruct He as [<-|He]; [cbn in L; lia|]); destruct He|]). destruct Ha.
Qed.

(** Runs in double precision: 0 up to rounding for the tetrahedron and for
    the atoms of a diamond crystal, not for a fcc crystal. *)
Definition near0 (x : P64) : bool := nltb (nabs x) (nlit 1 1000000000).
Definition crystal (N : num) (L : Z) (p : list (Z * Z * Z * Z)) (r : N) : res (sys N) :=
  match find_neighbors isort no_voro idp no_inv (cub N L p) (mkArgs (MCutoff (CutVal r)) FNone (nofZ 2) (nlit 6 5) 6) with
  | Ok (s, None) => Ok s
  | Ok (s, Some e) => Err e
  | Err e => Err e
  end.
Definition angular_of (r : res (sys P64)) : res (list P64) :=
  s <- r ;; '(_, v) <- calculate_angularcriteria any_inv rawf arg_sort s ;; Ok v.
Definition test {A} (p : A -> bool) (r : res A) : bool := match r with Ok v => p v | Err _ => false end.
Example C44_runs :
  test (fun v => near0 (nth 0 v n1)) (angular_of (Ok (tet_sys P64))) = true /\
  test (fun v => forallb near0 v && Nat.eqb (length v) 64)%bool (angular_of (crystal P64 8 (grid 8 is_dia) (nofZ 2))) = true /\
  test (fun v => forallb (fun x => nltb n1 x) v && Nat.eqb (length v) 32)%bool
    (angular_of (crystal P64 4 (grid 4 (fun x y z => Z.even (x + y + z))) (nlit 16 10))) = true.
Proof. split; [|split]; vm_compute; reflexivity. Qed.

(** REFUTED for systems below 200 atoms: the atoms setter surrounds them with
    ghosts, and an atom whose neighbours include one has no value.  One cubic
    cell of diamond; every atom has four neighbours. *)
Definition cell_run (N : num) (L : Z) (p : list (Z * Z * Z * Z)) (r : N) : res (sys N) :=
  s <- atoms_set any_inv rawf (cub N L p) (s_atoms (cub N L p)) ;;
  o <- find_neighbors isort no_voro idp no_inv s (mkArgs (MCutoff (CutVal r)) FNone (nofZ 2) (nlit 6 5) 6) ;;
  match o with (s, None) => Ok s | (_, Some e) => Err e end.
Theorem C44_small_systems_refuted :
  exists s : sys P64, cell_run P64 4 (grid 4 is_dia) (nofZ 2) = Ok s /\
    (forall atoms, get_atoms s = Ok atoms -> length atoms = 8 /\ forall a, In a atoms -> length (a_nbrs a) = 4) /\
    forall inv raw argsort, calculate_angularcriteria inv raw argsort s = Err IndexError.
Proof.
  assert (F : test (fun s => match get_atoms s with
      | Ok l => Nat.eqb (length l) 8 && forallb (fun a => Nat.eqb (length (a_nbrs a)) 4) l &&
                existsb (fun a => existsb (fun e => Nat.leb (length l) (nb_idx e)) (a_nbrs a)) l
      | Err _ => false end)%bool (cell_run P64 4 (grid 4 is_dia) (nofZ 2)) = true) by (vm_compute; reflexivity).
  destruct (cell_run P64 4 (grid 4 is_dia) (nofZ 2)) as [s|]; [|discriminate F].
  exists s. split; [reflexivity|]. cbn [test] in F. destruct (get_atoms s) as [l|] eqn:E; [|discriminate F].
  apply Bool.andb_true_iff in F as [F F3]. apply Bool.andb_true_iff in F as [F1 F2]. apply Nat.eqb_eq in F1.
  rewrite forallb_forall in F2. apply existsb_exists in F3 as (a & Ha & F3). apply existsb_exists in F3 as (e & He & F3).
  apply Nat.leb_le in F3. split.
  - intros atoms [= <-]. split; auto. intros b Hb. now apply Nat.eqb_eq, F2.
  - intros. eapply C44_ghost_neighbour; eauto.
Qed.
Print Assumptions C44_small_systems_refuted.

(** ** C45 *)
(** The bins: bin k holds the pairs of neighbour vectors with the cosine in
    [e_k, e_(k+1)), the last one including its upper edge. *)
Theorem C45_bins :
  forall (a : atom Rnum) k, k < 9 ->
  length (chi_vector a) = 9 /\
  nth k (chi_vector a) 0%Z =
  Z.of_nat (count_pairs zero_vec (fun v w => in_bin (nth k chi_edges 0%R) (nth (S k) chi_edges 0%R) (k =? 8) (cosine v w))
              (map (@nb_vec Rnum) (a_nbrs a))).
Proof.
  intros a k Hk. unfold chi_vector.
  assert (EB : chi_bins Rnum = chi_edges).
  { unfold chi_bins, chi_edges. repeat apply f_equal2; try reflexivity; cbn; lra. }
  rewrite EB. unfold chi_edges at 1 2. unfold histogram. split; [now rewrite hist_length|].
  pose proof (@hist_nth (chi_cosines a) (tl chi_edges) (- 1)%R k) as H. unfold chi_edges at 3 in H. cbn [tl] in H. unfold histogram in H.
  rewrite H; [|cbn; lra|exact Hk]. clear H. f_equal.
  rewrite <- (@count_combos _ zero_vec cosine). unfold chi_cosines.
  rewrite (map_ext (fun c => cosine (fst c) (snd c)) (fun c => cos_theta (N := Rnum) (fst c) (snd c))).
  - reflexivity.
  - intros c. symmetry. apply cos_theta_cosine.
Qed.
Print Assumptions C45_bins.

(** No pair is lost over the reals: n(n-1)/2 in total. *)
Theorem C45_total :
  forall a : atom Rnum, (forall e, In e (a_nbrs a) -> nonzero_vec (nb_vec e)) ->
  (2 * fold_right Z.add 0 (chi_vector a))%Z = (Z.of_nat (length (a_nbrs a)) * (Z.of_nat (length (a_nbrs a)) - 1))%Z.
Proof.
  intros a H. unfold chi_vector, chi_bins. rewrite hist_sum by discriminate. cbn [last].
  assert (F : forall (p : Rnum -> bool) (b : bool), (forall v w, nonzero_vec v -> nonzero_vec w -> p (cosine v w) = b) ->
    filter p (chi_cosines a) = if b then chi_cosines a else []).
  { intros p b Hp. unfold chi_cosines.
    assert (G : forall c, In c (combos (map (nb_vec (N:=Rnum)) (a_nbrs a))) -> p (cos_theta (fst c) (snd c)) = b).
    { intros [v w] Hc. apply In_combos in Hc as [Hv Hw]. apply in_map_iff in Hv as (e & <- & He). apply in_map_iff in Hw as (f & <- & Hf).
      cbn [fst snd]. rewrite cos_theta_cosine. apply Hp; auto. }
    revert G. generalize (combos (map (nb_vec (N:=Rnum)) (a_nbrs a))). intros l.
    induction l as [|c l IH]; intros G; [now destruct b|]. cbn [map filter]. rewrite (G c) by (now left).
    rewrite IH by (intros d Hd; apply G; now right). destruct b; reflexivity. }
  unfold upto, below. rewrite (F _ true), (F _ false).
  - unfold chi_cosines. rewrite map_length. pose proof (length_combos (map (nb_vec (N:=Rnum)) (a_nbrs a))) as L.
    rewrite map_length in L. cbn [length]. destruct (length (a_nbrs a)); nia.
  - intros v w Hv Hw. apply Rltb_false. pose proof (cosine_range Hv Hw). cbn. lra.
  - intros v w Hv Hw. apply Rleb_true. pose proof (cosine_range Hv Hw). cbn. lra.
Qed.
Print Assumptions C45_total.

(** Any arithmetic: the pairs counted are those whose computed cosine is at
    most 1, less those below -1.  (Comparisons of numbers that are not nan
    exclude each other, so these are the ones in [-1, 1].) *)
Theorem C45_counted :
  forall (N : num) (a : atom N),
  fold_right Z.add 0%Z (chi_vector a) =
  (Z.of_nat (length (filter (fun x => nleb x (nofZ 1)) (chi_cosines a))) -
   Z.of_nat (length (filter (fun x => nltb x (nofZ (-1))) (chi_cosines a))))%Z.
Proof. intros N a. unfold chi_vector, chi_bins. now rewrite hist_sum by discriminate. Qed.
Print Assumptions C45_counted.

(** The call: one vector per atom, which does not depend on [angles]; no
    neighbour index is used, so that ghost neighbours are counted too. *)
Theorem C45_call :
  forall (N : num) inv raw (s : sys N) angles atoms, get_atoms s = Ok atoms ->
  match calculate_chiparams inv raw s angles with
  | Ok (t, vals) => atoms_set inv raw s atoms = Ok t /\ map fst vals = map (@chi_vector N) atoms /\
      forall i a, nth_error atoms i = Some a -> exists c, nth_error vals i = Some c /\
        (if angles then exists l, snd c = Some l /\ 2 * length l = length (a_nbrs a) * (length (a_nbrs a) - 1) else snd c = None)
  | Err x => atoms_set inv raw s atoms = Err x
  end.
Proof.
  intros N inv raw s angles atoms E. unfold calculate_chiparams. rewrite E. cbn [bind].
  destruct (atoms_set inv raw s atoms) as [t|]; cbn [bind]; auto. split; auto. split; [now rewrite map_map|].
  intros i a Ha. eexists. split; [apply map_nth_error; exact Ha|]. cbn [snd]. destruct angles; auto.
  eexists. split; [reflexivity|]. unfold chi_cosines. rewrite map_length. pose proof (length_combos (map (nb_vec (N:=N)) (a_nbrs a))) as L.
  now rewrite map_length in L.
Qed.
Print Assumptions C45_call.

(** Five neighbours, two of them opposite and two in the same direction. *)
Definition chi_atom (N : num) : atom N :=
  with_nbrs N [nb N 1 2 0 0 n1; nb N 2 (-2) 0 0 n1; nb N 3 3 0 0 n1; nb N 4 0 2 0 n1; nb N 5 1 0 2 n1].
Example C45_hyp : (forall e, In e (a_nbrs (chi_atom Rnum)) -> nonzero_vec (nb_vec e)) /\
  length (a_nbrs (chi_atom Rnum)) = 5 /\ chi_vector (chi_atom P64) = [2; 0; 0; 0; 1; 4; 0; 2; 1]%Z.
Proof.
  split; [|split; [reflexivity|vm_compute; reflexivity]].
  intros e [<-|[<-|[<-|[<-|[<-|[]]]]]]; unfold nonzero_vec, len2; cbn; lra.
Qed.
Example C45_call_hyp : exists atoms t vals, get_atoms (tet_sys P64) = Ok atoms /\
  calculate_chiparams any_inv rawf (tet_sys P64) true = Ok (t, vals) /\ length atoms = 6.
Proof.
  assert (F : test (fun p => Nat.eqb (length (snd p)) 6) (calculate_chiparams any_inv rawf (tet_sys P64) true) = true) by (vm_compute; reflexivity).
  exists (s_atoms (tet_sys P64)).
  destruct (calculate_chiparams any_inv rawf (tet_sys P64) true) as [[t vals]|]; [|discriminate F].
  exists t, vals. repeat split; reflexivity.
Qed.

(** REFUTED in double precision: the cosine of two opposite vectors can come
    out below -1, and the pair is in no bin.  Already for the neighbours
    (1,1,1) and (-1,-1,-1), as in a bcc crystal. *)
Definition opp_atom (N : num) : atom N := with_nbrs N [nb N 1 1 1 1 n1; nb N 2 (-1) (-1) (-1) n1].
Theorem C45_total_refuted :
  exists a : atom F64, length (a_nbrs a) = 2 /\
    (forall e, In e (a_nbrs a) -> exists x y z, nb_vec e = mkV x y z /\
        neqb x n0 = false /\ neqb y n0 = false /\ neqb z n0 = false) /\
    fold_right Z.add 0%Z (chi_vector a) = 0%Z.
Proof.
  exists (opp_atom F64). split; [reflexivity|]. split; [|vm_compute; reflexivity].
  intros e [<-|[<-|[]]]; do 3 eexists; (split; [reflexivity|]); repeat split; vm_compute; reflexivity.
Qed.
Print Assumptions C45_total_refuted.
(** The eight neighbours of an atom of a bcc crystal: 24 of the 28 pairs. *)
Example C45_bcc :
  fold_right Z.add 0%Z (chi_vector (with_nbrs F64 (flat_map (fun x => flat_map (fun y => map (fun z => nb F64 1 x y z n1)
    [1; -1]) [1; -1]) [1; -1])%Z)) = 24%Z.
Proof. vm_compute. reflexivity. Qed.

(** ** C46 *)
(** calculate_sro for alloys of the types 1 and 2: the documented value for
    every shell that is not empty; the averages; the other outcomes.  [olds] are
    the sro attributes before the call. *)
Theorem C46_sro :
  forall inv raw (s : sys Rnum) atoms olds ref average shells,
  get_all_atoms s = Ok atoms -> length olds = length atoms -> binary atoms ->
  match calculate_sro inv raw s olds ref average shells with
  | Ok (t, sros, v) =>
      s_found s = true /\ (ref = 1%Z \/ ref = 2%Z) /\ (exists a, In a atoms /\ a_type a = 1%Z) /\ (exists a, In a atoms /\ a_type a = 2%Z) /\
      atoms_set inv raw s atoms = Ok t /\ length sros = length atoms /\
      (forall i a old, nth_error atoms i = Some a -> nth_error olds i = Some old -> exists new,
         nth_error sros i = Some new /\ sro_entry s atoms ref shells (warren_cowley ref atoms) a old new) /\
      v = (if average then Some (sro_mean ref atoms sros (fun l => nth 0 l 0%R) : Rnum,
                                 sro_mean ref atoms sros (fun l => last l 0%R) : Rnum) else None)
  | Err x =>
      (x = RuntimeError /\ (s_found s = false \/ exists t, (t = 1%Z \/ t = 2%Z) /\ forall a, In a atoms -> a_type a <> t)) \/
      (x = ValueError /\ ref <> 1%Z /\ ref <> 2%Z) \/
      (x = IndexError /\ exists a e, In a atoms /\ In e (a_nbrs a) /\ length atoms <= nb_idx e) \/
      atoms_set inv raw s atoms = Err x \/
      (x = ValueError /\ average = true /\ shells <> 1%Z /\ shells <> 2%Z)
  end.
Proof.
  intros inv raw s atoms olds ref average shells E L B. unfold calculate_sro.
  destruct (s_found s) eqn:Ef; cbn [negb]; [|left; auto].
  destruct (Z.eqb ref 1 || Z.eqb ref 2)%bool eqn:Er; cbn [negb].
  2:{ right; left. apply Bool.orb_false_iff in Er as [R1 R2]. apply Z.eqb_neq in R1, R2. auto. }
  assert (Rr : ref = 1%Z \/ ref = 2%Z).
  { apply Bool.orb_true_iff in Er as [R1|R1]; apply Z.eqb_eq in R1; auto. }
  rewrite E. cbn [bind].
  assert (CT : forall t, (0 <? count_type atoms t)%Z = true <-> exists a, In a atoms /\ a_type a = t).
  { intros t. unfold count_type. rewrite Z.ltb_lt. split.
    - intros H. destruct (filter _ atoms) as [|a l] eqn:Q; [cbn in H; lia|].
      exists a. assert (I : In a (a :: l)) by (now left). rewrite <- Q in I. apply filter_In in I as [I1 I2]. apply Z.eqb_eq in I2. auto.
    - intros (a & Ha & Ht). assert (I : In a (filter (fun a => Z.eqb (a_type a) t) atoms)) by (apply filter_In; split; auto; now apply Z.eqb_eq).
      destruct (filter _ atoms); [destruct I|]. cbn [length]. lia. }
  destruct (Z.ltb 0 (count_type atoms 1) && Z.ltb 0 (count_type atoms 2))%bool eqn:Et; cbn [negb].
  2:{ left. split; auto. right. apply Bool.andb_false_iff in Et as [T|T].
      - exists 1%Z. split; auto. intros a Ha Q. assert (0 <? count_type atoms 1 = true)%Z by (apply CT; eauto). congruence.
      - exists 2%Z. split; auto. intros a Ha Q. assert (0 <? count_type atoms 2 = true)%Z by (apply CT; eauto). congruence. }
  apply Bool.andb_true_iff in Et as [T1 T2]. apply CT in T1, T2.
  set (motr := nsub n1 _).
  assert (HW : forall set, set <> [] -> (sro_shell ref motr set : Rnum) = (warren_cowley ref atoms set : R)).
  { intros set Hset. apply (@sro_shell_wc ref motr atoms set Hset). unfold motr.
    rewrite <- (@motr_share ref atoms B); auto. destruct T1 as (a & Ha & _). intros ->. destruct Ha. }
  pose proof (@sro_run_spec inv raw s ref shells average (sro_shell ref motr) (warren_cowley ref atoms) atoms olds L HW) as R.
  destruct (sro_run inv raw s ref shells average (sro_shell ref motr) atoms olds) as [[[t sros] v]|x] eqn:Q.
  - destruct R as (R1 & R2 & R3 & R4). repeat (split; auto).
  - right. right. destruct x; try (right; destruct R as [R|(R & _)]; [left; exact R|discriminate R]).
    + right. destruct R as [R|(_ & R & N1 & N2 & _)]; [now left|right]. auto.
    + left. auto.
Qed.
Print Assumptions C46_sro.

(** The values of the reference atoms: between 1 - 1/c and 1 (c the
    concentration of the other type), 1 exactly when the shell has no atom of
    the other type, 0 exactly for the mixture of the whole system. *)
Theorem C46_range :
  forall inv raw (s : sys Rnum) atoms olds ref average shells t sros v,
  get_all_atoms s = Ok atoms -> length olds = length atoms -> binary atoms ->
  calculate_sro inv raw s olds ref average shells = Ok (t, sros, v) ->
  forall i a, nth_error atoms i = Some a -> a_type a = ref ->
  exists bs, neighbor_atoms atoms a bs /\
  forall k shell, shell <> [] ->
    (shells = 1%Z /\ k = 0 /\ shell = bs) \/
    (shells = 2%Z /\ k = 0 /\ shell = first_shell s a bs) \/ (shells = 2%Z /\ k = 1 /\ shell = second_shell s a bs) ->
    exists sro (x : R), nth_error sros i = Some sro /\ nth_error sro k = Some (x : Rnum) /\
      (1 - 1 / share (fun b => negb (is_type ref b)) atoms <= x <= 1)%R /\
      (x = 1%R <-> forall b, In b shell -> a_type b = ref) /\
      (x = 0%R <-> share (fun b => negb (is_type ref b)) shell = share (fun b => negb (is_type ref b)) atoms).
Proof.
  intros inv raw s atoms olds ref average shells t sros v E L B Q i a Ea Ht.
  pose proof (C46_sro inv raw s atoms olds ref average shells E L B) as RR. rewrite Q in RR.
  destruct RR as (_ & Hr & T1 & T2 & _ & _ & RR & _).
  assert (O : exists old, nth_error olds i = Some old).
  { destruct (nth_error olds i) eqn:Eo; eauto. apply nth_error_None in Eo. assert (i < length atoms) by (apply nth_error_Some; congruence). lia. }
  destruct O as [old Eo]. destruct (RR i a old Ea Eo) as (new & En & S). unfold sro_entry in S.
  assert (It : is_type ref a = true) by (now apply Z.eqb_eq). rewrite It in S. destruct S as (bs & Hbs & S2 & S1 & _).
  assert (U : exists b, In b atoms /\ a_type b <> ref).
  { destruct Hr as [->| ->]; [destruct T2 as (b & ? & ?)|destruct T1 as (b & ? & ?)]; exists b; (split; [auto|congruence]). }
  exists bs. split; auto. intros k shell Hne C.
  assert (X : exists x : R, nth_error new k = Some (x : Rnum) /\ x = warren_cowley ref atoms shell).
  { destruct C as [(C & -> & ->)|[(C & -> & ->)|(C & -> & ->)]].
    - destruct (S1 C) as (x & -> & Hx). exists x. split; auto.
    - destruct (S2 C) as (x & y & -> & Hx & Hy). exists x. split; auto.
    - destruct (S2 C) as (x & y & -> & Hx & Hy). exists y. split; auto. }
  destruct X as (x & Nx & ->). exists new, (warren_cowley ref atoms shell). split; auto. split; auto.
  exact (@wc_range ref atoms shell Hne U).
Qed.
Print Assumptions C46_range.

(** calculate_pmsro when the types of the real atoms are numbered 1 .. n: de
    Fontaine's parameter of the compared type, whose concentration is that
    among the real atoms. *)
Theorem C46_pmsro :
  forall inv raw (s : sys Rnum) atoms reals olds ref comp average shells delta (n : Z),
  get_all_atoms s = Ok atoms -> get_atoms s = Ok reals -> length olds = length atoms ->
  (forall t, In t (map (@a_type Rnum) reals) <-> (1 <= t <= n)%Z) ->
  match calculate_pmsro inv raw s olds ref comp average shells delta with
  | Ok (t, sros, v) =>
      s_found s = true /\ (1 <= ref <= n)%Z /\ (1 <= comp <= n)%Z /\
      atoms_set inv raw s atoms = Ok t /\ length sros = length atoms /\
      (forall i a old, nth_error atoms i = Some a -> nth_error olds i = Some old -> exists new,
         nth_error sros i = Some new /\
         sro_entry s atoms ref shells (de_fontaine (if (Z.eqb ref comp && delta)%bool then 1 else 0) comp reals) a old new) /\
      v = (if average then Some (sro_mean ref atoms sros (fun l => nth 0 l 0%R) : Rnum,
                                 sro_mean ref atoms sros (fun l => last l 0%R) : Rnum) else None)
  | Err x =>
      (x = RuntimeError /\ s_found s = false) \/
      (x = ValueError /\ (~ (1 <= ref <= n)%Z \/ ~ (1 <= comp <= n)%Z)) \/
      (x = IndexError /\ exists a e, In a atoms /\ In e (a_nbrs a) /\ length atoms <= nb_idx e) \/
      atoms_set inv raw s atoms = Err x \/
      (x = ValueError /\ average = true /\ shells <> 1%Z /\ shells <> 2%Z)
  end.
Proof.
  intros inv raw s atoms reals olds ref comp average shells delta n E Er L HT. unfold calculate_pmsro.
  destruct (s_found s) eqn:Ef; cbn [negb]; [|left; auto]. rewrite E. cbn [bind]. rewrite (iter_types_run _ Er). cbn [bind].
  set (types := map (@a_type Rnum) reals) in *.
  assert (X : forall t, existsb (Z.eqb t) (map fst (np_unique types)) = true <-> (1 <= t <= n)%Z).
  { intros t. rewrite existsb_exists, <- HT, <- unique_keys. split.
    - intros (u & Hu & Q). apply Z.eqb_eq in Q. now subst.
    - intros Hu. exists t. split; auto. apply Z.eqb_refl. }
  destruct (existsb (Z.eqb ref) _) eqn:X1; cbn [negb].
  2:{ right; left. split; auto. left. rewrite <- X. congruence. }
  destruct (existsb (Z.eqb comp) _) eqn:X2; cbn [negb].
  2:{ right; left. split; auto. right. rewrite <- X. congruence. }
  apply X in X1, X2. rewrite (unique_nth _ HT X1), (unique_nth _ HT X2). cbn [bind].
  set (m := ndiv _ _).
  assert (Nr : reals <> []).
  { intros ->. assert (In ref types) by (now apply HT). destruct H. }
  assert (Hm : (m : R) = share (is_type comp) reals).
  { unfold m. cbn. rewrite unique_sum. unfold types. rewrite map_length, <- INR_IZR_INZ. apply number_share. }
  assert (Hm0 : (m : R) <> 0%R).
  { rewrite Hm. intros Q. pose proof (proj1 (proj2 (share_range (is_type comp) Nr)) Q) as Z0.
    apply HT in X2. apply in_map_iff in X2 as (a & Ha & In_a). specialize (Z0 a In_a). unfold is_type in Z0. apply Z.eqb_neq in Z0. auto. }
  assert (HW : forall set, set <> [] -> (pmsro_shell comp (Z.eqb ref comp && delta)%bool m set : Rnum) =
     (de_fontaine (if (Z.eqb ref comp && delta)%bool then 1 else 0) comp reals set : R)).
  { intros set Hset. exact (@pmsro_shell_df comp (Z.eqb ref comp && delta)%bool m reals set Hset Hm Hm0). }
  pose proof (@sro_run_spec inv raw s ref shells average _ _ atoms olds L HW) as R.
  destruct (sro_run _ _ _ _ _ _ _ atoms olds) as [[[t sros] v]|x].
  - destruct R as (R1 & R2 & R3 & R4). repeat (split; auto); try apply X1; try apply X2.
  - right. right. destruct x; try (right; destruct R as [R|(R & _)]; [left; exact R|discriminate R]).
    + right. destruct R as [R|(_ & R & N1 & N2 & _)]; [now left|right]. auto.
    + left. auto.
Qed.
Print Assumptions C46_pmsro.

(** Four atoms of given types; the first one has the others as neighbours, two
    at distance 1 and one at distance 2. *)
Definition sro_sys (N : num) (t0 t1 t2 t3 : Z) : sys N :=
  let s := cub N 20 [(5,5,5,t0); (6,5,5,t1); (5,6,5,t2); (5,5,7,t3)]%Z in
  set_atoms s (match s_atoms s with
    | a :: l => (a <| a_nbrs := [nb N 1 1 0 0 n1; nb N 2 0 1 0 n1; nb N 3 0 0 2 n1] |>) :: l
    | [] => [] end) <| s_found := true |>.
Definition no_sro {N : num} : list (list N) := [[]; []; []; []].
Lemma sro_sys_set t0 t1 t2 t3 : exists t, atoms_set any_inv rawf (sro_sys Rnum t0 t1 t2 t3) (s_atoms (sro_sys Rnum t0 t1 t2 t3)) = Ok t.
Proof. apply atoms_set_ok; [discriminate| |discriminate]. cbn. unfold box_sum. cbn. apply Reqb_false. lra. Qed.
Lemma sro_sys_index t0 t1 t2 t3 a e : In a (s_atoms (sro_sys Rnum t0 t1 t2 t3)) -> In e (a_nbrs a) -> nb_idx e < 4.
Proof.
  intros Ha He. cbn in Ha. repeat (destruct Ha as [<-|Ha]; [cbn in He; repeat (destruct He as [<-|He]; [cbn; lia|]); destruct He|]). destruct Ha.
Qed.
Example C46_hyp : let s := sro_sys Rnum 1 2 1 2 in let atoms := s_atoms s in
  get_all_atoms s = Ok atoms /\ length (@no_sro Rnum) = length atoms /\ binary atoms /\
  exists t sros v, calculate_sro any_inv rawf s no_sro 1 true 2 = Ok (t, sros, v) /\
  exists a, nth_error atoms 0 = Some a /\ a_type a = 1%Z.
Proof.
  cbn zeta. assert (B : binary (s_atoms (sro_sys Rnum 1 2 1 2))).
  { intros a Ha. cbn in Ha. repeat (destruct Ha as [<-|Ha]; [cbn; auto|]). destruct Ha. }
  split; [reflexivity|]. split; [reflexivity|]. split; [exact B|].
  pose proof (C46_sro any_inv rawf (sro_sys Rnum 1 2 1 2) (s_atoms (sro_sys Rnum 1 2 1 2)) no_sro 1 true 2 eq_refl eq_refl B) as V.
  destruct (calculate_sro any_inv rawf (sro_sys Rnum 1 2 1 2) no_sro 1 true 2) as [[[t sros] v]|x].
  - exists t, sros, v. split; auto. eexists. split; reflexivity.
  - exfalso. destruct (sro_sys_set 1 2 1 2) as [t Et]. rewrite Et in V.
    destruct V as [(_ & [V|(u & [->| ->] & V)])|[(_ & V & _)|[(_ & a & e & Ha & He & V)|[V|(_ & _ & _ & V)]]]]; try discriminate; try congruence.
    + eapply V; [left; reflexivity|reflexivity].
    + eapply V; [right; left; reflexivity|reflexivity].
    + pose proof (sro_sys_index _ _ _ _ _ _ Ha He). change (length _) with 4 in V. lia.
Qed.
(** In double precision: 0 and -1 for the first atom, and nan for the third
    one, which has no neighbours. *)
Example C46_runs :
  test (fun p => match snd (fst p) with
        | [[x; y]; []; [z; _]; []] => neqb x n0 && neqb y (nofZ (-1)) && negb (neqb z z) | _ => false end)%bool
    (calculate_sro any_inv rawf (sro_sys P64 1 2 1 2) no_sro 1 false 2) = true.
Proof. vm_compute. reflexivity. Qed.
Example C46_pmsro_hyp : let s := sro_sys Rnum 1 2 3 2 in let atoms := s_atoms s in
  get_all_atoms s = Ok atoms /\ get_atoms s = Ok atoms /\ length (@no_sro Rnum) = length atoms /\
  (forall t, In t (map (@a_type Rnum) atoms) <-> (1 <= t <= 3)%Z) /\
  exists t sros v, calculate_pmsro any_inv rawf s no_sro 1 2 true 2 true = Ok (t, sros, v).
Proof.
  cbn zeta. assert (T : forall t, In t (map (@a_type Rnum) (s_atoms (sro_sys Rnum 1 2 3 2))) <-> (1 <= t <= 3)%Z).
  { intros t. cbn. lia. }
  do 3 (split; [reflexivity|]). split; [exact T|].
  pose proof (C46_pmsro any_inv rawf (sro_sys Rnum 1 2 3 2) (s_atoms (sro_sys Rnum 1 2 3 2)) (s_atoms (sro_sys Rnum 1 2 3 2)) no_sro 1 2 true 2 true 3 eq_refl eq_refl eq_refl T) as V.
  destruct (calculate_pmsro any_inv rawf (sro_sys Rnum 1 2 3 2) no_sro 1 2 true 2 true) as [[[t sros] v]|x] eqn:Q; [eauto|].
  exfalso. destruct (sro_sys_set 1 2 3 2) as [t Et]. rewrite Et in V.
  destruct V as [(_ & V)|[(_ & V)|[(_ & a & e & Ha & He & V)|[V|(-> & _ & _ & V)]]]]; try discriminate; try lia.
  pose proof (sro_sys_index _ _ _ _ _ _ Ha He). change (length _) with 4 in V. lia.
Qed.

(** REFUTED for other type numbers: the array of counts is indexed by the type
    number less one.  Types 1 and 3: IndexError, though both are present. *)
Theorem C46_type_numbers_refuted :
  exists s : sys Rnum, s_found s = true /\ (forall t, In t [1; 3]%Z -> exists a, In a (s_atoms s) /\ a_type a = t) /\
    (forall a, In a (s_atoms s) -> a_type a = 1%Z \/ a_type a = 3%Z) /\
    forall inv raw olds average shells delta, calculate_pmsro inv raw s olds 1 3 average shells delta = Err IndexError.
Proof.
  exists (sro_sys Rnum 1 3 1 3). split; [reflexivity|]. split; [|split].
  - intros t [<-|[<-|[]]]; eexists; (split; [cbn|]); [left; reflexivity|reflexivity|right; left; reflexivity|reflexivity].
  - intros a Ha. cbn in Ha. repeat (destruct Ha as [<-|Ha]; [cbn; auto|]). destruct Ha.
  - intros. reflexivity.
Qed.
Print Assumptions C46_type_numbers_refuted.

(** Types 0 and 1, one and three atoms: 1/3 instead of -1 for an atom of type
    1 with one neighbour of either type; index -1 is the last one. *)
Definition two_sys (N : num) : sys N :=
  let s := cub N 20 [(5,5,5,1); (6,5,5,0); (5,6,5,1); (5,5,6,1)]%Z in
  set_atoms s (match s_atoms s with
    | a :: l => (a <| a_nbrs := [nb N 1 1 0 0 n1; nb N 2 0 1 0 n1] |>) :: l
    | [] => [] end) <| s_found := true |>.
Theorem C46_type_count_refuted :
  exists (s : sys Rnum) a bs t sros (x : R), nth_error (s_atoms s) 0 = Some a /\ a_type a = 1%Z /\
    neighbor_atoms (s_atoms s) a bs /\
    calculate_pmsro any_inv rawf s no_sro 1 0 false 1 true = Ok (t, sros, None) /\
    nth_error sros 0 = Some [x : Rnum] /\ x = (1/3)%R /\ de_fontaine 0 0 (s_atoms s) bs = (-1)%R.
Proof.
  set (s := two_sys Rnum). set (atoms := s_atoms s).
  set (m := ndiv (n := Rnum) (nofZ 3) (nofZ 4)).
  assert (E : calculate_pmsro any_inv rawf s no_sro 1 0 false 1 true =
              sro_run any_inv rawf s 1 1 false (pmsro_shell 0 false m) atoms no_sro) by reflexivity.
  pose proof (@sro_run_spec any_inv rawf s 1 1 false (pmsro_shell 0 false m) (pmsro_shell 0 false m) atoms no_sro eq_refl (fun _ _ => eq_refl)) as V.
  rewrite <- E in V.
  assert (Et : exists t, atoms_set any_inv rawf s atoms = Ok t).
  { apply atoms_set_ok; [discriminate| |discriminate]. cbn. unfold box_sum. cbn. apply Reqb_false. lra. }
  destruct Et as [t Et].
  destruct (calculate_pmsro any_inv rawf s no_sro 1 0 false 1 true) as [[[t' sros] v]|x] eqn:Q.
  - destruct V as (_ & _ & V & ->). destruct (V 0 _ _ eq_refl eq_refl) as (new & Hn & S). cbn [sro_entry] in S.
    destruct S as (bs & Hb & _ & S & _). destruct (S eq_refl) as (x & -> & Hx).
    eexists s, _, bs, t', sros, x. split; [reflexivity|]. split; [reflexivity|]. split; [exact Hb|]. split; [exact Q|].
    split; [exact Hn|].
    inversion Hb as [|e1 b1 r1 q1 H1 Hb1]; subst. inversion Hb1 as [|e2 b2 r2 q2 H2 Hb2]; subst. inversion Hb2; subst.
    injection H1 as <-. injection H2 as <-. split.
    + rewrite Hx by discriminate. unfold pmsro_shell, m. cbn. lra.
    + unfold de_fontaine, share. cbn. lra.
  - exfalso. rewrite Et in V. destruct x; try (destruct V as [V|(V & V' & _)]; discriminate).
    destruct V as (a & e & Ha & He & V). change (length atoms) with 4 in V. cbn in Ha.
    repeat (destruct Ha as [<-|Ha]; [cbn in He; repeat (destruct He as [<-|He]; [cbn in V; lia|]); destruct He|]). destruct Ha.
Qed.
Print Assumptions C46_type_count_refuted.

(** ** C49 *)
(** Undoing the normalisation of a bin gives the number of pairs of atoms in
    it; the bins together hold every pair with a distance in the range once. *)
Theorem C49_histogram :
  forall (s : sys Rnum) (lo hi : R) (bins : nat),
  stored s -> (lo < hi)%R -> 1 <= bins -> (2 <= s_real s)%Z -> cell_det (box_get s) <> 0%R ->
  let w := ((hi - lo) / INR bins)%R in let e k := (lo + INR k * w)%R in
  let rho := (IZR (s_real s * (s_real s - 1) / 2) / cell_det (box_get s))%R in
  let count k := pairs_in_bin s (s_atoms s) (e k) (e (S k)) (S k =? bins) in
  exists rdf rs, calculate_rdf s (Z.of_nat bins) (lo : Rnum) (Some (hi : Rnum)) = Ok (rdf, rs) /\
    length rdf = bins /\ rs = map (fun k => e k : Rnum) (seq 0 bins) /\
    (forall k, k < bins -> exists g : R, nth_error rdf k = Some (g : Rnum) /\
       (g * rho * shell_volume code_pi (e k) w)%R = INR (count k)) /\
    fold_right Nat.add 0 (map count (seq 0 bins)) = pairs_in_bin s (s_atoms s) lo hi true.
Proof.
  intros s lo hi bins St Hlt Hb Hr Hd. cbn zeta.
  eexists _, _. split; [exact (@rdf_run lo hi bins Hlt Hb s (Some hi) St eq_refl)|]. split; [now rewrite map_length, seq_length|]. split; [reflexivity|]. split.
  - intros k Hk. eexists. split.
    { apply map_nth_error. rewrite (nth_error_nth' _ 0) by (rewrite seq_length; lia). now rewrite seq_nth by lia. }
    fold (width lo hi bins). pose proof (@shell_volume_pos lo hi bins Hlt Hb k) as Hv.
    cbn [Nat.add]. unfold edge. fold (pair_number (s_real s)).
    assert (Hp : IZR (pair_number (s_real s)) <> 0%R).
    { apply not_0_IZR. unfold pair_number. assert (2 <= s_real s * (s_real s - 1))%Z by nia.
      pose proof (Z.div_le_mono 2 (s_real s * (s_real s - 1)) 2 ltac:(lia) H) as Q. change (2 / 2)%Z with 1%Z in Q. lia. }
    field. repeat split; auto. apply Rgt_not_eq. exact Hv.
  - rewrite <- (count_dist s (s_atoms s) lo hi true).
    rewrite <- (@bins_total lo hi bins Hlt Hb). f_equal. apply map_ext. intros k. symmetry. apply count_dist.
Qed.
Print Assumptions C49_histogram.

(** The default upper limit is the largest distance, so that with a lower limit
    of 0 all the n(n-1)/2 pairs are counted (unless no two atoms differ). *)
Theorem C49_all_pairs :
  forall (s : sys Rnum) (lo : R) (bins : nat),
  stored s -> (lo <= 0)%R -> 1 <= bins ->
  (exists i j a b, i < j /\ nth_error (s_atoms s) i = Some a /\ nth_error (s_atoms s) j = Some b /\
     (0 < abs_distance s (a_pos b) (a_pos a))%R) ->
  exists hi : R, (lo < hi)%R /\
    calculate_rdf s (Z.of_nat bins) (lo : Rnum) None = calculate_rdf s (Z.of_nat bins) (lo : Rnum) (Some (hi : Rnum)) /\
    2 * pairs_in_bin s (s_atoms s) lo hi true = length (s_atoms s) * (length (s_atoms s) - 1).
Proof.
  intros s lo bins St Hlo Hb (i & j & a & b & Hij & Ha & Hbb & Hd).
  set (ds := map (fun p => pair_dist s (s_atoms s) p : Rnum) (pairs (length (s_atoms s)))).
  assert (Hin : In (abs_distance s (a_pos b) (a_pos a)) ds).
  { unfold ds. apply in_map_iff. exists (i, j). split; [unfold pair_dist; cbn [fst snd]; now rewrite Ha, Hbb|].
    apply In_pairs. split; auto. apply nth_error_Some. congruence. }
  destruct (@py_max_run ds) as (hi & E & Hm & Hmax).
  { intros Q. rewrite Q in Hin. destruct Hin. }
  exists hi. assert (L : (0 < hi)%R) by (pose proof (Hmax _ Hin); lra). split; [lra|]. split.
  - unfold calculate_rdf. rewrite (pairdistances_run _ St). cbn [bind]. fold ds. rewrite E. reflexivity.
  - rewrite <- count_dist. fold ds.
    assert (F : filter (in_bin lo hi true) ds = ds).
    { assert (G : forall x, In x ds -> in_bin lo hi true x = true).
      { intros x Hx. unfold in_bin. assert (0 <= x)%R.
        { unfold ds in Hx. apply in_map_iff in Hx as ([k l] & <- & _). unfold pair_dist. cbn [fst snd].
          destruct (nth_error (s_atoms s) k); [|apply Rle_refl]. destruct (nth_error (s_atoms s) l); [|apply Rle_refl]. apply abs_distance_nonneg. }
        pose proof (Hmax _ Hx). destruct (Rle_dec lo x); [|lra]. destruct (Rle_dec x hi); [reflexivity|lra]. }
      clear -G. revert G. generalize ds. intros l G. induction l as [|x l IH]; [reflexivity|]. cbn [filter]. rewrite G by (now left).
      apply (f_equal (cons x)), IH. intros; apply G; now right. }
    rewrite F. unfold ds. rewrite map_length.
    pose proof (length_combos (s_atoms s)) as LC. rewrite (combos_pairs a), map_length in LC. exact LC.
Qed.
Print Assumptions C49_all_pairs.

Example C49_hyp : let s := cub Rnum 20 [(5,5,5,1); (6,5,5,1); (5,8,5,1)]%Z in
  stored s /\ (2 <= s_real s)%Z /\ cell_det (box_get s) <> 0%R /\
  exists i j a b, i < j /\ nth_error (s_atoms s) i = Some a /\ nth_error (s_atoms s) j = Some b /\
     (0 < abs_distance s (a_pos b) (a_pos a))%R.
Proof.
  cbn zeta. split; [reflexivity|]. split; [cbn; lia|]. split; [unfold cell_det; cbn; lra|].
  exists 0, 1. do 2 eexists. split; [lia|]. split; [reflexivity|]. split; [reflexivity|].
  destruct (abs_distance_nonneg (cub Rnum 20 [(5,5,5,1); (6,5,5,1); (5,8,5,1)]%Z) (zv Rnum 6 5 5) (zv Rnum 5 5 5)) as [P|P]; [exact P|].
  assert (L3 : s_len (cub Rnum 20 [(5,5,5,1); (6,5,5,1); (5,8,5,1)]%Z) = mkV (N := Rnum) 20%R 20%R 20%R).
  { unfold cub. cbn [set_atoms sbox s_len]. apply diag_len; simpl; lra. }
  exfalso. symmetry in P. apply abs_distance_0_inv in P.
  - apply (f_equal (@vx Rnum)) in P. cbn in P. lra.
  - split; [reflexivity|]. rewrite L3. unfold pos3. cbn. lra.
  - rewrite L3. unfold in_box. cbn. lra.
  - rewrite L3. unfold in_box. cbn. lra.
Qed.
(** The six pairs of four atoms, counted in four bins in double precision. *)
Definition undo (N : num) (L n : Z) (w : N) (p : list N * list N) : list N :=
  map (fun q => let '(g, r) := q in
    nmul (nmul g (ndiv (nofZ (n * (n - 1) / 2)) (nofZ (L * L * L))))
      (nmul (nmul (ndiv (nofZ 4) (nofZ 3)) (nlit 3141592653589793 1000000000000000))
         (nsub (nmul (nmul (nadd r w) (nadd r w)) (nadd r w)) (nmul (nmul r r) r)))) (combine (fst p) (snd p)).
Definition is_near (x : P64) (z : Z) : bool := near0 (nsub x (nofZ z)).
Example C49_runs :
  test (fun p => match undo P64 20 4 n1 p with [a; b; c; d] => is_near a 0 && is_near b 3 && is_near c 0 && is_near d 3 | _ => false end)%bool
    (calculate_rdf (cub P64 20 [(5,5,5,1); (6,5,5,1); (5,6,5,1); (5,5,8,1)]%Z) 4 n0 (Some (nofZ 4))) = true.
Proof. vm_compute. reflexivity. Qed.

(** REFUTED for systems below 200 atoms: the pairs of the ghosts are counted
    as well, while the normalisation is that of the real atoms.  The eight
    atoms of a diamond cell have 28 pairs; more than 20000 are counted. *)
Theorem C49_small_systems_refuted :
  exists (s : sys P64) rdf rs, atoms_set any_inv rawf (dia_cell P64) (s_atoms (dia_cell P64)) = Ok s /\
    s_real s = 8%Z /\ calculate_rdf s 1 n0 (Some (nofZ 1000)) = Ok (rdf, rs) /\
    nltb (nofZ 20000) (nth 0 (undo P64 4 8 (nofZ 1000) (rdf, rs)) n0) = true.
Proof.
  assert (F : test (fun s => Z.eqb (s_real s) 8 &&
      test (fun p => nltb (nofZ 20000) (nth 0 (undo P64 4 8 (nofZ 1000) p) n0)) (calculate_rdf s 1 n0 (Some (nofZ 1000))))%bool
    (atoms_set any_inv rawf (dia_cell P64) (s_atoms (dia_cell P64))) = true) by (vm_compute; reflexivity).
  destruct (atoms_set any_inv rawf (dia_cell P64) (s_atoms (dia_cell P64))) as [s|]; [|discriminate F].
  cbn [test] in F. apply Bool.andb_true_iff in F as [F1 F2]. apply Z.eqb_eq in F1.
  destruct (calculate_rdf s 1 n0 (Some (nofZ 1000))) as [[rdf rs]|] eqn:E; [|discriminate F2].
  exists s, rdf, rs. auto.
Qed.
Print Assumptions C49_small_systems_refuted.

(** ** C50 *)
(** The dict has one entry for each type present, in increasing order, the
    number of the real atoms of that type; they add up to the number of atoms. *)
Theorem C50_counts :
  forall (N : num) (s : sys N) reals, get_atoms s = Ok reals ->
  exists l, get_concentration s = Ok l /\ StronglySorted Z.lt (map fst l) /\
    (forall t c, In (t, c) l <-> c = number_of t (map (@a_type N) reals) /\ (0 < c)%Z) /\
    (forall t, In t (map fst l) <-> exists a, In a reals /\ a_type a = t) /\
    fold_right Z.add 0%Z (map snd l) = Z.of_nat (length reals).
Proof.
  intros N s reals E. unfold get_concentration. rewrite (iter_types_run _ E). cbn [bind].
  eexists. split; [reflexivity|]. destruct (unique_spec (map (@a_type N) reals)) as [S U].
  split; [exact S|]. split; [exact U|]. split; [|rewrite unique_sum; now rewrite map_length].
  intros t. rewrite unique_keys, in_map_iff. firstorder.
Qed.
Print Assumptions C50_counts.

Example C50_hyp : get_atoms (sro_sys P64 3 1 1 0) = Ok (s_atoms (sro_sys P64 3 1 1 0)) /\
  get_concentration (sro_sys P64 3 1 1 0) = Ok [(0, 1); (1, 2); (3, 1)]%Z.
Proof. split; [reflexivity|vm_compute; reflexivity]. Qed.

(** REFUTED: they are not fractions; they add up to 1 only for one atom. *)
Theorem C50_fractions_refuted :
  exists (s : sys Rnum) l, get_concentration s = Ok l /\ (2 <= s_real s)%Z /\
    forall k : Z, k = fold_right Z.add 0%Z (map snd l) -> k <> 1%Z /\ IZR k <> 1%R.
Proof.
  exists (sro_sys Rnum 1 2 1 1), [(1, 3); (2, 1)]%Z. split; [reflexivity|]. split; [cbn; lia|].
  intros k ->. cbn. split; [lia|lra].
Qed.
Print Assumptions C50_fractions_refuted.
Theorem C50_total_one :
  forall (N : num) (s : sys N) reals l, get_atoms s = Ok reals -> get_concentration s = Ok l ->
  (fold_right Z.add 0%Z (map snd l) = 1%Z <-> length reals = 1).
Proof.
  intros N s reals l E C. destruct (C50_counts N s reals E) as (l' & C' & _ & _ & _ & T). rewrite C in C'. injection C' as <-.
  rewrite T. lia.
Qed.
Print Assumptions C50_total_one.
