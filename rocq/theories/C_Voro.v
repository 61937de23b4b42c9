(** Properties C61, C66 and C67: Voronoi cells. *)
From Coq Require Import Reals Lra ZArith List Lia.
From Verif Require Import Base Num NumR NumF NumP Types Ex M_Geometry M_Container M_Neighbors M_Analysis M_Voro
  P_Neighbors P_Container P_Centro P_Voro P_VoroSys C_Neighbors S_Container S_Neighbors S_Voro.
Import ListNotations.
Close Scope R_scope. Close Scope Z_scope.
#[local] Open Scope nat_scope.

(** voro++ gives for each of the [n] atoms the cell [p i], in its layout, with at
    most 300 faces and with atoms as neighbours. *)
Definition C61_cells {N : num} (cells : nat -> option (cell N)) (p : nat -> poly N) (n : nat) : Prop :=
  forall i, i < n -> exists c, cells i = Some c /\
    laid_out (p i) (vc_orders c) (vc_numbers c) (vc_vectors c) /\ map snd (p_faces (p i)) = map snd (vc_faces c) /\
    length (vc_faces c) <= 300 /\ Forall (fun f => fst f < n) (vc_faces c).
(** One record of data per atom that is searched, with arrays of 300 face orders.
    A triclinic cell without ghosts has real atoms only. *)
Definition C61_data {N : num} (s : sys N) (vs : list (vdata N)) : Prop :=
  stored s /\ (embedded s = true -> s_real s = Z.of_nat (length (s_atoms s)) /\ all_real (s_atoms s)) /\
  length vs = searched s /\ Forall (fun v => length (vd_orders v) = 300) vs.
Lemma C61_searched (N : num) (s : sys N) : length (s_atoms s) <= searched s.
Proof. unfold searched. destruct (embedded s); lia. Qed.

Lemma C61_good (N : num) cells (p : nat -> poly N) n : C61_cells cells p n -> forall i, i < n -> exists c, cells i = Some c /\ good_cell n c.
Proof.
  intros H i Hi. destruct (H i Hi) as (c & Hc & (L1 & _) & L2 & L3 & L4). exists c. split; [exact Hc|]. split; [|auto].
  apply (f_equal (@length N)) in L2. rewrite L1, !map_length in *. exact L2.
Qed.
Lemma C61_atoms (N : num) (s : sys N) l : get_atoms s = Ok l -> forall i a, nth_error l i = Some a -> nth_error (s_atoms s) i = Some a.
Proof.
  intros H i a Ha. unfold get_atoms in H. apply mapM_inv in H.
  assert (G : forall k m (l : list (atom N)), Forall2 (fun j b => get (s_atoms s) j = Ok b) (seq k m) l -> forall i a, nth_error l i = Some a -> nth_error (s_atoms s) (k + i) = Some a).
  { intros k m. revert k. induction m as [|m IH]; intros k q HF j b Hb; cbn [seq] in HF; inversion HF; subst; [destruct j; discriminate|].
    destruct j as [|j]; [rewrite Nat.add_0_r; injection Hb as <-; apply get_inv; assumption|]. rewrite <- Nat.add_succ_comm. eapply IH; eauto. }
  exact (G 0 _ l H i a Ha).
Qed.

(** ** C61 *)
Lemma C61_full :
  forall (N : num) raw inv area_pow cells srt npsum (p : nat -> poly N) (s : sys N) t pad nl vs edge_cutoff area_cutoff,
  C61_data s vs -> (forall m, inv m <> None) -> C61_cells cells p (searched s) ->
  (0 < s_real s <= s_nop s)%Z -> neqb (box_sum (box_get s)) n0 = false ->
  exists s' vs' s'' ws l, find_neighbors_voronoi raw inv area_pow cells srt s FNone t pad nl vs = Ok (s', None, vs') /\
    calculate_vorovector raw inv npsum s' vs' edge_cutoff area_cutoff = Ok (s'', ws) /\
    get_atoms s' = Ok l /\ length l = Z.to_nat (s_real s) /\ atoms_set inv raw s' l = Ok s'' /\
    length ws = Z.to_nat (s_real s) /\
    forall i w, nth_error ws i = Some w ->
      (exists a0 a c, nth_error (s_atoms s) i = Some a0 /\ nth_error l i = Some a /\ cells i = Some c /\
        a_pos a = a_pos a0 /\ a_type a = a_type a0 /\ a_ghost a = a_ghost a0 /\
        map nb_idx (a_nbrs a) = map fst (vc_faces c) /\ vd_volume w = vc_volume c) /\
      vd_edges w = map (fun f => map distance (edges (points (p i) f))) (p_faces (p i)) /\
      counts_faces (face_counts npsum edge_cutoff area_cutoff) (weighted area_pow (p i)) (vd_vector w).
Proof.
  intros N raw inv area_pow cells srt npsum p s t pad nl vs ec ac (St & AI & LV & HO) HI HC HR HB.
  destruct (@voronoi_run N raw inv area_pow cells srt s t pad nl vs St AI HI LV HO (C61_good N cells p _ HC)) as (s' & vs' & E & St' & L' & LV' & R' & BG & _ & _ & KEEP & _ & H). assert (SE := C61_searched N s).
  assert (G : exists l, get_atoms s' = Ok l /\ length l = Z.to_nat (s_real s)).
  { exists (firstn (Z.to_nat (s_real s)) (s_atoms s')). unfold get_atoms. rewrite R'. unfold stored in St.
    assert (LE : Z.to_nat (s_real s) <= length (s_atoms s')) by lia.
    assert (LF : length (firstn (Z.to_nat (s_real s)) (s_atoms s')) = Z.to_nat (s_real s)) by (apply firstn_length_le; exact LE).
    split; [|exact LF]. assert (MG := @mapM_get_prefix _ (firstn (Z.to_nat (s_real s)) (s_atoms s')) (skipn (Z.to_nat (s_real s)) (s_atoms s'))).
    rewrite firstn_skipn, LF in MG. exact MG. }
  destruct G as (l & GA & LL). assert (LA : length l <= length (s_atoms s)) by (unfold stored in St; lia).
  assert (AT := C61_atoms N s' l GA).
  assert (M : exists ws, mapM (fun q => atom_vorovector npsum ec ac (fst q) (snd q)) (combine l vs') = Ok ws /\ length ws = length l /\
    forall i w, nth_error ws i = Some w -> (exists a0 a c, nth_error (s_atoms s) i = Some a0 /\ nth_error l i = Some a /\ cells i = Some c /\
        a_pos a = a_pos a0 /\ a_type a = a_type a0 /\ a_ghost a = a_ghost a0 /\
        map nb_idx (a_nbrs a) = map fst (vc_faces c) /\ vd_volume w = vc_volume c) /\ vd_edges w = map (fun f => map distance (edges (points (p i) f))) (p_faces (p i)) /\
      counts_faces (face_counts npsum ec ac) (weighted area_pow (p i)) (vd_vector w)).
  { assert (ONE : forall i a v, nth_error l i = Some a -> nth_error vs' i = Some v -> exists w, atom_vorovector npsum ec ac a v = Ok w /\ (exists a0 a c, nth_error (s_atoms s) i = Some a0 /\ nth_error l i = Some a /\ cells i = Some c /\
        a_pos a = a_pos a0 /\ a_type a = a_type a0 /\ a_ghost a = a_ghost a0 /\
        map nb_idx (a_nbrs a) = map fst (vc_faces c) /\ vd_volume w = vc_volume c) /\ 
      vd_edges w = map (fun f => map distance (edges (points (p i) f))) (p_faces (p i)) /\ counts_faces (face_counts npsum ec ac) (weighted area_pow (p i)) (vd_vector w)).
    { intros i a v Ha Hv. assert (Ha' := AT i a Ha). assert (Hi0 : i < length (s_atoms s)) by (assert (i < length l) by (apply nth_error_Some; congruence); lia). assert (Hi : i < searched s) by lia.
      destruct (HC i Hi) as (c & Hc & HL & HM & _ & _).
      destruct (nth_error (s_atoms s) i) as [a0|] eqn:Ea0; [|apply nth_error_None in Ea0; lia].
      destruct (nth_error vs i) as [v0|] eqn:Ev0; [|apply nth_error_None in Ev0; lia].
      destruct (KEEP i a0 Ea0) as (a2 & Ha2 & QP & QG & QT). assert (a2 = a) as -> by congruence. clear Ha2.
      destruct (H i v0 c Ev0 Hc) as (a1 & v1 & Ha1 & Hv1 & Q1 & Q2 & QV & Q3 & Q4 & Q5 & _ & _).
      assert (a1 = a) as -> by congruence. assert (v1 = v) as -> by congruence.
      assert (LN : length (a_nbrs a) = length (p_faces (p i))).
      { apply (f_equal (@length _)) in Q1, HM. rewrite !map_length in *. lia. }
      destruct (@atom_run N npsum ec ac (p i) a v LN) as (w & EW & W1 & W2 & W3 & _); [rewrite Q3, Q4, Q5; exact HL|].
      exists w. split; [exact EW|]. split; [exists a0, a, c; repeat split; auto; congruence|]. split; [exact W1|]. replace (weighted area_pow (p i)) with (combine (map (points (p i)) (p_faces (p i))) (map nb_weight (a_nbrs a))); [exact W2|].
      rewrite Q2. unfold weighted, share.
      assert (FT : fold_left (fun w f => nadd w (area_pow (snd f))) (vc_faces c) (nofZ 0) = fold_left (fun t x => nadd t (area_pow (snd x))) (p_faces (p i)) (nofZ 0)).
      { assert (FM : forall A (q : list (A * N)) x, fold_left (fun w f => nadd w (area_pow (snd f))) q x = fold_left (fun w y => nadd w (area_pow y)) (map snd q) x)
          by (intros A q; induction q as [|y q IH]; intros x; [reflexivity|cbn; apply IH]).
        rewrite !FM, HM. reflexivity. }
      rewrite FT. generalize (fold_left (fun t x => nadd t (area_pow (snd x))) (p_faces (p i)) (nofZ 0)). intros W. revert HM. generalize (points (p i)) (vc_faces c). intros g q.
      generalize (p_faces (p i)). intros fs. revert q. induction fs as [|f fs IH]; intros [|y q] HM; try discriminate; [reflexivity|]. cbn [map combine] in *. injection HM as HM1 HM2.
      rewrite <- HM1, (IH q HM2). reflexivity. }
    assert (LE : length l <= length vs') by lia.
    assert (IND : forall (Q : nat -> vdata N -> Prop) (l : list (atom N)) vs, (forall i a v, nth_error l i = Some a -> nth_error vs i = Some v -> exists w, atom_vorovector npsum ec ac a v = Ok w /\ Q i w) ->
      length l <= length vs -> exists ws, mapM (fun q => atom_vorovector npsum ec ac (fst q) (snd q)) (combine l vs) = Ok ws /\ length ws = length l /\ forall i w, nth_error ws i = Some w -> Q i w).
    { clear. intros Q l. revert Q. induction l as [|a l IH]; intros Q vs ONE LE; [exists []; repeat split; auto; destruct i; discriminate|].
      destruct vs as [|v vs]; [cbn in LE; lia|]. cbn [combine mapM fst snd]. destruct (ONE 0 a v eq_refl eq_refl) as (w & EW & W). rewrite EW. cbn [bind].
      destruct (IH (fun i => Q (S i)) vs) as (ws & EM & LM & HM); [intros i; apply (ONE (S i))|cbn in LE; lia|]. rewrite EM. cbn [bind]. exists (w :: ws). split; [reflexivity|].
      split; [cbn; lia|]. intros [|i] w' Hw'; [injection Hw' as <-; exact W|apply HM, Hw']. }
    exact (IND _ l vs' ONE LE). }
  destruct M as (ws & EM & LM & HM).
  assert (NE : l <> []) by (intros ->; cbn in LL; lia).
  destruct (@atoms_set_ok N raw inv s' l NE) as (s'' & ES); [rewrite BG; exact HB|exact HI|].
  exists s', vs', s'', ws, l. split; [exact E|]. split; [unfold calculate_vorovector; rewrite GA; cbn [bind]; rewrite EM; cbn [bind]; rewrite ES; reflexivity|].
  split; [exact GA|]. split; [exact LL|]. split; [exact ES|]. split; [congruence|exact HM].
Qed.
(** Any arithmetic: after a Voronoi search without filter the vectors count the
    faces of the cells whose share of area^voroexp is more than the area cutoff
    by the numbers of edges that are more than the edge cutoff of their sum. *)
Theorem C61_counts :
  forall (N : num) raw inv area_pow cells srt npsum (p : nat -> poly N) (s : sys N) t pad nl vs edge_cutoff area_cutoff,
  C61_data s vs -> (forall m, inv m <> None) -> C61_cells cells p (searched s) ->
  (0 < s_real s <= s_nop s)%Z -> neqb (box_sum (box_get s)) n0 = false ->
  exists s' vs' s'' ws, find_neighbors_voronoi raw inv area_pow cells srt s FNone t pad nl vs = Ok (s', None, vs') /\
    calculate_vorovector raw inv npsum s' vs' edge_cutoff area_cutoff = Ok (s'', ws) /\
    length ws = Z.to_nat (s_real s) /\
    forall i w, nth_error ws i = Some w ->
      vd_edges w = map (fun f => map distance (edges (points (p i) f))) (p_faces (p i)) /\
      counts_faces (face_counts npsum edge_cutoff area_cutoff) (weighted area_pow (p i)) (vd_vector w).
Proof.
  intros N raw inv area_pow cells srt npsum p s t pad nl vs ec ac HD HI HC HR HB.
  destruct (C61_full N raw inv area_pow cells srt npsum p s t pad nl vs ec ac HD HI HC HR HB) as (s' & vs' & s'' & ws & l & E1 & E2 & _ & _ & _ & LW & H).
  exists s', vs', s'', ws. split; [exact E1|]. split; [exact E2|]. split; [exact LW|]. intros i w Hw. apply (H i w Hw).
Qed.
Print Assumptions C61_counts.

(** On the reals, with voroexp = 1: shares of the area and of the perimeter. *)
Lemma C61_total_fold (l : list R) x : fold_left Rplus l x = (x + total l)%R.
Proof. revert x. induction l as [|y l IH]; intros x; cbn [fold_left total]; [ring|]. rewrite IH. ring. Qed.
Lemma C61_reals (npsum : list R -> R) (HS : forall l, npsum l = total l) (p : poly Rnum) (ec ac : R) v :
  counts_faces (face_counts (N := Rnum) npsum ec ac) (weighted (N := Rnum) (fun x => x) p) v -> counts_faces (R_face Rlt ec ac) (R_weighted p) v.
Proof.
  intros H2.
  replace (R_weighted p) with (weighted (N := Rnum) (fun x => x) p).
  - destruct H2 as (n3 & n4 & n5 & n6 & EV & H3 & H4 & H5 & H6). exists n3, n4, n5, n6. split; [exact EV|].
    assert (G : forall k x, face_counts (N := Rnum) npsum ec ac k x <-> R_face Rlt ec ac k x).
    { intros k x. unfold face_counts, R_face. assert (LT : forall a b : R, nltb (n := Rnum) a b = true <-> (a < b)%R) by (intros a b; cbn; unfold Rltb; destruct (Rlt_dec a b); split; intros; auto; discriminate).
      assert (PE : npsum (map (@distance Rnum) (edges (fst x))) = perimeter (fst x)) by apply HS. split.
      - intros [A B]. split; [apply LT, A|]. revert B. apply such_iff. intros e. rewrite LT. rewrite PE. reflexivity.
      - intros [A B]. split; [apply LT, A|]. revert B. apply such_iff. intros e. rewrite LT. rewrite PE. reflexivity. }
    split; [revert H3; apply such_iff, G|]. split; [revert H4; apply such_iff, G|]. split; [revert H5; apply such_iff, G|revert H6; apply such_iff, G].
  - unfold weighted, R_weighted. apply map_ext. intros x. f_equal.
    assert (FM : forall (q : list (list nat * R)) x, fold_left (fun w f => (w + snd f)%R) q x = fold_left Rplus (map snd q) x) by (induction q as [|y q IH]; intros z; [reflexivity|cbn; apply IH]).
    change (snd x / fold_left (fun w f => (w + snd f)%R) (p_faces p) 0 = snd x / total (map snd (p_faces p)))%R. rewrite FM, C61_total_fold, Rplus_0_l. reflexivity.
Qed.
Theorem C61_real :
  forall (npsum : list R -> R), (forall l, npsum l = total l) ->
  forall raw inv cells srt (p : nat -> poly Rnum) (s : sys Rnum) t pad nl vs (edge_cutoff area_cutoff : R),
  C61_data s vs -> (forall m, inv m <> None) -> C61_cells cells p (searched s) ->
  (0 < s_real s <= s_nop s)%Z -> neqb (n := Rnum) (box_sum (box_get s)) n0 = false ->
  exists s' vs' s'' ws, find_neighbors_voronoi raw inv (fun x => x) cells srt s FNone t pad nl vs = Ok (s', None, vs') /\
    calculate_vorovector raw inv npsum s' vs' edge_cutoff area_cutoff = Ok (s'', ws) /\
    length ws = Z.to_nat (s_real s) /\
    forall i w, nth_error ws i = Some w ->
      vd_edges w = map (fun f => map Rdistance (edges (points (p i) f))) (p_faces (p i)) /\
      counts_faces (R_face Rlt edge_cutoff area_cutoff) (R_weighted (p i)) (vd_vector w).
Proof.
  intros npsum HS raw inv cells srt p s t pad nl vs ec ac HD HI HC HR HB.
  destruct (C61_counts Rnum raw inv (fun x => x) cells srt npsum p s t pad nl vs ec ac HD HI HC HR HB) as (s' & vs' & s'' & ws & E1 & E2 & LW & H).
  exists s', vs', s'', ws. split; [exact E1|]. split; [exact E2|]. split; [exact LW|]. intros i w Hw. destruct (H i w Hw) as [H1 H2]. split; [exact H1|].
  exact (C61_reals npsum HS (p i) ec ac _ H2).
Qed.
Print Assumptions C61_real.

(** Four entries, none negative, their sum at most the number of faces. *)
Theorem C61_bounds :
  forall (N : num) (sum : list N -> N) edge_cutoff area_cutoff faces v,
  counts_faces (face_counts sum edge_cutoff area_cutoff) faces v ->
  length v = 4 /\ Forall (fun n => 0 <= n)%Z v /\ (fold_left Z.add v 0 <= Z.of_nat (length faces))%Z.
Proof.
  intros N sum ec ac faces v. apply counts_bounds. intros j k x [_ H1] [_ H2]. exact (such_fun H1 H2).
Qed.
Print Assumptions C61_bounds.

(** A lattice of eight atoms with cells of [a] by [b] by [c]. *)
Definition v_sys (N : num) : sys N :=
  cub N 4 [(1,1,1,1); (3,1,1,1); (1,3,1,1); (3,3,1,1); (1,1,3,1); (3,1,3,1); (1,3,3,1); (3,3,3,1)]%Z
    <| s_ghosts_created := true |>.
Definition cuboid (N : num) (a b c : Z) : poly N :=
  mkPoly [zv N 0 0 0; zv N a 0 0; zv N 0 b 0; zv N a b 0; zv N 0 0 c; zv N a 0 c; zv N 0 b c; zv N a b c]
    [([0; 2; 6; 4], nofZ (b * c)); ([1; 3; 7; 5], nofZ (b * c)); ([0; 1; 5; 4], nofZ (a * c));
     ([2; 3; 7; 6], nofZ (a * c)); ([0; 1; 3; 2], nofZ (a * b)); ([4; 5; 7; 6], nofZ (a * b))]%nat.
Definition v_cells (N : num) (a b c : Z) (i : nat) : option (cell N) :=
  let q := cuboid N a b c in
  Some (mkCell (combine [Nat.lxor i 1; Nat.lxor i 1; Nat.lxor i 2; Nat.lxor i 2; Nat.lxor i 4; Nat.lxor i 4] (map snd (p_faces q)))
    (nofZ (a * b * c)) (map (fun f => Z.of_nat (length (fst f))) (p_faces q))
    (concat (map (fun f => Z.of_nat (length (fst f)) :: map Z.of_nat (fst f)) (p_faces q)))
    (concat (map (fun v => [vx v; vy v; vz v]) (p_vertices q)))).
Definition v_data (N : num) : list (vdata N) :=
  repeat (mkVd n0 n0 [] [] [] (repeat 0%Z 300) [] []) 8.

Example C61_cells_hyp : forall (N : num) a b c, C61_cells (v_cells N a b c) (fun _ => cuboid N a b c) (searched (v_sys N)).
Proof.
  intros N a b c i Hi. assert (SE : searched (v_sys N) = 8) by (unfold searched, embedded; rewrite andb_false_r; reflexivity). rewrite SE in *. unfold v_cells. eexists. split; [reflexivity|]. cbn [vc_orders vc_numbers vc_vectors vc_faces].
  split; [split; [reflexivity|split; [reflexivity|split; [reflexivity|]]]|].
  - cbn. repeat (constructor; [repeat constructor|]). constructor.
  - split; [reflexivity|]. split; [cbn; lia|]. do 8 (destruct i as [|i]; [cbn; repeat (constructor; [cbn; lia|]); constructor|]). lia.
Qed.
Example C61_data_hyp : forall N : num, C61_data (v_sys N) (v_data N).
Proof.
  intros N. split; [reflexivity|]. split; [unfold embedded; rewrite andb_false_r; discriminate|]. split; [unfold searched, embedded; rewrite andb_false_r; reflexivity|]. apply Forall_forall. intros v Hv. apply List.repeat_spec in Hv. subst v. reflexivity.
Qed.
Example C61_hyp : exists (s : sys Rnum) vs (cells : nat -> option (cell Rnum)) p, C61_data s vs /\ C61_cells cells p (searched s) /\
  (0 < s_real s <= s_nop s)%Z /\ neqb (n := Rnum) (box_sum (box_get s)) n0 = false.
Proof.
  exists (v_sys Rnum), (v_data Rnum), (v_cells Rnum 2 2 2), (fun _ => cuboid Rnum 2 2 2). split; [apply C61_data_hyp|]. split; [apply C61_cells_hyp|].
  split; [cbn; lia|]. cbn. unfold Reqb. destruct (Req_EM_T _ _) as [E|]; [|reflexivity]. exfalso. lra.
Qed.

(** The same atoms in a triclinic cell without ghosts: 216 atoms are searched. *)
Definition t_sys (N : num) : sys N := v_sys N <| s_ghosts_created := false |> <| s_tri := true |> <| s_real := 8%Z |>.
Definition t_data (N : num) : list (vdata N) := repeat (mkVd n0 n0 [] [] [] (repeat 0%Z 300) [] []) 216.
Example C61_triclinic_hyp : forall N : num, C61_data (t_sys N) (t_data N) /\ searched (t_sys N) = 216 /\
  forall a b c, C61_cells (v_cells N a b c) (fun _ => cuboid N a b c) (searched (t_sys N)).
Proof.
  intros N. assert (SE : searched (t_sys N) = 216) by reflexivity. split; [|split; [exact SE|]].
  - split; [reflexivity|]. split; [|split; [rewrite SE; apply repeat_length|]].
    + intros _. split; [reflexivity|]. intros a Ha. cbn in Ha. repeat (destruct Ha as [<-|Ha]; [reflexivity|]). destruct Ha.
    + apply Forall_forall. intros v Hv. apply List.repeat_spec in Hv. subst v. reflexivity.
  - intros a b c i Hi. rewrite SE in *. unfold v_cells. eexists. split; [reflexivity|]. cbn [vc_orders vc_numbers vc_vectors vc_faces].
    split; [split; [reflexivity|split; [reflexivity|split; [reflexivity|]]]|].
    + cbn. repeat (constructor; [repeat constructor|]). constructor.
    + split; [reflexivity|]. split; [cbn; lia|]. cbn [combine map p_faces cuboid].
      assert (X : forall k, In k [1; 2; 4] -> Nat.lxor i k < 216).
      { intros k Hk. assert (B : forallb (fun j => forallb (fun k => Nat.ltb (Nat.lxor j k) 216) [1; 2; 4]) (seq 0 216) = true) by (vm_compute; reflexivity).
        rewrite forallb_forall in B. assert (Bi := B i). rewrite in_seq in Bi. specialize (Bi ltac:(lia)). rewrite forallb_forall in Bi. apply Nat.ltb_lt, Bi, Hk. }
      repeat (constructor; [cbn [fst]; apply X; cbn; auto|]). constructor.
Qed.

(** The search and the vectors; the sum as numpy does it for few terms. *)
Definition add_up {N : num} (l : list N) : N := fold_left nadd l n0.
Definition v_inv {N : num} : m3 N -> option (m3 N) := fun m => Some m.
Definition v_raw {N : num} : Z -> atom N := fun _ => raw_atom N.
Definition v_run (N : num) (pow : N -> N) (a b c : Z) (edge_cutoff area_cutoff : N) : res (list (vdata N)) :=
  r <- find_neighbors_voronoi v_raw v_inv pow (v_cells N a b c) isort (v_sys N) FNone (nofZ 2) (nlit 6 5) 6 (v_data N) ;;
  r' <- calculate_vorovector v_raw v_inv add_up (fst (fst r)) (snd r) edge_cutoff area_cutoff ;;
  Ok (snd r').
Definition vectors_of {N : num} (r : res (list (vdata N))) : res (list (list Z)) :=
  l <- r ;; Ok (map (@vd_vector _) l).

(** The cutoffs are 0.05 and 0.01 by default. *)
Example C61_runs : vectors_of (v_run P64 idp 2 2 2 (nlit 1 20) (nlit 1 100)) = Ok (repeat [0; 6; 0; 0]%Z 8).
Proof. vm_compute. reflexivity. Qed.
(** Plates of 1 by 10 by 10: each side of 1 is less than 0.05 of the 22 around it. *)
Example C61_runs_plates : vectors_of (v_run P64 idp 1 10 10 (nlit 1 20) (nlit 1 100)) = Ok (repeat [0; 2; 0; 0]%Z 8).
Proof. vm_compute. reflexivity. Qed.

Lemma C61_such_b {A} (P : A -> Prop) (f : A -> bool) l : (forall x, P x <-> f x = true) -> such P l (length (filter f l)).
Proof. intros H. apply (such_iff (P := fun x => f x = true)); [intros x; symmetry; apply H|apply such_filter]. Qed.
(** Counting "at least" by computation. *)
Definition reaches_b {N : num} (sum : list N -> N) (ec ac : N) (k : nat) (pw : list (v3 N) * N) : bool :=
  (nleb ac (snd pw) && Nat.eqb (length (filter (fun e => nleb ec (ndiv (distance e) (sum (map distance (edges (fst pw)))))) (edges (fst pw)))) k)%bool.
Lemma C61_reaches (N : num) sum (ec ac : N) k pw : face_reaches sum ec ac k pw <-> reaches_b sum ec ac k pw = true.
Proof.
  unfold face_reaches, reaches_b. rewrite Bool.andb_true_iff, Nat.eqb_eq.
  assert (H := such_filter (fun e => nleb ec (ndiv (distance e) (sum (map distance (edges (fst pw)))))) (edges (fst pw))). split; intros [A B]; (split; [exact A|]).
  - exact (such_fun H B).
  - subst k. exact H.
Qed.
Lemma C61_counts_b (N : num) sum (ec ac : N) faces :
  counts_faces (face_reaches sum ec ac) faces (map (fun k => Z.of_nat (length (filter (reaches_b sum ec ac k) faces))) [3; 4; 5; 6]).
Proof. do 4 eexists. split; [reflexivity|]. repeat split; apply C61_such_b; intros x; apply C61_reaches. Qed.

(** As documented the cutoffs are to be reached (core.py:641-645: "should be at
    least", "a minimum"); a quarter is not counted as at least a quarter. *)
Theorem C61_at_least_refuted :
  exists (edge_cutoff area_cutoff : P64) (p : poly P64) v,
    (exists ws, v_run P64 idp 2 2 2 edge_cutoff area_cutoff = Ok ws /\ map (@vd_vector _) ws = repeat [0; 0; 0; 0]%Z 8) /\
    C61_cells (v_cells P64 2 2 2) (fun _ => p) 8 /\
    counts_faces (face_reaches add_up edge_cutoff area_cutoff) (weighted idp p) v /\ v = [0; 6; 0; 0]%Z.
Proof.
  exists (nlit 1 4), (nlit 1 100), (cuboid P64 2 2 2), [0; 6; 0; 0]%Z. split; [|split; [apply (C61_cells_hyp P64)|split; [|reflexivity]]].
  - assert (F : vectors_of (v_run P64 idp 2 2 2 (nlit 1 4) (nlit 1 100)) = Ok (repeat [0; 0; 0; 0]%Z 8)) by (vm_compute; reflexivity).
    destruct (v_run P64 idp 2 2 2 (nlit 1 4) (nlit 1 100)) as [ws|]; [|discriminate F]. exists ws. split; [reflexivity|]. injection F as F. exact F.
  - replace [0; 6; 0; 0]%Z with (map (fun k => Z.of_nat (length (filter (reaches_b (N := P64) add_up (nlit 1 4) (nlit 1 100) k) (weighted idp (cuboid P64 2 2 2))))) [3; 4; 5; 6]).
    + apply C61_counts_b.
    + vm_compute. reflexivity.
Qed.
Print Assumptions C61_at_least_refuted.

(** The area is to be a share of the total area; with voroexp = 2 a face of 1 in
    42 fails the cutoff 1/100. *)
Theorem C61_exponent_refuted :
  exists (edge_cutoff area_cutoff : P64) (p : poly P64) v,
    (exists ws, v_run P64 (fun x => nmul x x) 1 1 10 edge_cutoff area_cutoff = Ok ws /\ map (@vd_vector _) ws = repeat [0; 4; 0; 0]%Z 8) /\
    C61_cells (v_cells P64 1 1 10) (fun _ => p) 8 /\
    counts_faces (face_reaches add_up edge_cutoff area_cutoff) (weighted idp p) v /\ v = [0; 6; 0; 0]%Z.
Proof.
  exists (nlit 1 100), (nlit 1 100), (cuboid P64 1 1 10), [0; 6; 0; 0]%Z. split; [|split; [apply (C61_cells_hyp P64)|split; [|reflexivity]]].
  - assert (F : vectors_of (v_run P64 (fun x => nmul x x) 1 1 10 (nlit 1 100) (nlit 1 100)) = Ok (repeat [0; 4; 0; 0]%Z 8)) by (vm_compute; reflexivity).
    destruct (v_run P64 (fun x => nmul x x) 1 1 10 (nlit 1 100) (nlit 1 100)) as [ws|]; [|discriminate F]. exists ws. split; [reflexivity|]. injection F as F. exact F.
  - replace [0; 6; 0; 0]%Z with (map (fun k => Z.of_nat (length (filter (reaches_b (N := P64) add_up (nlit 1 100) (nlit 1 100) k) (weighted idp (cuboid P64 1 1 10))))) [3; 4; 5; 6]).
    + apply C61_counts_b.
    + vm_compute. reflexivity.
Qed.
Print Assumptions C61_exponent_refuted.

(** ** C66 *)
(** On the reals: the volume is the cell's, the average volume is the mean over the
    atom's own cell and those of its neighbours, one for each face. *)
Theorem C66_average :
  forall raw raw_pow inv (cells : nat -> option (cell Rnum)) srt (p : nat -> poly Rnum) (s : sys Rnum) t pad nl vs,
  C61_data s vs -> (forall m, inv m <> None) -> C61_cells cells p (searched s) ->
  exists s' vs', find_neighbors_voronoi raw inv raw_pow cells srt s FNone t pad nl vs = Ok (s', None, vs') /\ length vs' = searched s /\
    forall i v c, nth_error vs' i = Some v -> cells i = Some c ->
      vd_volume v = vc_volume c /\
      exists vols, Forall2 (fun f x => exists d, cells (fst f) = Some d /\ vc_volume d = x) (vc_faces c) vols /\
        vd_avgvolume v = (total (vc_volume c :: vols) / INR (length (vc_volume c :: vols)))%R.
Proof.
  intros raw pow inv cells srt p s t pad nl vs (St & AI & LV & HO) HI HC.
  destruct (@voronoi_run Rnum raw inv pow cells srt s t pad nl vs St AI HI LV HO (C61_good Rnum cells p _ HC)) as (s' & vs' & E & St' & L' & LV' & R' & BG & _ & _ & _ & _ & H).
  exists s', vs'. split; [exact E|]. split; [congruence|]. intros i v c Hv Hc. assert (Hi : i < length vs') by (apply nth_error_Some; congruence).
  destruct (nth_error vs i) as [v0|] eqn:Ev0; [|apply nth_error_None in Ev0; lia].
  destruct (H i v0 c Ev0 Hc) as (a1 & v1 & Ha1 & Hv1 & _ & _ & Q & _ & _ & _ & _ & vols & F & EA).
  assert (v1 = v) as -> by congruence. split; [exact Q|]. exists vols. split; [exact F|]. rewrite EA. change (fold_left Rplus vols (vc_volume c) / IZR (Z.of_nat (length vols) + 1) = total (vc_volume c :: vols) / INR (S (length vols)))%R.
  rewrite C61_total_fold, S_INR, plus_IZR, <- INR_IZR_INZ. reflexivity.
Qed.
Print Assumptions C66_average.

Lemma C66_mean (lo hi : R) (l : list R) : l <> [] -> Forall (fun x => lo <= x <= hi)%R l -> (lo <= total l / INR (length l) <= hi)%R.
Proof.
  intros NE B.
  assert (G : forall l : list R, Forall (fun x => lo <= x <= hi)%R l -> (lo * INR (length l) <= total l <= hi * INR (length l))%R).
  { clear. induction l as [|y l IH]; intros HF; [cbn; lra|]. inversion HF; subst. specialize (IH H2). cbn [length total]. rewrite S_INR. lra. }
  specialize (G _ B). assert (P : (0 < INR (length l))%R) by (apply lt_0_INR; destruct l; [congruence|cbn; lia]).
  split; apply (Rmult_le_reg_r (INR (length l))); try exact P; unfold Rdiv; rewrite Rmult_assoc, Rinv_l by lra; lra.
Qed.
(** Therefore between the least and the greatest of the volumes. *)
Theorem C66_between :
  forall raw raw_pow inv (cells : nat -> option (cell Rnum)) srt (p : nat -> poly Rnum) (s : sys Rnum) t pad nl vs (lo hi : R),
  C61_data s vs -> (forall m, inv m <> None) -> C61_cells cells p (searched s) ->
  (forall i c, cells i = Some c -> (lo <= vc_volume c <= hi)%R) ->
  exists s' vs', find_neighbors_voronoi raw inv raw_pow cells srt s FNone t pad nl vs = Ok (s', None, vs') /\
    Forall (fun v => (lo <= vd_avgvolume v <= hi)%R) vs'.
Proof.
  intros raw pow inv cells srt p s t pad nl vs lo hi HD HI HC HB.
  destruct (C66_average raw pow inv cells srt p s t pad nl vs HD HI HC) as (s' & vs' & E & HL & H). exists s', vs'. split; [exact E|]. apply Forall_forall. intros v Hv.
  apply In_nth_error in Hv. destruct Hv as [i Hi].
  assert (Hi' : i < searched s) by (rewrite <- HL; apply nth_error_Some; congruence).
  destruct (HC i Hi') as (c & Hc & _). destruct (H i v c Hi Hc) as (_ & vols & F & EA).
  assert (B : Forall (fun x => lo <= x <= hi)%R (vc_volume c :: vols)).
  { constructor; [apply (HB i c Hc)|]. clear EA. revert F. generalize (vc_faces c). intros fs F. induction F as [|f x fs vols (d & Hd & Ed) F IH]; constructor; [|exact IH]. subst x. apply (HB _ d Hd). }
  rewrite EA. apply C66_mean; [discriminate|exact B].
Qed.
Print Assumptions C66_between.

Example C66_hyp : forall i c, v_cells Rnum 2 3 4 i = Some c -> (24 <= vc_volume c <= 24)%R.
Proof. intros i c H. injection H as <-. cbn. lra. Qed.
(** Volumes 8 and 64: atom 0 has two neighbours of 64 of six. *)
Definition mixed_cells (N : num) (i : nat) : option (cell N) := v_cells N 2 2 (if Nat.eqb i 1 then 16 else 2) i.
Example C66_runs :
  (r <- find_neighbors_voronoi v_raw v_inv idp (mixed_cells P64) isort (v_sys P64) FNone (nofZ 2) (nlit 6 5) 6 (v_data P64) ;; Ok (map (fun v => nsub (vd_avgvolume v) (nofZ 24)) (firstn 1 (snd r)))) = Ok [n0 (N := P64)].
Proof. vm_compute. reflexivity. Qed.

(** In the triclinic cell the first eight records are those of the atoms and the
    system that is returned holds 216 atoms. *)
Example C66_runs_triclinic :
  (r <- find_neighbors_voronoi v_raw v_inv idp (mixed_cells P64) isort (t_sys P64) FNone (nofZ 2) (nlit 6 5) 6 (t_data P64) ;;
   Ok (length (s_atoms (fst (fst r))), map (fun v => nsub (vd_avgvolume v) (nofZ 24)) (firstn 1 (snd r)))) = Ok (216, [n0 (N := P64)]).
Proof. vm_compute. reflexivity. Qed.

(** ** C67 *)
(** A search appends the vertices, moved by the position of the atom, to the
    vertex positions; on fresh atoms there are no others. *)
Lemma C67_triples (N : num) (l : list (v3 N)) : triples (concat (map (fun v => [vx v; vy v; vz v]) l)) = l.
Proof. induction l as [|[x y z] l IH]; [reflexivity|]. cbn. rewrite IH. reflexivity. Qed.
Theorem C67_appended :
  forall (N : num) raw inv area_pow cells srt (p : nat -> poly N) (s : sys N) t pad nl vs,
  C61_data s vs -> (forall m, inv m <> None) -> C61_cells cells p (searched s) ->
  exists s' vs', find_neighbors_voronoi raw inv area_pow cells srt s FNone t pad nl vs = Ok (s', None, vs') /\
    length vs' = length vs /\ length (s_atoms s') = length vs /\
    (forall i a, nth_error (s_atoms s) i = Some a -> exists a', nth_error (s_atoms s') i = Some a' /\ same_place a' a) /\
    forall i a v v', nth_error (s_atoms s') i = Some a -> nth_error vs i = Some v -> nth_error vs' i = Some v' ->
      vd_positions v' = vd_positions v ++
        map (fun x => mkV (nadd (vx x) (vx (a_pos a))) (nadd (vy x) (vy (a_pos a))) (nadd (vz x) (vz (a_pos a)))) (p_vertices (p i)).
Proof.
  intros N raw inv area_pow cells srt p s t pad nl vs (St & AI & LV & HO) HI HC.
  destruct (@voronoi_run N raw inv area_pow cells srt s t pad nl vs St AI HI LV HO (C61_good N cells p _ HC)) as (s' & vs' & E & St' & L' & LV' & R' & BG & _ & _ & KEEP & _ & H).
  exists s', vs'. split; [exact E|]. split; [congruence|]. split; [congruence|]. split; [exact KEEP|]. intros i a v v' Ha Hv Hv'. assert (Hi : i < searched s) by (rewrite <- LV; apply nth_error_Some; congruence).
  destruct (HC i Hi) as (c & Hc & (_ & _ & HL & _) & _). destruct (H i v c Hv Hc) as (a1 & v1 & Ha1 & Hv1 & _ & _ & _ & _ & _ & _ & Q & _).
  assert (v1 = v') as -> by congruence. assert (a1 = a) as -> by congruence. rewrite Q, HL, C67_triples. reflexivity.
Qed.
Print Assumptions C67_appended.

(** So after a second search each position is there twice. *)
Theorem C67_second_search :
  forall (N : num) raw inv area_pow cells srt (p : nat -> poly N) (s : sys N) t pad nl vs,
  C61_data s vs -> (forall m, inv m <> None) -> C61_cells cells p (searched s) ->
  Forall (fun v => vd_positions v = []) vs -> box_set inv s (s_box s) = Ok s \/ s_ghosts_created s = true \/ embedded s = true ->
  exists s1 vs1 s2 vs2, find_neighbors_voronoi raw inv area_pow cells srt s FNone t pad nl vs = Ok (s1, None, vs1) /\
    find_neighbors_voronoi raw inv area_pow cells srt s1 FNone t pad nl vs1 = Ok (s2, None, vs2) /\
    length vs1 = searched s /\ length vs2 = searched s /\
    forall i v1 v2, nth_error vs1 i = Some v1 -> nth_error vs2 i = Some v2 ->
      length (vd_positions v1) = length (p_vertices (p i)) /\ vd_positions v2 = vd_positions v1 ++ vd_positions v1.
Proof.
  intros N raw inv area_pow cells srt p s t pad nl vs HD HI HC HE HS. assert (HD0 := HD). destruct HD0 as (St & AI & LV & HO).
  destruct (@voronoi_run N raw inv area_pow cells srt s t pad nl vs St AI HI LV HO (C61_good N cells p _ HC)) as (s1 & vs1 & E & St' & L' & LV' & R' & BG & EM & HO' & _).
  specialize (EM HS). assert (SE1 : searched s1 = searched s) by (unfold searched at 1; rewrite EM; exact L').
  assert (HD1 : C61_data s1 vs1) by (split; [exact St'|]; split; [congruence|]; split; [congruence|exact HO']). assert (HC1 : C61_cells cells p (searched s1)) by (rewrite SE1; exact HC).
  destruct (C67_appended N raw inv area_pow cells srt p s t pad nl vs HD HI HC) as (s1' & vs1' & E1 & L1 & _ & _ & H1). assert (s1' = s1 /\ vs1' = vs1) as [-> ->] by (split; congruence).
  destruct (C67_appended N raw inv area_pow cells srt p s1 t pad nl vs1 HD1 HI HC1) as (s2 & vs2 & E2 & L2 & _ & K2 & H2).
  exists s1, vs1, s2, vs2. split; [exact E|]. split; [exact E2|]. split; [congruence|]. split; [congruence|]. intros i v1 v2 Hv1 Hv2. assert (Hi : i < length vs) by (rewrite <- L1; apply nth_error_Some; congruence).
  destruct (nth_error (s_atoms s1) i) as [a|] eqn:Ea; [|apply nth_error_None in Ea; lia].
  destruct (nth_error vs i) as [v|] eqn:Ev; [|apply nth_error_None in Ev; lia].
  destruct (K2 i a Ea) as (a1 & Ha1 & HP & _).
  assert (Q1 := H1 i a v v1 Ea Ev Hv1). assert (Q2 := H2 i a1 v1 v2 Ha1 Hv1 Hv2). rewrite HP in Q2.
  rewrite Forall_forall in HE. rewrite (HE v (nth_error_In _ _ Ev)) in Q1. cbn [app] in Q1. rewrite Q1 in *. split; [apply map_length|exact Q2].
Qed.
Print Assumptions C67_second_search.

Example C67_hyp : forall N : num, Forall (fun v => vd_positions v = []) (v_data N) /\ (forall m, v_inv (N := N) m <> None).
Proof. intros N. split; [|discriminate]. apply Forall_forall. intros v Hv. apply List.repeat_spec in Hv. subst v. reflexivity. Qed.
Example C67_runs :
  (r <- find_neighbors_voronoi v_raw v_inv idp (v_cells P64 2 2 2) isort (v_sys P64) FNone (nofZ 2) (nlit 6 5) 6 (v_data P64) ;;
   r' <- find_neighbors_voronoi v_raw v_inv idp (v_cells P64 2 2 2) isort (fst (fst r)) FNone (nofZ 2) (nlit 6 5) 6 (snd r) ;;
   Ok (map (fun v => length (vd_positions v)) (snd r), map (fun v => length (vd_positions v)) (snd r'))) = Ok (repeat 8 8, repeat 16 8).
Proof. vm_compute. reflexivity. Qed.

(** Vertex positions of the last search only: refuted, on every number system. *)
Theorem C67_last_search_refuted :
  forall N : num, exists (s : sys N) cells (p : nat -> poly N) s' vs s'' vs' v,
    C61_cells cells p (searched s) /\
    find_neighbors_voronoi v_raw v_inv idp cells isort s FNone n1 n1 6 (v_data N) = Ok (s', None, vs) /\
    find_neighbors_voronoi v_raw v_inv idp cells isort s' FNone n1 n1 6 vs = Ok (s'', None, vs') /\
    nth_error vs' 0 = Some v /\ length (p_vertices (p 0)) = 8 /\ length (vd_positions v) = 16.
Proof.
  intros N. assert (HC := C61_cells_hyp N 2 2 2). destruct (C67_hyp N) as [HE HI].
  destruct (C67_second_search N v_raw v_inv idp _ isort _ (v_sys N) n1 n1 6%Z (v_data N) (C61_data_hyp N) HI HC HE (or_intror (or_introl eq_refl))) as (s1 & vs1 & s2 & vs2 & E1 & E2 & L1 & L2 & H).
  destruct vs2 as [|v vs2]; [discriminate L2|]. destruct vs1 as [|w vs1]; [discriminate L1|]. destruct (H 0 w v eq_refl eq_refl) as [H1 H2].
  exists (v_sys N), (v_cells N 2 2 2), (fun _ => cuboid N 2 2 2), s1, (w :: vs1), s2, (v :: vs2), v.
  split; [exact HC|]. split; [exact E1|]. split; [exact E2|]. split; [reflexivity|]. split; [reflexivity|]. rewrite H2, app_length, H1. reflexivity.
Qed.
Print Assumptions C67_last_search_refuted.
