(** Property C23 for triclinic systems: the Voronoi search (core.py:558-563). *)
From Coq Require Import Reals Lra ZArith Lia.
From Verif Require Import Base Num NumR Types Ex M_Geometry M_Container M_Neighbors S_Geometry S_Container S_Neighbors
  P_Geometry P_Box P_Container P_Neighbors P_FindN P_History P_VoroTri C_Geometry C_Neighbors.
Close Scope R_scope. Close Scope Z_scope.
#[local] Opaque abs_distance_ij.

(** In exact arithmetic: after a Voronoi search on a triclinic system without
    ghosts the system holds 27 times as many atoms, and a cutoff search finds 26
    copies of every atom at distance 0 from it.  Without the Voronoi search it
    finds none. *)
Theorem C23_voronoi_triclinic :
  forall srt voro area_pow inv srt' voro' area_pow' (s0 s s1 s2 : sys Rnum) (B ri : m3 Rnum) (l : list (atom Rnum)) mem f t pad nl e t' pad' nl' (r : R),
  box_set inv s0 B = Ok s -> s_ghosts_created s = false -> s_actual s = None ->
  (1 / 1000000 < Rabs (cos_sum B))%R -> inv (transpose B) = Some ri -> inverse_of (transpose B) ri ->
  all_real l -> length l <= 2300 -> (0 < r)%R ->
  find_neighbors srt voro area_pow inv (set_atoms s l) (mkArgs (MVoronoi mem) f t pad nl) = Ok (s1, e) ->
  find_neighbors srt' voro' area_pow' inv s1 (mkArgs (MCutoff (CutVal (r : Rnum))) FNone t' pad' nl') = Ok (s2, None) ->
  length (s_atoms s2) = 27 * length l /\
  forall m, m < length l ->
    (exists xs, length xs = 26 /\ NoDup xs /\
       forall x, In x xs -> length l <= x /\ exists en, In en (nbrs_at s2 m) /\ nb_idx en = x /\ nb_dist en = 0%R) /\
    (forall s', find_neighbors srt' voro' area_pow' inv (set_atoms s l) (mkArgs (MCutoff (CutVal (r : Rnum))) FNone t' pad' nl') = Ok (s', None) ->
       forall en, In en (nbrs_at s' m) -> nb_idx en < length l).
Proof.
  intros srt voro area_pow inv srt' voro' area_pow' s0 s s1 s2 B ri l mem f t pad nl e t' pad' nl' r HB Gh Ac Hc Hi HI Al Ll Hr H1 H2.
  destruct (box_set_tric inv s0 B ri Hc Hi HI) as (sx & Ex & Tx). rewrite HB in Ex. injection Ex as <-.
  destruct (box_set_len _ _ _ _ HB) as [_ Bx].
  assert (Re : s_real (set_atoms s l) = Z.of_nat (length (s_atoms (set_atoms s l)))).
  { cbn. unfold count_real. f_equal. f_equal. apply filter_every. intros x Hx. unfold is_real. rewrite (Al x Hx). reflexivity. }
  assert (R0 : neqb (r : Rnum) n0 = false) by (apply Reqb_false; cbn; lra).
  destruct (@copies_found srt voro area_pow inv (set_atoms s l) s1 mem f t pad nl e ri r) as (St1 & Re1 & L1 & H).
  { reflexivity. } { exact Re. } { exact Al. } { exact (proj1 Tx). } { exact Gh. } { exact Ac. }
  { change (s_box (set_atoms s l)) with (s_box s). rewrite Bx. exact Hc. }
  { change (s_box (set_atoms s l)) with (s_box s). rewrite Bx. exact Hi. }
  { change (s_box (set_atoms s l)) with (s_box s). rewrite Bx. exact HI. }
  { exact H1. } { exact Hr. }
  change (s_atoms (set_atoms s l)) with l in *.
  (* what a cutoff search gives when it succeeds *)
  assert (K : forall (x y : sys Rnum), stored x -> (s_real x <= 2300)%Z ->
    find_neighbors srt' voro' area_pow' inv x (mkArgs (MCutoff (CutVal (r : Rnum))) FNone t' pad' nl') = Ok (y, None) ->
    length (s_atoms y) = length (s_atoms x) /\ forall m, m < length (s_atoms x) -> nbrs_at y m = neighbors_within x r FNone m).
  { intros x y Sx Rx E.
    assert (C : forall i, i < length (s_atoms x) -> length (neighbors_within x r FNone i) <= 300).
    { intros i Hx. destruct (Nat.le_gt_cases (length (neighbors_within x r FNone i)) 300) as [|G]; [assumption|exfalso].
      assert (U := proj2 (C22_overrun_iff Rnum srt' voro' area_pow' inv x r t' pad' nl' FNone Sx Rx R0) (ex_intro _ i (conj Hx G))). congruence. }
    destruct (C15_cutoff_neighbours Rnum srt' voro' area_pow' inv x r t' pad' nl' FNone Sx Rx R0 C) as (y' & E' & _ & Ly & Hy).
    rewrite E in E'. injection E' as <-. split; [exact Ly|]. intros m Hm.
    destruct (nth_error (s_atoms x) m) as [a|] eqn:Ea; [|apply nth_error_None in Ea; lia].
    destruct (Hy m a Ea) as (a' & Ha' & _ & Hn & _). unfold nbrs_at. rewrite Ha'. exact Hn. }
  destruct (K s1 s2 St1) as (L2 & N2); [rewrite Re1, Re; cbn; lia|exact H2|].
  split; [congruence|]. intros m Hm. split.
  - destruct (H m Hm) as (xs & Lx & ND & Hx). exists xs. split; [exact Lx|]. split; [exact ND|]. intros x Hin.
    destruct (Hx x Hin) as (Hb & en & He & Ei & Ed). split; [apply Hb|]. exists en. rewrite N2 by lia. auto.
  - intros s' E' en He. destruct (K (set_atoms s l) s') as (_ & N'); [reflexivity|rewrite Re; cbn; lia|exact E'|].
    rewrite N' in He by exact Hm. apply In_neighbors_within in He as (He & _). apply link_idx in He. apply He.
Qed.
Print Assumptions C23_voronoi_triclinic.

(** So for such a system the neighbours of the [n] real atoms depend on the
    history. *)
Definition same_answer {N : num} (n : nat) (x y : res (outcome N)) : Prop :=
  match x, y with
  | Ok (s1, e1), Ok (s2, e2) => e1 = e2 /\ forall i, i < n -> nbrs_at s1 i = nbrs_at s2 i
  | Err e1, Err e2 => e1 = e2
  | _, _ => False
  end.
(** 200 atoms (so that the atoms setter adds no ghosts) in a sheared cell. *)
Definition many : list (atom Rnum) :=
  map (fun k => at_pos (zv Rnum 0 0 0) <| a_pos := mkV (N := Rnum) (INR k / 200)%R 0%R 0%R |>) (seq 0 200).
Definition k_sys : sys Rnum := sbox (assign_triclinic_params (sys_ctor (raw_sys Rnum)) (transpose k_box) k_inv) k_box.
(** The inverse by cofactors. *)
Definition det3 (m : m3 Rnum) : R :=
  (vx (r0 m) * (vy (r1 m) * vz (r2 m) - vz (r1 m) * vy (r2 m)) - vy (r0 m) * (vx (r1 m) * vz (r2 m) - vz (r1 m) * vx (r2 m))
   + vz (r0 m) * (vx (r1 m) * vy (r2 m) - vy (r1 m) * vx (r2 m)))%R.
Definition exact_inv (m : m3 Rnum) : option (m3 Rnum) :=
  let d := det3 m in
  let '(mkM (mkV a b c) (mkV d' e f) (mkV g h i)) := m in
  if Reqb d 0%R then None
  else Some (mkM (N := Rnum) (mkV (N := Rnum) ((e * i - f * h) / d) ((c * h - b * i) / d) ((b * f - c * e) / d))%R
                 (mkV (N := Rnum) ((f * g - d' * i) / d) ((a * i - c * g) / d) ((c * d' - a * f) / d))%R
                 (mkV (N := Rnum) ((d' * h - e * g) / d) ((b * g - a * h) / d) ((a * e - b * d') / d))%R).
Lemma exact_inv_is_inverse m w : exact_inv m = Some w -> inverse_of m w.
Proof.
  destruct m as [[a b c] [d e f] [g h i]]. unfold exact_inv. cbv zeta. destruct (Reqb _ _) eqn:E; [discriminate|].
  apply Reqb_false in E. unfold det3 in *. cbn [vx vy vz r0 r1 r2] in *. intros [= <-].
  unfold inverse_of, dot3, col0, col1, col2. cbn [vx vy vz r0 r1 r2].
  repeat split; field; exact E.
Qed.
Lemma exact_inv_some m : det3 m <> 0%R -> exists w, exact_inv m = Some w.
Proof.
  destruct m as [[a b c] [d e f] [g h i]]. intros H. unfold exact_inv. cbv zeta.
  replace (Reqb _ _) with false by (symmetry; apply Reqb_false; exact H). eauto.
Qed.
Lemma voro_none {N : num} (area_pow : N -> N) (s : sys N) : exists s', get_all_neighbors_voronoi no_voro area_pow s = Ok s'.
Proof.
  unfold get_all_neighbors_voronoi. cbv zeta.
  assert (G : forall ks l, foldM (fun l ti => r <- voro_atom no_voro area_pow (s <| s_vorused := true |>) ti ;;
     match r with None => Ok l | Some ns => Ok (upd ti (fun a => a <| a_nbrs := ns |>) l) end) ks l = Ok l).
  { induction ks as [|k ks IH]; intros l; cbn [foldM]; [reflexivity|]. unfold voro_atom at 1. cbn [no_voro bind]. apply IH. }
  rewrite G. cbn [bind]. eauto.
Qed.
Lemma box_set_exact (s : sys Rnum) b : det3 (transpose b) <> 0%R -> exists s', box_set exact_inv s b = Ok s'.
Proof.
  intros H. unfold box_set. destruct (nltb _ _); [|eauto]. change (mtrans b) with (transpose b).
  destruct (exact_inv_some _ H) as (w & ->). eauto.
Qed.

(** The triclinic system of one of these boxes, as the setters leave it. *)
Lemma k_reached : exists s, box_set exact_inv (sys_ctor (raw_sys Rnum)) k_box = Ok s /\ s_ghosts_created s = false /\ s_actual s = None /\
  s_tri s = true /\ exact_inv (transpose k_box) <> None /\ s_box s = k_box.
Proof.
  assert (D : det3 (transpose k_box) <> 0%R) by (unfold det3, transpose, col0, col1, col2, k_box, zv; cbn; lra).
  destruct (exact_inv_some _ D) as (w & Ew).
  unfold box_set. replace (nltb _ _) with true by (symmetry; apply Rltb_true; exact (proj1 k_hyp)).
  change (mtrans k_box) with (transpose k_box). rewrite Ew. eexists. split; [reflexivity|]. repeat split; discriminate.
Qed.
Lemma voronoi_succeeds (s : sys Rnum) mem f t pad nl :
  stored s -> s_real s = Z.of_nat (length (s_atoms s)) -> det3 (transpose (s_box s)) <> 0%R -> s_actual s = None ->
  exists s' e, find_neighbors isort no_voro idp exact_inv s (mkArgs (MVoronoi mem) f t pad nl) = Ok (s', e).
Proof.
  intros St Re HD Ac. unfold find_neighbors, reset_all_neighbors. rewrite (each_atom_stored _ St). cbn [bind fa_method fa_filter]. cbv zeta.
  set (s0 := s <| s_atoms := map (@reset_atom_all Rnum) (s_atoms s) |> <| s_filter := filter_code f |>).
  assert (E : exists s1, embed_triclinic exact_inv mem s0 = Ok s1).
  { unfold embed_triclinic. destruct (_ && _); [|eauto].
    assert (GA : get_atoms s0 = Ok (map (@reset_atom_all Rnum) (s_atoms s))).
    { unfold get_atoms. change (s_real s0) with (s_real s). change (s_atoms s0) with (map (@reset_atom_all Rnum) (s_atoms s)).
      rewrite Re, Nat2Z.id, <- (map_length (@reset_atom_all Rnum)).
      assert (M := @mapM_get_prefix _ (map (@reset_atom_all Rnum) (s_atoms s)) []). rewrite app_nil_r in M. exact M. }
    rewrite GA. cbn [bind]. unfold repeat_cell. cbn [bind].
    destruct (box_set_exact (s0 <| s_actual := Some (box_get s0) |>) (scale_box (box_get s0) (1, 1, 1)%Z)) as (s1 & E1).
    { unfold box_get. change (s_actual s0) with (s_actual s). rewrite Ac. change (s_box s0) with (s_box s).
      unfold det3, transpose, col0, col1, col2, scale_box, vscale in *. cbn [vx vy vz r0 r1 r2] in *.
      change (nofZ (n := Rnum) (2 * 1 + 1)) with (IZR 3). rnum.
      match type of HD with ?d <> _ => intros Q; apply HD; apply (Rmult_eq_reg_l 27%R); [|lra]; rewrite Rmult_0_r, <- Q; ring end. }
    rewrite E1. cbn [bind]. unfold embed_in_cubic_box. eexists. apply box_set_diag. }
  destruct E as (s1 & ->). cbn [bind]. destruct (voro_none idp s1) as (s2 & ->). cbn [bind].
  change (s_box s0) with (s_box s). destruct (box_set_exact s2 (s_box s) HD) as (s3 & ->). cbn [bind found]. do 2 eexists. reflexivity.
Qed.

Theorem C23_voronoi_triclinic_refuted :
  exists inv (s0 s s1 : sys Rnum) (B : m3 Rnum) (l : list (atom Rnum)) (c args : fn_args Rnum) mem,
    (forall m w, inv m = Some w -> inverse_of m w) /\
    box_set inv s0 B = Ok s /\ length l = 200 /\ atoms_set inv mem s l = Ok (set_atoms s l) /\
    foldM (earlier isort no_voro idp inv) [Some c] (set_atoms s l) = Ok s1 /\
    ~ same_answer 200 (find_neighbors isort no_voro idp inv (set_atoms s l) args) (find_neighbors isort no_voro idp inv s1 args).
Proof.
  destruct k_reached as (s & Es & Gh & Ac & Tr & Hi & Bx).
  set (mem := fun _ : Z => raw_atom Rnum).
  set (c := mkArgs (N := Rnum) (MVoronoi mem) FNone (nofZ 2) (nlit 6 5) 6).
  set (r := (1 / 1000)%R). set (args := mkArgs (N := Rnum) (MCutoff (CutVal (r : Rnum))) FNone (nofZ 2) (nlit 6 5) 6).
  assert (Lm : length many = 200) by (unfold many; rewrite map_length; apply seq_length).
  assert (Am : all_real many) by (intros x Hx; apply in_map_iff in Hx as (k & <- & _); reflexivity).
  assert (Re : s_real (set_atoms s many) = Z.of_nat (length (s_atoms (set_atoms s many)))).
  { cbn [s_real set_atoms s_atoms set]. change (s_real (set_atoms s many)) with (count_real many). change (s_atoms (set_atoms s many)) with many.
    unfold count_real. rewrite filter_every; [reflexivity|]. intros x Hx. unfold is_real. rewrite (Am x Hx). reflexivity. }
  assert (D : det3 (transpose k_box) <> 0%R) by (unfold det3, transpose, col0, col1, col2, k_box, zv; cbn; lra).
  destruct (voronoi_succeeds (set_atoms s many) mem FNone (nofZ 2) (nlit 6 5) 6) as (s1 & e & E1).
  { reflexivity. } { exact Re. } { change (s_box (set_atoms s many)) with (s_box s). rewrite Bx. exact D. } { exact Ac. }
  exists exact_inv, (sys_ctor (raw_sys Rnum)), s, s1, k_box, many, c, args, mem.
  split; [exact exact_inv_is_inverse|]. split; [exact Es|]. split; [exact Lm|].
  split; [unfold atoms_set; rewrite Lm; reflexivity|].
  split; [cbn [foldM earlier]; unfold searches, c; rewrite E1; reflexivity|].
  assert (R0 : neqb (r : Rnum) n0 = false) by (apply Reqb_false; unfold r; cbn; lra).
  assert (CAP : forall i, i < length (s_atoms (set_atoms s many)) -> length (neighbors_within (set_atoms s many) r FNone i) <= 300).
  { intros i _. destruct (C15_membership Rnum (set_atoms s many) r FNone i) as (ND & HM). rewrite <- (map_length (@nb_idx Rnum)).
    apply Nat.le_trans with (length (seq 0 200)); [|rewrite seq_length; lia]. apply NoDup_incl_length; [exact ND|].
    intros x Hx. apply in_map_iff in Hx as (en & <- & He). apply HM in He as (_ & He & _). apply link_idx in He as (_ & _ & _ & _ & He).
    change (s_atoms (set_atoms s many)) with many in He. apply in_seq. lia. }
  destruct (C15_cutoff_neighbours Rnum isort no_voro idp exact_inv (set_atoms s many) r (nofZ 2) (nlit 6 5) 6 FNone) as (s' & E' & _).
  { reflexivity. } { rewrite Re. change (s_atoms (set_atoms s many)) with many. lia. } { exact R0. } { exact CAP. }
  unfold same_answer, args. rewrite E'.
  destruct (find_neighbors isort no_voro idp exact_inv s1 (mkArgs (MCutoff (CutVal (r : Rnum))) FNone (nofZ 2) (nlit 6 5) 6)) as [[s2 e2]|u2] eqn:E2; [|tauto].
  intros [<- HN]. destruct (exact_inv_some _ D) as (w & Ew).
  destruct (C23_voronoi_triclinic isort no_voro idp exact_inv isort no_voro idp _ s s1 s2 k_box w many mem FNone (nofZ 2) (nlit 6 5) 6 e (nofZ 2) (nlit 6 5) 6%Z r Es Gh Ac
    (proj1 k_hyp) Ew (exact_inv_is_inverse _ _ Ew) Am) as (_ & H).
  { lia. } { unfold r; lra. } { exact E1. } { exact E2. }
  destruct (H 0) as ((xs & Lx & _ & Hx) & HO); [lia|]. destruct xs as [|x xs]; [discriminate|].
  destruct (Hx x (or_introl eq_refl)) as (Hlx & en & He & Ei & _). rewrite <- HN in He by lia.
  specialize (HO s' E' en He). lia.
Qed.
Print Assumptions C23_voronoi_triclinic_refuted.
