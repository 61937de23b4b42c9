(** A simple cubic crystal three cells wide with more than 2300 atoms: the grid
    of the cell search is two cells wide and neighbours are listed twice. *)
From Coq Require Import Reals Lra ZArith List Lia String Permutation Bool.
From Verif Require Import Base Num NumR Types M_Geometry M_Container M_Neighbors M_Crystal S_Geometry S_Container S_Neighbors S_Crystal
  P_Geometry P_Container P_Box P_Neighbors P_Cells P_FindN P_Centro P_Crystal P_Coord P_Perfect P_CrystalSys Ex.
Import ListNotations.
Set Implicit Arguments.
Close Scope R_scope.

Lemma flat_map_In_le {A B} (f : A -> list B) l a : In a l -> List.length (f a) <= List.length (flat_map f l).
Proof.
  induction l as [|b l IH]; [intros []|]. cbn [flat_map]. rewrite app_length. intros [->|H]; [lia|]. specialize (IH H). lia.
Qed.
Lemma flat_map_sum_le {A} (F : Z -> list A) (w : Z -> nat) l : (forall c, In c l -> w c <= List.length (F c)) ->
  list_sum (map w l) <= List.length (flat_map F l).
Proof.
  induction l as [|c l IH]; intros H; [cbn; lia|]. cbn [map list_sum fold_right flat_map]. rewrite app_length.
  specialize (IH (fun c Hc => H c (or_intror Hc))). specialize (H c (or_introl eq_refl)). unfold list_sum in IH. lia.
Qed.

Section Lower.
Variables (s : sys Rnum) (r : R) (J : list nat) (cellJ : nat -> Z) (g : grid).
Hypothesis St : stored s.
Hypothesis Big : (2300 < s_real s)%Z.
Hypothesis Hr : (0 < r)%R.
Hypothesis Hg : make_grid (prep s FNone r) = Ok g.
Hypothesis Gpos : (0 < g_nx g /\ 0 < g_ny g /\ 0 < g_nz g)%Z.
Hypothesis NDJ : NoDup J.
Variable a0 : atom Rnum.
Hypothesis E0 : nth_error (s_atoms s) 0 = Some a0.
Hypothesis C0 : atom_cell (prep s FNone r) g (a_pos a0) = 0%Z.
Hypothesis HJ : forall j, In j J -> 0 < j /\ exists b, nth_error (s_atoms s) j = Some b /\
  atom_cell (prep s FNone r) g (a_pos b) = cellJ j /\ (abs_distance s (a_pos a0) (a_pos b) < r)%R.
Hypothesis NL : nonneg3 (s_len s).

Theorem nbrs_lower srt voro area_pow inv t pad nl s' :
  find_neighbors srt voro area_pow inv s (mkArgs (N := Rnum) (MCutoff (CutVal (N := Rnum) r)) FNone t pad nl) = Ok (s', None) ->
  list_sum (map (fun c => List.length (filter (fun j => Z.eqb (cellJ j) c) J)) (neighbor_cells g 0 0 0)) <= List.length (nbrs_at s' 0).
Proof.
  unfold find_neighbors. rewrite (reset_stored St). cbn [bind]. cbv zeta. cbn [fa_method fa_filter fa_threshold].
  assert (Hr0 : neqb (n := Rnum) r n0 = false) by (apply Reqb_false; change (r <> 0%R); lra). rewrite Hr0. unfold real_count.
  match goal with |- context [Z.ltb 2300 ?x] => change x with (s_real s) end.
  assert (E : Z.ltb 2300 (s_real s) = true) by (apply Z.ltb_lt; lia). rewrite E. clear E.
  unfold get_all_neighbors_cells. change (_ <| s_vorused := false |>) with (prep s FNone r).
  unfold cell_pairs. rewrite Hg. cbn [bind].
  destruct (atom_cells (prep s FNone r) g) as [cs|e] eqn:Ec; cbn [bind]; [|discriminate].
  fold (cell_of_all g cs). set (ps := cell_of_all g cs).
  assert (NOP : s_nop (prep s FNone r) = Z.of_nat (List.length (s_atoms s))) by exact St.
  unfold atom_cells in Ec. rewrite NOP, Nat2Z.id in Ec. apply mapM_inv in Ec.
  assert (Lcs : List.length cs = List.length (s_atoms s)) by (rewrite <- (P_FindN.Forall2_length' Ec), seq_length; reflexivity).
  assert (CS : forall j b, nth_error (s_atoms s) j = Some b -> nth_error cs j = Some (atom_cell (prep s FNone r) g (a_pos b))).
  { intros j b Hb. assert (Lj : j < List.length (s_atoms s)) by (apply nth_error_Some; congruence).
    assert (Sj : nth_error (seq 0 (List.length (s_atoms s))) j = Some j) by (rewrite (nth_error_nth' _ 0) by (rewrite seq_length; lia); now rewrite seq_nth).
    destruct (Forall2_nth_l Ec Sj) as (c & Hc & K). rewrite Hc. f_equal.
    assert (Gj : get (s_atoms (prep s FNone r)) j = Ok (reset_atom_all b)).
    { apply get_Ok. change (s_atoms (prep s FNone r)) with (map (@reset_atom_all Rnum) (s_atoms s)). rewrite nth_error_map, Hb. reflexivity. }
    rewrite Gj in K. cbn [bind] in K. cbv zeta in K. destruct (_ && _) in K; [|discriminate]. injection K as <-. reflexivity. }
  assert (PS : forall p, In p ps -> fst p < List.length (s_atoms (prep s FNone r)) /\ snd p < List.length (s_atoms (prep s FNone r)) /\ fst p <> snd p).
  { intros [ti tj] H. apply In_cell_of_all in H. destruct H as (i & j & k & _ & H). apply In_inner in H. destruct H as (Hlt & Hi & c & _ & Hc). cbn [fst snd].
    change (s_atoms (prep s FNone r)) with (map (@reset_atom_all Rnum) (s_atoms s)). rewrite map_length, <- Lcs.
    assert (tj < List.length cs) by (apply nth_error_Some; congruence). lia. }
  pose proof (@fold_add_pair _ (prep s FNone r) ps (s_atoms (prep s FNone r)) PS) as F.
  destruct (foldM _ _ _) as [l'|e]; cbn [bind]; [|discriminate]. unfold found. intros [= <-].
  destruct F as [_ F]. destruct (F 0 (reset_atom_all a0)) as (a' & Ea' & _ & Na & _).
  { change (s_atoms (prep s FNone r)) with (map (@reset_atom_all Rnum) (s_atoms s)). rewrite nth_error_map, E0. reflexivity. }
  unfold nbrs_at. match goal with |- context [nth_error ?l 0] => change l with l' end. rewrite Ea', Na, app_length.
  cut (list_sum (map (fun c => List.length (filter (fun j => Z.eqb (cellJ j) c) J)) (neighbor_cells g 0 0 0)) <= List.length (evs (prep s FNone r) (s_atoms (prep s FNone r)) ps 0)); [lia|].
  assert (In1 : exists rest, ps = inner g cs 0 0 0 ++ rest).
  { unfold ps, cell_of_all. assert (Zr : forall n, (0 < n)%Z -> exists q, zrange 0 n = 0%Z :: q).
    { intros n Hn. unfold zrange. replace (Z.to_nat (n - 0)) with (Datatypes.S (Z.to_nat (n - 1))) by lia. cbn [seq map]. eexists. reflexivity. }
    destruct Gpos as (G1 & G2 & G3). destruct (Zr _ G1) as [q1 ->]. destruct (Zr _ G2) as [q2 ->]. destruct (Zr _ G3) as [q3 ->]. cbn [flat_map].
    fold (inner g cs 0 0 0). rewrite <- !app_assoc. eexists. reflexivity. }
  destruct In1 as [rest ->]. unfold evs. rewrite flat_map_app, app_length.
  unfold inner. rewrite flat_map_flat_map.
  assert (I0 : In 0 (members cs (cell_index (g_ny g) (g_nz g) 0 0 0))).
  { apply In_members. rewrite (CS _ _ E0), C0. reflexivity. }
  match goal with |- context [flat_map ?f (members cs _)] => pose proof (flat_map_In_le f _ _ I0) as LE; cbv beta in LE end.
  eapply Nat.le_trans; [|eapply Nat.le_trans; [exact LE|apply Nat.le_add_r]]. clear LE.
  rewrite flat_map_flat_map. apply flat_map_sum_le. intros c _.
  rewrite <- (map_length (@nb_idx Rnum)). apply NoDup_incl_length; [now apply NoDup_filter|].
  intros j Hj. apply filter_In in Hj. destruct Hj as [Hj Hc]. apply Z.eqb_eq in Hc.
  destruct (HJ _ Hj) as (Hpos & b & Eb & Cb & Db).
  apply in_map_iff. rewrite flat_map_flat_map.
  assert (PE : exists e, pair_ev (prep s FNone r) (s_atoms (prep s FNone r)) 0 (0, j) = [e] /\ nb_idx e = j).
  { unfold pair_ev. change (s_atoms (prep s FNone r)) with (map (@reset_atom_all Rnum) (s_atoms s)). rewrite !nth_error_map, E0, Eb. cbn [option_map].
    assert (AD : abs_distance_ij (prep s FNone r) (a_pos (reset_atom_all a0)) (a_pos (reset_atom_all b)) = (abs_distance s (a_pos a0) (a_pos b), vopp (distance_vector s (a_pos a0) (a_pos b)))).
    { change (abs_distance_ij s (a_pos a0) (a_pos b) = (abs_distance s (a_pos a0) (a_pos b), vopp (distance_vector s (a_pos a0) (a_pos b)))). now apply abs_distance_ij_spec. }
    rewrite AD. replace (nltb (abs_distance s (a_pos a0) (a_pos b)) (s_nd (prep s FNone r))) with true by (symmetry; now apply Rltb_true).
    cbn. eexists. split; reflexivity. }
  destruct PE as (e & PE & Ie). exists e. split; [exact Ie|]. apply in_flat_map. exists j. split.
  - apply In_members. rewrite (CS _ _ Eb). congruence.
  - assert (L0 : (0 <? j) = true) by (apply Nat.ltb_lt; lia). rewrite L0. cbn [flat_map]. rewrite PE. now left.
Qed.
End Lower.

(** The crystal 3 x 3 x 256 with lattice constant 1 and cutoff 6/5. *)
Lemma Rtrunc_is (x : R) (z : Z) : (0 <= x)%R -> (IZR z <= x < IZR z + 1)%R -> Rtrunc x = z.
Proof. intros H0 H. destruct (Rtrunc_nonneg x H0) as [-> _]. now apply Int_part_unique. Qed.
Lemma cell_at (L lx x : R) (c : Z) : (0 < lx)%R -> (x = 0 \/ 1 / 1000000 <= x)%R -> (x < L)%R -> (IZR c * lx <= x < (IZR c + 1) * lx)%R ->
  cell_coord (N := Rnum) L lx x = c.
Proof.
  intros Hl Hx HL Hc. unfold cell_coord. rnum.
  assert (E1 : (if Rltb (Rabs (x - 0)) (1 / 1000000) then 0 else x)%R = x).
  { destruct (Rltb (Rabs (x - 0)) (1 / 1000000)) eqn:E; [|reflexivity]. apply Rltb_true in E. destruct Hx as [->|Hx]; [reflexivity|].
    rewrite Rminus_0_r, Rabs_pos_eq in E by lra. lra. }
  rewrite E1. assert (E2 : Rltb x 0 = false) by (apply Rltb_false; lra). rewrite E2.
  assert (E3 : Rleb L x = false) by (apply Rleb_false; lra). rewrite E3.
  assert (D : (IZR c <= x / lx < IZR c + 1)%R) by (split; [apply div_range|apply div_range_lt]; lra).
  apply Rtrunc_is; [apply div_range; lra|exact D].
Qed.

Section Big.
Variables (raw : Z -> atom Rnum) (normal : Z -> Rnum -> Rnum -> Rnum) (raw' : Z -> atom Rnum) (inv : m3 Rnum -> option (m3 Rnum)) (s0 : sys Rnum).
Hypothesis Ht0 : s_tri s0 = false.
Definition big_box : m3 Rnum := diag (N := Rnum) 3%R 3%R 256%R.
Definition big_J : list nat := [slot 3 256 1 1 0 0 0; slot 3 256 1 2 0 0 0; slot 3 256 1 0 1 0 0; slot 3 256 1 0 2 0 0; slot 3 256 1 0 0 1 0; slot 3 256 1 0 0 255 0].
Definition big_cell (j : nat) : Z :=
  if Nat.eqb j (slot 3 256 1 2 0 0 0) then 426 else if Nat.eqb j (slot 3 256 1 0 2 0 0) then 213 else if Nat.eqb j (slot 3 256 1 0 0 255 0) then 212 else 0.

Lemma big_crystal : exists atoms,
  make_crystal raw normal "sc" (1%R : Rnum) (Some [3; 3; 256]%Z) (1%R : Rnum) (0%R : Rnum) = Ok (atoms, big_box) /\
  List.length atoms = Z.to_nat 2304 /\
  all_real atoms /\
  forall i j k, i < 3 -> j < 3 -> k < 256 -> exists x, nth_error atoms (slot 3 256 1 i j k 0) = Some x /\
    a_pos x = mkV (N := Rnum) (INR i) (INR j) (INR k).
Proof.
  assert (HB : In ("sc"%string, [(1%Z, (0, 0, 0)%R)]) basis) by (left; reflexivity).
  destruct (@lattice_run raw normal "sc" _ 1%R 1%R 0%R 3%Z 3%Z 256%Z [] HB (Rle_refl 0)) as (atoms & E & L & H).
  destruct (make_crystal_run raw normal (1%R : Rnum) (1%R : Rnum) (0%R : Rnum) 3 3 256 [] HB) as (u & _ & _ & _ & E').
  exists atoms. split; [|split; [|split]].
  - etransitivity; [exact E|]. unfold cell_sides. cbn [String.eqb Ascii.eqb Bool.eqb]. unfold big_box, diag. do 2 f_equal. rnum. f_equal; apply v3_eq; lra.
  - rewrite L. cbn [List.length]. rewrite Nat.mul_1_r. lia.
  - intros x Hx. rewrite E in E'. injection E' as -> _. eapply place_real; eauto.
  - intros i j k Hi Hj Hk. destruct (H i j k 0 1%Z (0, 0, 0)%R) as (x & Ex & _ & Px & _); [lia..|reflexivity|].
    exists x. split; [exact Ex|]. rewrite Px. unfold site, cell_sides. cbn [String.eqb Ascii.eqb Bool.eqb]. apply v3_eq; ring.
Qed.
Lemma big_slot i j k : slot 3 256 1 i j k 0 = i * 768 + j * 256 + k.
Proof. unfold slot. lia. Qed.

Theorem big_refuted srt voro area_pow inv' t pad nl : exists atoms s1 s2,
  make_crystal raw normal "sc" (1%R : Rnum) (Some [3; 3; 256]%Z) (1%R : Rnum) (0%R : Rnum) = Ok (atoms, big_box) /\
  box_set inv s0 big_box = Ok s1 /\ atoms_set inv raw' s1 atoms = Ok s2 /\ 0 < List.length (s_atoms s2) /\
  forall s3, find_neighbors srt voro area_pow inv' s2 (mkArgs (N := Rnum) (MCutoff (CutVal (N := Rnum) (6/5)%R)) FNone t pad nl) = Ok (s3, None) ->
    8 <= List.length (nbrs_at s3 0).
Proof.
  destruct big_crystal as (atoms & E & L & Re & Pp).
  exists atoms, (sbox s0 big_box), (set_atoms (sbox s0 big_box) atoms).
  split; [exact E|]. split; [apply box_set_diag|].
  assert (E200 : (Z.of_nat (List.length atoms) <? 200)%Z = false) by (rewrite L, Z2Nat.id by lia; reflexivity).
  split; [unfold atoms_set; rewrite E200; reflexivity|]. split; [change (0 < List.length atoms); lia|].
  set (s2 := set_atoms (sbox s0 big_box) atoms). intros s3 H3.
  assert (HL : s_len s2 = mkV (N := Rnum) 3%R 3%R 256%R) by (apply diag_len; lra).
  assert (Ho : ortho s2) by (apply (@sbox_diag_ortho s0 3%R 3%R 256%R); [exact Ht0|lra..]).
  assert (Hg : make_grid (prep s2 FNone (6/5)%R) = Ok (mkGrid 2 2 213)).
  { unfold make_grid. change (s_len (prep s2 FNone (6/5)%R)) with (s_len s2). rewrite HL. change (s_nd (prep s2 FNone (6/5)%R)) with (6/5)%R. cbn [vx vy vz]. rnum.
    rewrite !(@Rtrunc_is (3 / (6/5))%R 2) by lra. rewrite (@Rtrunc_is (256 / (6/5))%R 213) by lra. reflexivity. }
  assert (AC : forall p, atom_cell (prep s2 FNone (6/5)%R) (mkGrid 2 2 213) p = cell_index 2 213 (cell_coord (N := Rnum) 3%R (3/2)%R (vx p)) (cell_coord (N := Rnum) 3%R (3/2)%R (vy p)) (cell_coord (N := Rnum) 256%R (256/213)%R (vz p))).
  { intros p. unfold atom_cell. change (s_len (prep s2 FNone (6/5)%R)) with (s_len s2). rewrite HL. reflexivity. }
  assert (Cx : forall i, i < 3 -> cell_coord (N := Rnum) 3%R (3/2)%R (INR i) = if Nat.eqb i 2 then 1%Z else 0%Z).
  { intros i Hi. destruct i as [|[|[|]]]; [| | |lia]; cbn [INR Nat.eqb]; apply cell_at; first [lra | left; lra | right; lra]. }
  assert (Cz : forall k c, In (k, c) [(0, 0%Z); (1, 0%Z); (255, 212%Z)] -> cell_coord (N := Rnum) 256%R (256/213)%R (INR k) = c).
  { intros k c Hk. cbn [In] in Hk. destruct Hk as [Hk|[Hk|[Hk|[]]]]; injection Hk as <- <-; rewrite INR_IZR_INZ; apply cell_at; cbn; first [lra | left; lra | right; lra]. }
  destruct (Pp 0 0 0) as (a0 & E0 & P0); [lia..|]. rewrite big_slot in E0. cbn [Nat.mul Nat.add] in E0.
  assert (DIST : forall i j k x, i < 3 -> j < 3 -> k < 256 -> a_pos x = mkV (N := Rnum) (INR i) (INR j) (INR k) ->
     forall d1 d2 d3, (len2 (0 - (INR i + IZR d1 * 3)) (0 - (INR j + IZR d2 * 3)) (0 - (INR k + IZR d3 * 256)) = 1)%R ->
     (abs_distance s2 (a_pos a0) (a_pos x) < 6/5)%R).
  { intros i j k x Hi Hj Hk Px d1 d2 d3 D.
    assert (NR : near (s_len s2) (a_pos a0) (a_pos x)).
    { apply in_box_near; rewrite HL, ?P0, ?Px; unfold in_box; cbn [vx vy vz INR]; [lra|].
      pose proof (pos_INR i). pose proof (pos_INR j). pose proof (pos_INR k). apply lt_INR in Hi, Hj, Hk. rewrite (INR_IZR_INZ 3) in Hi, Hj. rewrite (INR_IZR_INZ 256) in Hk. cbn in Hi, Hj, Hk. lra. }
    destruct (abs_distance_min_near _ _ _ Ho NR) as [_ M]. specialize (M d1 d2 d3). rewrite HL, P0, Px in M. unfold image_distance in M. cbn [vx vy vz] in M.
    rewrite P0, Px. eapply Rle_lt_trans; [exact M|]. unfold eucl. change (INR 0) with 0%R. rewrite D, sqrt_1. lra. }
  assert (LB := @nbrs_lower s2 (6/5)%R big_J big_cell (mkGrid 2 2 213) eq_refl).
  assert (SUM : list_sum (map (fun c => List.length (filter (fun j => Z.eqb (big_cell j) c) big_J)) (neighbor_cells (mkGrid 2 2 213) 0 0 0)) = 8) by (vm_compute; reflexivity).
  rewrite SUM in LB. apply (LB) with (a0 := a0) (srt := srt) (voro := voro) (area_pow := area_pow) (inv := inv') (t := t) (pad := pad) (nl := nl); clear LB SUM.
  - change (2300 < count_real atoms)%Z. unfold count_real. rewrite filter_all by (intros x Hx; apply all_real_is_real with (l := atoms); auto). rewrite L. lia.
  - lra.
  - exact Hg.
  - cbn. lia.
  - unfold big_J. rewrite !big_slot. repeat constructor; cbn [In]; lia.
  - exact E0.
  - rewrite AC, P0. cbn [vx vy vz]. rewrite (Cx 0) by lia. rewrite (Cz 0 0%Z) by (cbn; auto). reflexivity.
  - assert (ONE : forall i j k c d1 d2 d3, i < 3 -> j < 3 -> In (k, c) [(0, 0%Z); (1, 0%Z); (255, 212%Z)] -> 0 < i * 768 + j * 256 + k ->
      big_cell (slot 3 256 1 i j k 0) = cell_index 2 213 (if Nat.eqb i 2 then 1 else 0) (if Nat.eqb j 2 then 1 else 0) c ->
      (len2 (0 - (INR i + IZR d1 * 3)) (0 - (INR j + IZR d2 * 3)) (0 - (INR k + IZR d3 * 256)) = 1)%R ->
      0 < slot 3 256 1 i j k 0 /\ exists b, nth_error (s_atoms s2) (slot 3 256 1 i j k 0) = Some b /\
       atom_cell (prep s2 FNone (6/5)%R) (mkGrid 2 2 213) (a_pos b) = big_cell (slot 3 256 1 i j k 0) /\ (abs_distance s2 (a_pos a0) (a_pos b) < 6/5)%R).
    { intros i j k c d1 d2 d3 Hi Hj Hk Hpos Hc D. assert (Hk' : k < 256) by (cbn [In] in Hk; destruct Hk as [K|[K|[K|[]]]]; injection K; lia).
      split; [rewrite big_slot; exact Hpos|]. destruct (Pp i j k Hi Hj Hk') as (x & Ex & Px). exists x. split; [exact Ex|]. split; [|exact (DIST i j k x Hi Hj Hk' Px d1 d2 d3 D)].
      rewrite AC, Px. cbn [vx vy vz]. rewrite !Cx by assumption. rewrite (Cz _ _ Hk). symmetry. exact Hc. }
    intros j Hj. cbn [In big_J] in Hj.
    destruct Hj as [<-|[<-|[<-|[<-|[<-|[<-|[]]]]]]].
    + apply (ONE 1 0 0 0%Z 0%Z 0%Z 0%Z); [lia|lia|cbn; auto|lia|vm_compute; reflexivity|unfold len2; cbn; lra].
    + apply (ONE 2 0 0 0%Z (-1)%Z 0%Z 0%Z); [lia|lia|cbn; auto|lia|vm_compute; reflexivity|unfold len2; cbn; lra].
    + apply (ONE 0 1 0 0%Z 0%Z 0%Z 0%Z); [lia|lia|cbn; auto|lia|vm_compute; reflexivity|unfold len2; cbn; lra].
    + apply (ONE 0 2 0 0%Z 0%Z (-1)%Z 0%Z); [lia|lia|cbn; auto|lia|vm_compute; reflexivity|unfold len2; cbn; lra].
    + apply (ONE 0 0 1 0%Z 0%Z 0%Z 0%Z); [lia|lia|cbn; auto|lia|vm_compute; reflexivity|unfold len2; cbn; lra].
    + apply (ONE 0 0 255 212%Z 0%Z 0%Z (-1)%Z); [lia|lia|cbn; auto|lia|vm_compute; reflexivity|unfold len2; rewrite (INR_IZR_INZ 255); cbn; lra].
  - apply ortho_nonneg. exact Ho.
  - exact H3.
Qed.
End Big.
