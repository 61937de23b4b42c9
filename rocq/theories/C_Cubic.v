(** Property C69: System.extract_cubic_box (core.py:2027-2088). *)
From Coq Require Import Reals Lra Lia Psatz.
From Verif Require Import Base Num NumR NumF NumP Types Ex M_Geometry M_Container M_Cubic S_Geometry S_Container S_Cubic P_Geometry P_Container P_Box P_Cubic.
Local Open Scope R_scope.

(** Over the reals the returned atoms lie in the returned box. *)
Theorem C69_atoms_in_box :
  forall inv raw (s s' : sys Rnum) reps b' l',
  extract_cubic_box inv raw s reps = Ok (s', (b', l')) ->
  exists L : v3 Rnum, b' = diag (N := Rnum) (vx L) (vy L) (vz L) /\ nonneg3 L /\
    forall a', In a' l' -> in_box L (a_pos a').
Proof.
  intros inv raw s s' reps b' l' E.
  apply extract_inv in E as (anchor & rest & lx & hx & ly & hy & lz & hz & _ & E1 & E2 & E3 & -> & HL).
  exists (mkV (N := Rnum) (hx - lx) (hy - ly) (hz - lz)). split; [reflexivity|].
  apply bounds_inv in E1 as (m1 & _ & A1 & B1). apply bounds_inv in E2 as (m2 & _ & A2 & B2). apply bounds_inv in E3 as (m3 & _ & A3 & B3).
  assert (Q : forall x y lo hi : R, lo = Rmin x y -> hi = Rmax x y -> 0 <= hi - lo).
  { intros x y lo hi -> ->. unfold Rmin, Rmax. destruct (Rle_dec x y); lra. }
  split.
  - split; [|split]; cbn [vx vy vz]; eapply Q; eassumption.
  - intros a' Ha. apply HL in Ha as (a & _ & (I1 & I2) & (I3 & I4) & (I5 & I6) & ->).
    assert (G : forall x lo hi : R, lo <= x -> x < hi -> 0 <= x - lo < hi - lo) by (intros; lra).
    split; [|split]; cbn; apply G; assumption.
Qed.
Print Assumptions C69_atoms_in_box.

(** The side in direction [c] reaches to the nearest atom of the type of the
    first atom on the axis [c] through it, among the repeated atoms and by the
    distance in the repeated box; there is an error exactly if one of the three
    directions has none nearer than 10000. *)
Theorem C69_edges :
  forall inv raw (s s' : sys Rnum) reps anchor rest,
  repeat_cell inv raw s reps None false true = Ok (s', anchor :: rest) ->
  let D m := dist_of (get_distance s' anchor m false) in
  let candidate c m := In m rest /\ on_axis c (a_pos anchor) (a_pos m) /\ a_type m = a_type anchor /\ D m < 10000 in
  ((exists r, extract_cubic_box inv raw s reps = Ok r) <-> forall c, (c < 3)%nat -> exists m, candidate c m) /\
  ((forall r, extract_cubic_box inv raw s reps <> Ok r) -> extract_cubic_box inv raw s reps = Err ValueError) /\
  (forall s'' b' l', extract_cubic_box inv raw s reps = Ok (s'', (b', l')) -> s'' = s' /\
    forall c, (c < 3)%nat -> exists m, candidate c m /\ (forall m', candidate c m' -> D m <= D m') /\
      comp c (nth c [r0 b'; r1 b'; r2 b'] (r2 b')) = Rabs (comp c (a_pos m) - comp c (a_pos anchor))).
Proof.
  intros inv raw s s' reps anchor rest HR D candidate.
  assert (HN : forall c, (c < 3)%nat ->
    match nearest s' c anchor rest with
    | None => forall m, ~ candidate c m
    | Some m => candidate c m /\ (forall m', candidate c m' -> D m <= D m')
    end).
  { intros c Hc. pose proof (nearest_spec s' c anchor rest) as H. destruct (nearest s' c anchor rest) as [m|]; cbv beta iota zeta delta [near_ok] in H.
    - destruct H as (H1 & H2 & H3 & H4). apply aligned_spec in H2 as (H2 & H2'); [|exact Hc].
      split; [split; [exact H1|]; split; [exact H2|]; split; [exact H2'|exact H3]|].
      intros m' (M1 & M2 & M3 & _). apply H4; [exact M1|]. apply aligned_spec; auto.
    - intros m (M1 & M2 & M3 & M4). assert (X : 10000 <= D m) by (apply H; [exact M1|apply aligned_spec; auto]). lra. }
  assert (HB : forall c, (c < 3)%nat -> (exists m, candidate c m) <-> exists r, bounds s' c anchor rest = Ok r).
  { intros c Hc. specialize (HN c Hc). unfold bounds. destruct (nearest s' c anchor rest) as [m|].
    - split; intros _; [eexists; reflexivity|exists m; exact (proj1 HN)].
    - split; [intros (m & Hm); destruct (HN m Hm)|intros (r & X); discriminate]. }
  assert (HE : forall c r, bounds s' c anchor rest = Err r -> r = ValueError).
  { intros c r. unfold bounds. destruct (nearest s' c anchor rest); intros H; [discriminate|injection H; auto]. }
  assert (HX : extract_cubic_box inv raw s reps = (bx <- bounds s' 0 anchor rest ;; by_ <- bounds s' 1 anchor rest ;; bz <- bounds s' 2 anchor rest ;;
     match extract_cubic_box inv raw s reps with Ok r => Ok r | Err e => Err e end)).
  { unfold extract_cubic_box. rewrite HR. cbn [bind].
    destruct (bounds s' 0 anchor rest) as [b0|]; cbn [bind]; [|reflexivity].
    destruct (bounds s' 1 anchor rest) as [b1|]; cbn [bind]; [|reflexivity].
    destruct (bounds s' 2 anchor rest) as [b2|]; cbn [bind]; reflexivity. }
  assert (HO : forall b0 b1 b2, bounds s' 0 anchor rest = Ok b0 -> bounds s' 1 anchor rest = Ok b1 -> bounds s' 2 anchor rest = Ok b2 ->
     exists r, extract_cubic_box inv raw s reps = Ok r).
  { intros b0 b1 b2 E0 E1 E2. unfold extract_cubic_box. rewrite HR. cbn [bind]. rewrite E0. cbn [bind]. rewrite E1. cbn [bind]. rewrite E2. cbn [bind]. eexists. reflexivity. }
  split; [|split].
  - split.
    + intros (r & E). rewrite HX in E. intros c Hc. apply (HB c Hc).
      destruct (bounds s' 0 anchor rest) as [b0|] eqn:E0; [|discriminate].
      destruct (bounds s' 1 anchor rest) as [b1|] eqn:E1; [|discriminate].
      destruct (bounds s' 2 anchor rest) as [b2|] eqn:E2; [|discriminate].
      destruct c as [|[|[|c]]]; [exists b0; exact E0|exists b1; exact E1|exists b2; exact E2|lia].
    + intros H. destruct (proj1 (HB 0%nat ltac:(lia)) (H 0%nat ltac:(lia))) as (b0 & E0).
      destruct (proj1 (HB 1%nat ltac:(lia)) (H 1%nat ltac:(lia))) as (b1 & E1).
      destruct (proj1 (HB 2%nat ltac:(lia)) (H 2%nat ltac:(lia))) as (b2 & E2). eapply HO; eassumption.
  - intros H. destruct (bounds s' 0 anchor rest) as [b0|] eqn:E0; [|rewrite HX; cbn [bind]; rewrite (HE 0%nat _ E0); reflexivity].
    destruct (bounds s' 1 anchor rest) as [b1|] eqn:E1; [|rewrite HX; cbn [bind]; rewrite (HE 1%nat _ E1); reflexivity].
    destruct (bounds s' 2 anchor rest) as [b2|] eqn:E2; [|rewrite HX; cbn [bind]; rewrite (HE 2%nat _ E2); reflexivity].
    exfalso. destruct (HO b0 b1 b2 eq_refl eq_refl eq_refl) as (r & E). exact (H r E).
  - intros s'' b' l' E.
    apply extract_inv in E as (anchor' & rest' & lx & hx & ly & hy & lz & hz & HR' & E1 & E2 & E3 & -> & _).
    rewrite HR in HR'. injection HR' as <- <- <-. split; [reflexivity|].
    assert (Q : forall x y lo hi : R, lo = Rmin x y -> hi = Rmax x y -> hi - lo = Rabs (y - x)).
    { intros x y lo hi -> ->. unfold Rmin, Rmax, Rabs. destruct (Rle_dec x y), (Rcase_abs (y - x)); lra. }
    intros c Hc.
    apply bounds_inv in E1 as (m1 & M1 & A1 & B1). apply bounds_inv in E2 as (m2 & M2 & A2 & B2). apply bounds_inv in E3 as (m3 & M3 & A3 & B3).
    destruct c as [|[|[|c]]]; [..|lia].
    + specialize (HN 0%nat Hc). rewrite M1 in HN. exists m1. split; [apply HN|]. split; [apply HN|]. eapply Q; eassumption.
    + specialize (HN 1%nat Hc). rewrite M2 in HN. exists m2. split; [apply HN|]. split; [apply HN|]. eapply Q; eassumption.
    + specialize (HN 2%nat Hc). rewrite M3 in HN. exists m3. split; [apply HN|]. split; [apply HN|]. eapply Q; eassumption.
Qed.
Print Assumptions C69_edges.

(** If the first atom is the only one of its type in the cell, the sides are
    parallel to the axes exactly and enough cells were repeated, then the box
    with its atoms describes the same infinite crystal. *)
Theorem C69_same_crystal :
  forall inv raw (s s' : sys Rnum) rx ry rz anchor l b' l',
  get_atoms s = Ok (anchor :: l) -> volume_of (box_get s) <> 0 ->
  (forall a, In a l -> a_type a <> a_type anchor) -> axes_exact (box_get s) rx ry rz ->
  extract_cubic_box inv raw s (rx, ry, rz) = Ok (s', (b', l')) ->
  covered (box_get s) (anchor :: l) rx ry rz (a_pos anchor) (mkV (N := Rnum) (vx (r0 b')) (vy (r1 b')) (vz (r2 b'))) ->
  pos3 (mkV (N := Rnum) (vx (r0 b')) (vy (r1 b')) (vz (r2 b'))) /\
  exists o, same_crystal (box_get s) (anchor :: l) o b' l'.
Proof.
  intros inv raw s s' rx ry rz anchor l b' l' HG HV HU HA E HC.
  apply extract_inv in E as (anchor' & rest & lx & hx & ly & hy & lz & hz & HR & E1 & E2 & E3 & -> & HL).
  destruct (repeated_atoms _ _ _ _ _ _ _ _ _ HG HR) as (R1 & R2 & new & EN & _).
  assert (anchor' = anchor) by (injection EN; auto). subst anchor'.
  cbn [vx vy vz r0 r1 r2 diag] in HC |- *.
  destruct (edge_vector _ _ _ _ _ _ _ _ _ _ 0%nat _ _ HG HV HU HA ltac:(lia) HR E1) as (V1 & B1).
  destruct (edge_vector _ _ _ _ _ _ _ _ _ _ 1%nat _ _ HG HV HU HA ltac:(lia) HR E2) as (V2 & B2).
  destruct (edge_vector _ _ _ _ _ _ _ _ _ _ 2%nat _ _ HG HV HU HA ltac:(lia) HR E3) as (V3 & B3).
  cbn [comp nth] in B1, B2, B3.
  split; [split; [exact (proj1 V1)|split; [exact (proj1 V2)|exact (proj1 V3)]]|].
  exists (mkV (N := Rnum) lx ly lz).
  apply (axis_vectors_same (box_get s) (anchor :: l) l' (mkV (N := Rnum) lx ly lz) (mkV (N := Rnum) (hx - lx) (hy - ly) (hz - lz)) V1 V2 V3).
  - intros a' Ha. apply HL in Ha as (a & Ha & _ & _ & _ & ->). destruct (R1 a Ha) as (a0 & i & j & k & Ha0 & _ & HT & HD).
    exists a0, i, j, k. split; [exact Ha0|]. split; [symmetry; exact HT|]. destruct HD as (D1 & D2 & D3).
    assert (Q : forall x y z : R, x = z -> x - y + y = z) by (intros; lra).
    split; [exact (Q _ _ _ D1)|]. split; [exact (Q _ _ _ D2)|exact (Q _ _ _ D3)].
  - intros p t (a0 & i & j & k & Ha & Ht & C1 & C2 & C3) W1 W2 W3. cbn [vx vy vz] in W1, W2, W3.
    assert (Q : forall x lo hi q : R, lo <= q <= hi -> lo <= x < lo + (hi - lo) -> Rabs (x - q) <= hi - lo).
    { intros x lo hi q Hq Hx. apply Rabs_le. lra. }
    destruct (HC a0 i j k Ha) as (Wi & Wj & Wk).
    + cbv zeta in C1. rewrite <- C1. exact (Q _ _ _ _ B1 W1).
    + cbv zeta in C2. rewrite <- C2. exact (Q _ _ _ _ B2 W2).
    + cbv zeta in C3. rewrite <- C3. exact (Q _ _ _ _ B3 W3).
    + destruct (R2 a0 i j k Ha Wi Wj Wk) as (a & Hin & HT & D1 & D2 & D3).
      exists (a <| a_pos := mkV (N := Rnum) (vx (a_pos a) - lx) (vy (a_pos a) - ly) (vz (a_pos a) - lz) |>).
      assert (P1 : vx (a_pos a) = vx p) by (etransitivity; [exact D1|symmetry; exact C1]).
      assert (P2 : vy (a_pos a) = vy p) by (etransitivity; [exact D2|symmetry; exact C2]).
      assert (P3 : vz (a_pos a) = vz p) by (etransitivity; [exact D3|symmetry; exact C3]).
      assert (G : forall x lo hi : R, lo <= x < lo + (hi - lo) -> lo <= x < hi) by (intros; lra).
      split; [apply HL; exists a; split; [exact Hin|]; rewrite P1, P2, P3; split; [exact (G _ _ _ W1)|]; split; [exact (G _ _ _ W2)|]; split; [exact (G _ _ _ W3)|reflexivity]|].
      split; [etransitivity; [exact HT|exact Ht]|]. cbn [vx vy vz a_pos set]. 
      assert (Q' : forall x y z : R, x = z -> z = x - y + y) by (intros; lra).
      split; [exact (Q' _ _ _ P1)|]. split; [exact (Q' _ _ _ P2)|exact (Q' _ _ _ P3)].
Qed.
Print Assumptions C69_same_crystal.

(** ** Orthogonal boxes *)
Lemma scale_diag (x y z : R) rx ry rz : scale_box (diag (N := Rnum) x y z) (rx, ry, rz) =
  diag (N := Rnum) (IZR (2 * rx + 1) * x) (IZR (2 * ry + 1) * y) (IZR (2 * rz + 1) * z).
Proof. unfold scale_box, vscale, diag; cbn [vx vy vz r0 r1 r2]; rnum. rewrite !Rmult_0_r. reflexivity. Qed.

Lemma diag_repeat inv raw (s : sys Rnum) x y z l :
  s_tri s = false -> box_get s = diag (N := Rnum) x y z -> 0 < x -> 0 < y -> 0 < z -> get_atoms s = Ok l ->
  exists s' ratoms, repeat_cell inv raw s (3, 3, 3)%Z None false true = Ok (s', ratoms) /\ ortho s' /\
    s_len s' = mkV (N := Rnum) (7 * x) (7 * y) (7 * z) /\ s_atoms s' = s_atoms s.
Proof.
  intros HT HB Hx Hy Hz HG. unfold repeat_cell.
  change (get_atoms (s <| s_actual := Some (box_get s) |>)) with (get_atoms s). rewrite HG. cbn [bind].
  rewrite HB, scale_diag, box_set_diag. cbn [bind]. change (IZR (2 * 3 + 1)) with 7. do 2 eexists. split; [reflexivity|].
  split; [apply sbox_diag_ortho; [exact HT|lra..]|]. split; [|reflexivity].
  change (sbox_len (diag (N := Rnum) (7 * x) (7 * y) (7 * z)) = mkV (N := Rnum) (7 * x) (7 * y) (7 * z)). apply diag_len; lra.
Qed.

Lemma wrap1_small (L d : R) : 0 < L -> Rabs d <= L / 2 -> wrap1 (N := Rnum) L d = d.
Proof.
  intros HL Hd. assert (- (L / 2) <= d <= L / 2) by (unfold Rabs in Hd; destruct (Rcase_abs d); lra).
  unfold wrap1; rnum. replace (Rltb (L / 2) d) with false by (symmetry; apply Rltb_false; lra).
  replace (Rltb d (- L / 2)) with false by (symmetry; apply Rltb_false; lra). reflexivity.
Qed.
Lemma distance_on_axis (s : sys Rnum) (p q : v3 Rnum) c : ortho s -> (c < 3)%nat ->
  (forall c', (c' < 3)%nat -> c' <> c -> comp c' q = comp c' p) -> Rabs (comp c q - comp c p) <= comp c (s_len s) / 2 ->
  (abs_distance s p q : R) = Rabs (comp c q - comp c p).
Proof.
  intros (HT & P0 & P1 & P2) Hc HE HR. unfold abs_distance, pbc_diff. rewrite HT. unfold norm, wrap, vsub; cbn [vx vy vz]; rnum.
  assert (Z : forall L : R, 0 < L -> wrap1 (N := Rnum) L 0 = 0) by (intros L HL; apply wrap1_small; [exact HL|rewrite Rabs_R0; lra]).
  assert (S : forall u : R, sqrt (u * u) = Rabs u) by (intros; apply sqrt_Rsqr_abs).
  destruct c as [|[|[|c]]]; [..|lia]; cbn [comp nth] in HR |- *.
  - pose proof (HE 1%nat ltac:(lia) ltac:(lia)) as Q1. pose proof (HE 2%nat ltac:(lia) ltac:(lia)) as Q2. cbn [comp nth] in Q1, Q2.
    rewrite Q1, Q2, (Rminus_diag_eq (vy p) (vy p) eq_refl), (Rminus_diag_eq (vz p) (vz p) eq_refl). rewrite !Z by assumption.
    rewrite (wrap1_small (vx (s_len s))) by (try assumption; rewrite Rabs_minus_sym; assumption).
    rewrite Rmult_0_l, !Rplus_0_r, S. apply Rabs_minus_sym.
  - pose proof (HE 0%nat ltac:(lia) ltac:(lia)) as Q1. pose proof (HE 2%nat ltac:(lia) ltac:(lia)) as Q2. cbn [comp nth] in Q1, Q2.
    rewrite Q1, Q2, (Rminus_diag_eq (vx p) (vx p) eq_refl), (Rminus_diag_eq (vz p) (vz p) eq_refl). rewrite !Z by assumption.
    rewrite (wrap1_small (vy (s_len s))) by (try assumption; rewrite Rabs_minus_sym; assumption).
    rewrite Rmult_0_l, Rplus_0_l, !Rplus_0_r, S. apply Rabs_minus_sym.
  - pose proof (HE 0%nat ltac:(lia) ltac:(lia)) as Q1. pose proof (HE 1%nat ltac:(lia) ltac:(lia)) as Q2. cbn [comp nth] in Q1, Q2.
    rewrite Q1, Q2, (Rminus_diag_eq (vx p) (vx p) eq_refl), (Rminus_diag_eq (vy p) (vy p) eq_refl). rewrite !Z by assumption.
    rewrite (wrap1_small (vz (s_len s))) by (try assumption; rewrite Rabs_minus_sym; assumption).
    rewrite Rmult_0_l, !Rplus_0_l, S. apply Rabs_minus_sym.
Qed.

(** In an orthogonal box with sides below 10000 the extraction succeeds. *)
Lemma diag_extract inv raw (s : sys Rnum) x y z anchor l :
  s_tri s = false -> box_get s = diag (N := Rnum) x y z -> 0 < x < 10000 -> 0 < y < 10000 -> 0 < z < 10000 -> get_atoms s = Ok (anchor :: l) ->
  exists s' rest r, repeat_cell inv raw s (3, 3, 3)%Z None false true = Ok (s', anchor :: rest) /\
    ortho s' /\ s_len s' = mkV (N := Rnum) (7 * x) (7 * y) (7 * z) /\ s_atoms s' = s_atoms s /\
    extract_cubic_box inv raw s (3, 3, 3)%Z = Ok (s', r).
Proof.
  intros HT HB Hx Hy Hz HG.
  destruct (diag_repeat inv raw s x y z _ HT HB (proj1 Hx) (proj1 Hy) (proj1 Hz) HG) as (s' & ratoms & HR & HO & HS & HA).
  destruct (repeated_atoms _ _ _ _ _ _ _ _ _ HG HR) as (_ & R2 & new & EN & HN). rewrite EN in HR. cbn [app] in HR.
  set (rest := (l ++ new)%list) in *.
  destruct (C69_edges inv raw s s' (3, 3, 3)%Z anchor rest HR) as (X1 & _ & X3).
  assert (K : exists r, extract_cubic_box inv raw s (3, 3, 3)%Z = Ok r).
  { apply X1. intros c Hc.
    set (sh := fun c' => if Nat.eqb c' c then 1%Z else 0%Z).
    destruct (R2 anchor (sh 0%nat) (sh 1%nat) (sh 2%nat) (or_introl eq_refl)) as (m & Hm & HTy & HD);
      [unfold within, sh; destruct (Nat.eqb _ _); lia..|].
    assert (HC : forall c', (c' < 3)%nat -> comp c' (a_pos m) = comp c' (a_pos anchor) + (if Nat.eqb c' c then comp c (mkV (N := Rnum) x y z) else 0)).
    { destruct HD as (D1 & D2 & D3). rewrite HB in D1, D2, D3. unfold lin, diag, sh in D1, D2, D3; cbn [vx vy vz r0 r1 r2] in D1, D2, D3.
      revert D1 D2 D3. rnum. intros D1 D2 D3.
      intros c' Hc'. destruct c as [|[|[|c]]]; [..|lia]; destruct c' as [|[|[|c']]]; try lia; cbn [comp nth Nat.eqb] in D1, D2, D3 |- *;
        cbn [vx vy vz]; first [rewrite D1; ring|rewrite D2; ring|rewrite D3; ring]. }
    assert (HP : 0 < comp c (mkV (N := Rnum) x y z) < 10000) by (destruct c as [|[|[|c]]]; [exact Hx|exact Hy|exact Hz|lia]).
    set (k := comp c (mkV (N := Rnum) x y z)) in *.
    assert (Dm : (abs_distance s' (a_pos anchor) (a_pos m) : R) = k).
    { rewrite (distance_on_axis s' (a_pos anchor) (a_pos m) c HO Hc).
      - rewrite (HC c Hc), Nat.eqb_refl. replace (comp c (a_pos anchor) + k - comp c (a_pos anchor)) with k by ring. apply Rabs_pos_eq. lra.
      - intros c' Hc' Hn. rewrite (HC c' Hc'). replace (Nat.eqb c' c) with false by (symmetry; apply Nat.eqb_neq; exact Hn). ring.
      - rewrite (HC c Hc), Nat.eqb_refl. replace (comp c (a_pos anchor) + k - comp c (a_pos anchor)) with k by ring. rewrite Rabs_pos_eq by lra.
        rewrite HS. replace (comp c (mkV (N := Rnum) (7 * x) (7 * y) (7 * z))) with (7 * k); [lra|]. destruct c as [|[|[|c]]]; [reflexivity..|lia]. }
    exists m. split; [|split; [|split; [exact HTy|exact (eq_ind_r (fun v => v < 10000) (proj2 HP) Dm)]]].
    - rewrite EN in Hm. destruct Hm as [Hm|Hm]; [|exact Hm]. exfalso. subst m. specialize (HC c Hc). rewrite Nat.eqb_refl in HC. lra.
    - intros c' Hc' Hn. rewrite (HC c' Hc'). replace (Nat.eqb c' c) with false by (symmetry; apply Nat.eqb_neq; exact Hn).
      replace (comp c' (a_pos anchor) + 0 - comp c' (a_pos anchor)) with 0 by ring. rewrite Rabs_R0. lra. }
  destruct K as ([s'' [b' l']] & E). destruct (X3 s'' b' l' E) as (-> & _).
  exists s', rest, (b', l'). auto.
Qed.

(** Atoms of two types in a cubic box: the hypotheses of C69_same_crystal. *)
Definition cs_l : list (atom Rnum) := [at_pos (zv Rnum 0 0 0) <| a_type := 1%Z |>; at_pos (zv Rnum 1 1 1) <| a_type := 2%Z |>].
Definition ex_inv (m : m3 Rnum) : option (m3 Rnum) := None.
Definition ex_raw (_ : Z) : atom Rnum := raw_atom Rnum.
Definition cube_sys (a : R) : sys Rnum := sbox (sys_ctor (raw_sys Rnum)) (diag (N := Rnum) a a a).
Lemma cube_reached a l : 0 < a -> l <> [] -> all_real l ->
  exists s, atoms_set ex_inv ex_raw (cube_sys a) l = Ok s /\ get_atoms s = Ok l /\ box_get s = diag (N := Rnum) a a a /\ s_tri s = false.
Proof.
  intros Ha Hl Hr.
  assert (E : exists s, atoms_set ex_inv ex_raw (cube_sys a) l = Ok s /\ s_tri s = false).
  { unfold atoms_set. destruct (_ <? 200)%Z; [|eexists; split; [reflexivity|reflexivity]].
    replace (Z.eqb (Z.of_nat (length l)) 0) with false by (symmetry; apply Z.eqb_neq; destruct l; [congruence|cbn [length]; lia]).
    set (r := small_reps _). clearbody r.
    replace (neqb _ _) with false.
    2: { symmetry. apply Reqb_false. unfold box_sum, box_get. cbn [s_actual cube_sys sbox set sys_ctor].
         change (a + 0 + 0 + 0 + a + 0 + 0 + 0 + a <> 0). lra. }
    unfold repeat_cell. cbn [bind]. change (box_get (cube_sys a)) with (diag (N := Rnum) a a a). rewrite scale_diag, box_set_diag. cbn [bind].
    eexists. split; [reflexivity|reflexivity]. }
  destruct E as (s & E & T). exists s. split; [exact E|]. destruct (atoms_set_spec Hr E) as (g & _ & G & _ & _ & _ & B & _). auto.
Qed.
Example C69_hyp : exists s s' b' l',
  atoms_set ex_inv ex_raw (cube_sys 2) cs_l = Ok s /\ get_atoms s = Ok cs_l /\ volume_of (box_get s) <> 0 /\
  axes_exact (box_get s) 3 3 3 /\ extract_cubic_box ex_inv ex_raw s (3, 3, 3)%Z = Ok (s', (b', l')) /\
  covered (box_get s) cs_l 3 3 3 (a_pos (hd (raw_atom Rnum) cs_l)) (mkV (N := Rnum) (vx (r0 b')) (vy (r1 b')) (vz (r2 b'))).
Proof.
  destruct (cube_reached 2 cs_l) as (s & E & G & B & T); [lra|discriminate|intros a [<-|[<-|[]]]; reflexivity|].
  destruct (diag_extract ex_inv ex_raw s 2 2 2 _ _ T B ltac:(lra) ltac:(lra) ltac:(lra) G) as (s' & rest & [b' l'] & HR & _ & _ & _ & EX).
  exists s, s', b', l'. split; [exact E|]. split; [exact G|]. rewrite B.
  assert (LIN : forall i j k, lin (diag (N := Rnum) 2 2 2) (IZR i) (IZR j) (IZR k) = mkV (N := Rnum) (IZR (2 * i)) (IZR (2 * j)) (IZR (2 * k))).
  { intros. unfold lin, diag; cbn [vx vy vz r0 r1 r2]; rnum. rewrite !mult_IZR. f_equal; ring. }
  split; [unfold volume_of, diag; cbn; lra|]. split.
  { intros i j k _ _ _. rewrite LIN. cbn [vx vy vz].
    assert (Q : forall n : Z, Rabs (IZR (2 * n)) < 1 / 100000 -> IZR (2 * n) = 0).
    { intros n Hn. rewrite <- abs_IZR in Hn. assert (H : IZR (Z.abs (2 * n)) < 1) by lra. apply lt_IZR in H. f_equal. lia. }
    split; [|split]; intros Q1 Q2; split; apply Q; assumption. }
  split; [exact EX|].
  destruct (C69_edges _ _ _ _ _ _ _ HR) as (_ & _ & X3). destruct (X3 _ _ _ EX) as (_ & XC).
  assert (HL : forall c, (c < 3)%nat -> comp c (nth c [r0 b'; r1 b'; r2 b'] (r2 b')) <= 6).
  { intros c Hc. destruct (XC c Hc) as (m & (Hm & _ & HTy & _) & _ & ->).
    destruct (repeated_atoms _ _ _ _ _ _ _ _ _ G HR) as (R1 & _).
    destruct (R1 m (or_intror Hm)) as (a0 & i & j & k & Ha0 & HW & HT & D1 & D2 & D3).
    rewrite B, LIN in D1, D2, D3. cbn [vx vy vz] in D1, D2, D3.
    assert (HW' : within 3 i /\ within 3 j /\ within 3 k) by (unfold within in *; lia). destruct HW' as (W1 & W2 & W3). unfold within in *.
    destruct Ha0 as [<-|[<-|[]]]; [|exfalso; rewrite HTy in HT; discriminate].
    assert (Q : forall n : Z, (-3 <= n <= 3)%Z -> Rabs (0 + IZR (2 * n) - 0) <= 6).
    { intros n Hn. replace (0 + IZR (2 * n) - 0) with (IZR (2 * n)) by ring. rewrite <- abs_IZR. apply IZR_le. lia. }
    destruct c as [|[|[|c]]]; [..|lia]; cbn [comp nth]; [rewrite D1; exact (Q i W1)|rewrite D2; exact (Q j W2)|rewrite D3; exact (Q k W3)]. }
  pose proof (HL 0%nat ltac:(lia)) as L0. pose proof (HL 1%nat ltac:(lia)) as L1. pose proof (HL 2%nat ltac:(lia)) as L2. cbn [comp nth] in L0, L1, L2.
  intros a i j k Ha. rewrite LIN. cbn [vx vy vz]. intros H1 H2 H3.
  assert (Q : forall (t n : Z) (L : R), (t = 0 \/ t = 1)%Z -> L <= 6 -> Rabs (IZR t + IZR (2 * n) - 0) <= L -> within 3 n).
  { intros t n L Ht HL6 H. rewrite Rminus_0_r, <- plus_IZR, <- abs_IZR in H. assert (H' : IZR (Z.abs (t + 2 * n)) <= 6) by lra. apply le_IZR in H'. unfold within. lia. }
  destruct Ha as [<-|[<-|[]]].
  - split; [|split]; [apply (Q 0%Z i _ ltac:(lia) L0 H1)|apply (Q 0%Z j _ ltac:(lia) L1 H2)|apply (Q 0%Z k _ ltac:(lia) L2 H3)].
  - split; [|split]; [apply (Q 1%Z i _ ltac:(lia) L0 H1)|apply (Q 1%Z j _ ltac:(lia) L1 H2)|apply (Q 1%Z k _ ltac:(lia) L2 H3)].
Qed.

(** With two atoms of one type in the cell the side need not be a period: the
    atoms at 0 and 1 on the x axis of a cubic cell of side 3. *)
Definition two_l : list (atom Rnum) := [at_pos (zv Rnum 0 0 0); at_pos (zv Rnum 1 0 0)].
Theorem C69_same_crystal_refuted :
  exists s s' l b' l',
    atoms_set ex_inv ex_raw (cube_sys 3) l = Ok s /\ get_atoms s = Ok l /\ box_get s = diag (N := Rnum) 3 3 3 /\
    extract_cubic_box ex_inv ex_raw s (3, 3, 3)%Z = Ok (s', (b', l')) /\
    forall o, ~ same_crystal (box_get s) l o b' l'.
Proof.
  destruct (cube_reached 3 two_l) as (s & E & G & B & T); [lra|discriminate|intros a [<-|[<-|[]]]; reflexivity|].
  destruct (diag_extract ex_inv ex_raw s 3 3 3 _ _ T B ltac:(lra) ltac:(lra) ltac:(lra) G) as (s' & rest & [b' l'] & HR & HO & HS & _ & EX).
  exists s, s', two_l, b', l'. split; [exact E|]. split; [exact G|]. split; [exact B|]. split; [exact EX|].
  assert (LIN : forall i j k, lin (diag (N := Rnum) 3 3 3) (IZR i) (IZR j) (IZR k) = mkV (N := Rnum) (IZR (3 * i)) (IZR (3 * j)) (IZR (3 * k))).
  { intros. unfold lin, diag; cbn [vx vy vz r0 r1 r2]; rnum. rewrite !mult_IZR. f_equal; ring. }
  destruct (C69_edges _ _ _ _ _ _ _ HR) as (_ & _ & X3). destruct (X3 _ _ _ EX) as (_ & XC).
  destruct (repeated_atoms _ _ _ _ _ _ _ _ _ G HR) as (_ & _ & new & EN & HN). injection EN as ER.
  assert (L1 : vx (r0 b') = 1).
  { destruct (XC 0%nat ltac:(lia)) as (m & (Hm & HOn & HTy & _) & Hmin & HL). cbn [comp nth] in HL.
    assert (HB : dist_of (get_distance s' (at_pos (zv Rnum 0 0 0)) m false) <= 1).
    { assert (DB : dist_of (get_distance s' (at_pos (zv Rnum 0 0 0)) (at_pos (zv Rnum 1 0 0)) false) = 1).
      { change ((abs_distance s' (zv Rnum 0 0 0) (zv Rnum 1 0 0) : R) = 1). rewrite (distance_on_axis _ _ _ 0%nat HO ltac:(lia)).
        - unfold comp, zv; cbn [nth vx vy vz]; rnum. rewrite Rminus_0_r, Rabs_pos_eq; lra.
        - intros c' Hc' Hn. destruct c' as [|[|[|c']]]; [lia|reflexivity|reflexivity|lia].
        - rewrite HS. unfold comp, zv; cbn [nth vx vy vz]; rnum. rewrite Rminus_0_r, Rabs_pos_eq; lra. }
      rewrite <- DB. apply Hmin. split; [rewrite ER; left; reflexivity|]. split; [|split; [reflexivity|rewrite DB; lra]].
      intros c' Hc' Hn. destruct c' as [|[|[|c']]]; [lia|..|lia]; unfold comp, zv, at_pos; cbn; rewrite Rminus_0_r, Rabs_R0; lra. }
    rewrite ER in Hm. destruct Hm as [<-|Hm].
    { rewrite HL. unfold at_pos, zv; cbn. rewrite Rminus_0_r, Rabs_pos_eq; lra. }
    exfalso. destruct (HN m Hm) as (a0 & i & j & k & Ha0 & Wi & Wj & Wk & Hne & _ & D1 & D2 & D3).
    rewrite B, LIN in D1, D2, D3. cbn [vx vy vz] in D1, D2, D3.
    assert (HX : exists t : Z, (t = 0 \/ t = 1)%Z /\ vx (a_pos a0) = IZR t /\ vy (a_pos a0) = 0 /\ vz (a_pos a0) = 0).
    { destruct Ha0 as [<-|[<-|[]]]; [exists 0%Z|exists 1%Z]; (split; [lia|]); repeat split; reflexivity. }
    destruct HX as (t & Ht & X1 & X2 & X4). rewrite X1 in D1. rewrite X2 in D2. rewrite X4 in D3.
    assert (Q : forall n : Z, Rabs (0 + IZR (3 * n) - 0) < 1 / 100000 -> n = 0%Z).
    { intros n Hn. replace (0 + IZR (3 * n) - 0) with (IZR (3 * n)) in Hn by ring. rewrite <- abs_IZR in Hn. assert (H : IZR (Z.abs (3 * n)) < 1) by lra. apply lt_IZR in H. lia. }
    assert (Hj : j = 0%Z). { apply Q. rewrite <- D2. apply (HOn 1%nat); lia. }
    assert (Hk : k = 0%Z). { apply Q. rewrite <- D3. apply (HOn 2%nat); lia. }
    subst j k. rewrite <- plus_IZR in D1. unfold within in *.
    assert (DM : dist_of (get_distance s' (at_pos (zv Rnum 0 0 0)) m false) = IZR (Z.abs (t + 3 * i))).
    { change ((abs_distance s' (zv Rnum 0 0 0) (a_pos m) : R) = IZR (Z.abs (t + 3 * i))). rewrite abs_IZR. rewrite (distance_on_axis _ _ _ 0%nat HO ltac:(lia)).
      - cbn [comp nth]. rewrite D1. unfold zv; cbn [vx]; rnum. rewrite Rminus_0_r. reflexivity.
      - intros c' Hc' Hn. destruct c' as [|[|[|c']]]; [lia|..|lia]; cbn [comp nth]; [rewrite D2|rewrite D3]; unfold zv; cbn; ring.
      - rewrite HS. cbn [comp nth vx]. rewrite D1. unfold zv; cbn [vx]; rnum. rewrite Rminus_0_r, <- abs_IZR.
        assert (H : IZR (Z.abs (t + 3 * i)) <= 10) by (apply IZR_le; lia). lra. }
    rewrite DM in HB. apply le_IZR in HB. assert (i = 0%Z) by lia. subst i. apply Hne. reflexivity. }
  intros o HS'. destruct (C69_atoms_in_box _ _ _ _ _ _ _ EX) as (L & EB & _). rewrite EB in L1, HS'. cbn [diag r0 vx] in L1. rewrite L1 in HS'. rewrite B in HS'.
  assert (H0 : in_crystal (diag (N := Rnum) 3 3 3) two_l (zv Rnum 0 0 0) 0).
  { exists (at_pos (zv Rnum 0 0 0)), 0%Z, 0%Z, 0%Z. split; [left; reflexivity|]. split; [reflexivity|]. cbv zeta. rewrite LIN. unfold at_pos, zv; cbn. repeat split; ring. }
  apply HS' in H0 as (a' & i & j & k & Ha' & Ht & C1 & C2 & C3).
  assert (H2 : in_crystal (diag (N := Rnum) 3 3 3) two_l (zv Rnum 2 0 0) 0).
  { apply HS'. exists a', (i + 2)%Z, j, k. split; [exact Ha'|]. split; [exact Ht|]. rewrite plus_IZR.
    unfold lin, diag, zv in C1, C2, C3 |- *; cbn [vx vy vz r0 r1 r2] in C1, C2, C3 |- *. split; [|split].
    - revert C1. rnum. generalize (vx (a_pos a')) (vx o). cbn [carrier Rnum]. intros u w. lra.
    - revert C2. rnum. generalize (vy (a_pos a')) (vy o) (vy L). cbn [carrier Rnum]. intros u w y. lra.
    - revert C3. rnum. generalize (vz (a_pos a')) (vz o) (vz L). cbn [carrier Rnum]. intros u w y. lra. }
  destruct H2 as (a & i2 & j2 & k2 & Ha & _ & C1' & _). cbv zeta in C1'. rewrite LIN in C1'. cbn [vx] in C1'.
  destruct Ha as [<-|[<-|[]]].
  - assert (X : IZR 2 = IZR (3 * i2)) by (transitivity (IZR 0 + IZR (3 * i2)); [exact C1'|ring]). apply eq_IZR in X. lia.
  - assert (X : IZR 2 = IZR (1 + 3 * i2)) by (rewrite plus_IZR; exact C1'). apply eq_IZR in X. lia.
Qed.
Print Assumptions C69_same_crystal_refuted.

(** The call is not free of side effects: it leaves the repeated box in the
    system while the stored atoms stay those of one cell. *)
Theorem C69_box_left_scaled :
  forall inv raw (s s' : sys Rnum) reps r, extract_cubic_box inv raw s reps = Ok (s', r) ->
  s_box s' = scale_box (box_get s) reps /\ s_atoms s' = s_atoms s /\ box_get s' = box_get s.
Proof.
  intros inv raw s s' [[rx ry] rz] [b' l'] E. apply extract_inv in E as (a & rest & _ & _ & _ & _ & _ & _ & HR & _).
  apply repeat_spec in HR as (l & new & _ & _ & _ & _ & (HB & _) & HG & HA). auto.
Qed.
Print Assumptions C69_box_left_scaled.

Definition wide_l : list (atom Rnum) := at_pos (zv Rnum 0 0 0) :: map (fun k => at_pos (mkV (N := Rnum) 9 (INR k / 199) 0)) (seq 0 199).
Theorem C69_system_unchanged_refuted :
  exists s s' r a b,
    atoms_set ex_inv ex_raw (cube_sys 10) wide_l = Ok s /\ get_atoms s = Ok wide_l /\ In a wide_l /\ In b wide_l /\
    extract_cubic_box ex_inv ex_raw s (3, 3, 3)%Z = Ok (s', r) /\ get_atoms s' = Ok wide_l /\
    dist_of (get_distance s a b false) = 1 /\ dist_of (get_distance s' a b false) = 9.
Proof.
  assert (Hr : all_real wide_l) by (intros a [<-|Ha]; [reflexivity|apply in_map_iff in Ha as (k & <- & _); reflexivity]).
  assert (Hn : length wide_l = 200%nat) by (unfold wide_l; cbn [length]; rewrite map_length, seq_length; reflexivity).
  destruct (cube_reached 10 wide_l) as (s & E & G & B & T); [lra|discriminate|exact Hr|].
  destruct (diag_extract ex_inv ex_raw s 10 10 10 _ _ T B ltac:(lra) ltac:(lra) ltac:(lra) G) as (s' & rest & r & HR & HO & HS & HA & EX).
  exists s, s', r, (at_pos (zv Rnum 0 0 0)), (at_pos (mkV (N := Rnum) 9 (INR 0 / 199) 0)).
  split; [exact E|]. split; [exact G|]. split; [left; reflexivity|]. split; [right; apply in_map_iff; exists 0%nat; split; [reflexivity|apply in_seq; lia]|].
  split; [exact EX|].
  assert (ES : s = set_atoms (cube_sys 10) wide_l).
  { unfold atoms_set in E. rewrite Hn in E. change (Z.of_nat 200 <? 200)%Z with false in E. injection E as <-. reflexivity. }
  assert (HSr : s_real s' = s_real s).
  { unfold repeat_cell in HR. change (get_atoms (s <| s_actual := Some (box_get s) |>)) with (get_atoms s) in HR. rewrite G in HR. cbn [bind] in HR.
    rewrite B, scale_diag, box_set_diag in HR. cbn [bind] in HR. apply (f_equal (fun r => match r with Ok (x, _) => s_real x | Err _ => s_real s' end)) in HR. symmetry. exact HR. }
  split; [unfold get_atoms in G |- *; rewrite HSr, HA; exact G|].
  assert (N9 : INR 0 / 199 = 0) by (cbn [INR]; lra).
  split.
  - change ((abs_distance s (zv Rnum 0 0 0) (mkV (N := Rnum) 9 (INR 0 / 199) 0) : R) = 1). rewrite N9.
    assert (LS : s_len s = mkV (N := Rnum) 10 10 10). { rewrite ES. change (sbox_len (diag (N := Rnum) 10 10 10) = mkV (N := Rnum) 10 10 10). apply diag_len; lra. }
    unfold abs_distance, pbc_diff. rewrite T, LS. unfold norm, wrap, vsub, zv; cbn [vx vy vz]; rnum.
    assert (W9 : wrap1 (N := Rnum) 10 (0 - 9) = 1).
    { unfold wrap1; rnum. replace (Rltb (10 / 2) (0 - 9)) with false by (symmetry; apply Rltb_false; lra).
      replace (Rltb (0 - 9) (- (10) / 2)) with true by (symmetry; apply Rltb_true; lra). ring. }
    rewrite W9, !Rminus_0_r, (wrap1_small 10 0) by (try rewrite Rabs_R0; lra).
    replace (1 * 1 + 0 * 0 + 0 * 0) with 1 by ring. apply sqrt_1.
  - change ((abs_distance s' (zv Rnum 0 0 0) (mkV (N := Rnum) 9 (INR 0 / 199) 0) : R) = 9). rewrite N9.
    rewrite (distance_on_axis _ _ _ 0%nat HO ltac:(lia)).
    + unfold comp, zv; cbn [nth vx vy vz]; rnum. rewrite Rminus_0_r, Rabs_pos_eq; lra.
    + intros c' Hc' Hn'. destruct c' as [|[|[|c']]]; [lia|reflexivity|reflexivity|lia].
    + rewrite HS. unfold comp, zv; cbn [nth vx vy vz]; rnum. rewrite Rminus_0_r, Rabs_pos_eq; lra.
Qed.
Print Assumptions C69_system_unchanged_refuted.

(** In doubles an atom can end on the upper face of the returned box. *)
Definition pz (x y z : Z) : atom P64 := at_pos (zv P64 x y z).
Definition edge_l : list (atom P64) :=
  [pz (-1) (-1) (-1); pz 1 (-1) (-1); pz (-1) 1 (-1); pz (-1) (-1) 1;
   at_pos (mkV (N := P64) (nsub (n := P64) (nofZ 1) (nlit 1 9007199254740992)) (nofZ 0) (nofZ 0))].
Definition edge_run : res (sys P64 * (m3 P64 * list (atom P64))) :=
  s <- box_set (fun _ => None) (sys_ctor (raw_sys P64)) (diag (N := P64) (nofZ 100) (nofZ 100) (nofZ 100)) ;;
  s <- atoms_set (fun _ => None) (fun _ => raw_atom P64) s edge_l ;;
  extract_cubic_box (fun _ => None) (fun _ => raw_atom P64) s (1, 1, 1)%Z.
Definition on_face (b : m3 P64) (l : list (atom P64)) : bool :=
  existsb (fun a => negb (nltb (n := P64) (vx (a_pos a)) (vx (r0 b)))) l.
Lemma edge_run_face : match edge_run with Ok (_, (b, l)) => on_face b l | Err _ => false end = true.
Proof. vm_compute. reflexivity. Qed.
Theorem C69_double_face_refuted :
  exists inv raw (s0 s s' : sys P64) l reps b' l' a,
    box_set inv (sys_ctor (raw_sys P64)) (diag (N := P64) (nofZ 100) (nofZ 100) (nofZ 100)) = Ok s0 /\ atoms_set inv raw s0 l = Ok s /\
    extract_cubic_box inv raw s reps = Ok (s', (b', l')) /\ In a l' /\ nltb (n := P64) (vx (a_pos a)) (vx (r0 b')) = false.
Proof.
  pose proof edge_run_face as F. unfold edge_run in F.
  destruct (box_set (fun _ => None) (sys_ctor (raw_sys P64)) (diag (N := P64) (nofZ 100) (nofZ 100) (nofZ 100))) as [s0|] eqn:E0; cbn [bind] in F; [|discriminate].
  destruct (atoms_set (fun _ => None) (fun _ => raw_atom P64) s0 edge_l) as [s|] eqn:E1; cbn [bind] in F; [|discriminate].
  destruct (extract_cubic_box (fun _ => None) (fun _ => raw_atom P64) s (1, 1, 1)%Z) as [[s' [b' l']]|] eqn:E2; [|discriminate].
  apply existsb_exists in F as (a & Ha & Hb). apply Bool.negb_true_iff in Hb.
  exists (fun _ => None), (fun _ => raw_atom P64), s0, s, s', edge_l, (1, 1, 1)%Z, b', l', a. auto.
Qed.
Print Assumptions C69_double_face_refuted.
