(** The cell lists visit every close pair exactly once (real arithmetic). *)
From Coq Require Import Reals ZArith Lra Lia Psatz Permutation.
From Verif Require Import Base Num NumR Types M_Geometry S_Geometry P_Geometry M_Container
  M_Neighbors P_Container S_Neighbors P_Neighbors.
Open Scope R_scope.

Lemma Int_part_bounds (x : R) : IZR (Int_part x) <= x < IZR (Int_part x) + 1.
Proof. destruct (base_Int_part x). lra. Qed.

Lemma Rtrunc_nonneg (x : R) : 0 <= x -> Rtrunc x = Int_part x /\ (0 <= Int_part x)%Z.
Proof.
  intros H. unfold Rtrunc. destruct (Rle_dec 0 x); [|lra]. split; auto.
  pose proof (Int_part_bounds x). apply Z.lt_succ_r. apply lt_IZR. rewrite succ_IZR. lra.
Qed.

Lemma Int_part_unique (x : R) (z : Z) : IZR z <= x < IZR z + 1 -> Int_part x = z.
Proof.
  intros [H1 H2]. pose proof (Int_part_bounds x) as [H3 H4].
  assert (A : (z < Int_part x + 1)%Z) by (apply lt_IZR; rewrite plus_IZR; simpl; lra).
  assert (B : (Int_part x < z + 1)%Z) by (apply lt_IZR; rewrite plus_IZR; simpl; lra). lia.
Qed.

(** ** One coordinate *)
Lemma div_range (a b c : R) : 0 < c -> a * c <= b -> a <= b / c.
Proof. intros Hc H. apply Rmult_le_reg_r with c; auto. unfold Rdiv. rewrite Rmult_assoc, Rinv_l; lra. Qed.
Lemma div_range_lt (a b c : R) : 0 < c -> b < a * c -> b / c < a.
Proof. intros Hc H. apply Rmult_lt_reg_r with c; auto. unfold Rdiv. rewrite Rmult_assoc, Rinv_l; lra. Qed.
Lemma div_range_le' (a b c : R) : 0 < c -> a <= b / c -> a * c <= b.
Proof.
  intros Hc H. apply Rmult_le_compat_r with (r := c) in H; [|lra].
  unfold Rdiv in H. rewrite Rmult_assoc, Rinv_l in H; lra.
Qed.
Lemma div_range_lt' (a b c : R) : 0 < c -> b / c < a -> b < a * c.
Proof.
  intros Hc H. apply Rmult_lt_compat_r with (r := c) in H; [|lra].
  unfold Rdiv in H. rewrite Rmult_assoc, Rinv_l in H; lra.
Qed.

Lemma ncells (L r : R) : 1 / 1000000 <= r -> 3 * r <= L ->
  (3 <= Rtrunc (L / r))%Z /\ IZR (Rtrunc (L / r)) * r <= L.
Proof.
  intros Hr HL. assert (H3 : 3 <= L / r) by (apply div_range; lra).
  destruct (Rtrunc_nonneg (L / r)) as [-> _]; [lra|].
  pose proof (Int_part_bounds (L / r)) as [H1 H2]. split.
  - assert (2 < Int_part (L / r))%Z; [|lia]. apply lt_IZR. simpl. lra.
  - apply div_range_le'; lra.
Qed.

(** The cell coordinate is that of a representative of [x] in [0,L). *)
Lemma cell_coord_spec (L x : R) (n : Z) :
  (3 <= n)%Z -> IZR n * (1 / 1000000) <= L -> coord_ok L x ->
  exists (k : Z) (y : R), y = x + IZR k * L /\ 0 <= y < L /\
    let lx := L / IZR n in
    let c := cell_coord (N := Rnum) L lx x in
    (0 <= c < n)%Z /\ IZR c * lx <= y < (IZR c + 1) * lx.
Proof.
  intros Hn HL [Hx Hsnap]. assert (Hn' : 3 <= IZR n) by (apply IZR_le in Hn; exact Hn).
  set (lx := L / IZR n). assert (Hlx : lx * IZR n = L) by (unfold lx; field; lra).
  assert (Hlx6 : 1 / 1000000 <= lx) by (apply div_range; lra).
  assert (Hlx0 : 0 < lx) by lra. assert (HL0 : 0 < L) by lra.
  (* the folded representative *)
  assert (Hy : exists (k : Z) y, y = x + IZR k * L /\ 0 <= y < L /\
    (let x' := if Rltb (Rabs (x - 0)) (1 / 1000000) then 0 else x in
     let x'' := if Rltb x' 0 then x' + L else if Rleb L x' then x' - L else x' in
     x'' = y \/ (x'' = 0 /\ 0 <= y < 1 / 1000000))).
  { cbv zeta. destruct (Rltb (Rabs (x - 0)) (1 / 1000000)) eqn:E.
    - apply Rltb_true in E. rewrite Rminus_0_r in E. apply Rabs_def2 in E.
      exists 0%Z, x. split; [simpl; lra|]. assert (0 <= x) by (apply Rnot_lt_le; intros F; apply Hsnap; lra).
      split; [lra|]. right.
      assert (E1 : Rltb 0 0 = false) by (apply Rltb_false; lra).
      assert (E2 : Rleb L 0 = false) by (apply Rleb_false; lra). rewrite E1, E2. lra.
    - destruct (Rltb x 0) eqn:E1.
      + apply Rltb_true in E1. exists 1%Z, (x + L). split; [simpl; lra|]. split; [lra|]. now left.
      + apply Rltb_false in E1. destruct (Rleb L x) eqn:E2.
        * apply Rleb_true in E2. exists (-1)%Z, (x - L). split; [simpl; lra|]. split; [lra|]. now left.
        * apply Rleb_false in E2. exists 0%Z, x. split; [simpl; lra|]. split; [lra|]. now left. }
  destruct Hy as (k & y & Ey & Hy & Hc). exists k, y. split; auto. split; auto. cbv zeta.
  unfold cell_coord. rnum. cbv zeta in Hc.
  set (x'' := if Rltb (if Rltb (Rabs (x - 0)) (1 / 1000000) then 0 else x) 0 then _ else _) in *.
  assert (H0 : 0 <= y / lx) by (apply div_range; lra).
  assert (E : Rtrunc (x'' / lx) = Int_part (y / lx)).
  { destruct Hc as [->|[-> H6]].
    - now apply Rtrunc_nonneg.
    - unfold Rdiv at 1. rewrite Rmult_0_l. destruct (Rtrunc_nonneg 0) as [-> _]; [lra|].
      rewrite (Int_part_unique 0 0) by (simpl; lra). symmetry. apply Int_part_unique. simpl.
      split; [lra|]. rewrite Rplus_0_l. apply div_range_lt; lra. }
  unfold Z.lt. fold (Z.lt). rewrite E.
  destruct (Rtrunc_nonneg (y / lx) H0) as [_ H1].
  pose proof (Int_part_bounds (y / lx)) as [H2 H3]. split.
  - split; auto. apply lt_IZR. apply Rle_lt_trans with (y / lx); auto. apply div_range_lt; lra.
  - split; [apply div_range_le'; lra|apply div_range_lt'; lra].
Qed.

Lemma close_cells (L lx : R) (n m c1 c2 : Z) (y1 y2 w : R) :
  (3 <= n)%Z -> lx * IZR n = L -> 0 < lx ->
  (0 <= c1 < n)%Z -> (0 <= c2 < n)%Z ->
  IZR c1 * lx <= y1 < (IZR c1 + 1) * lx -> IZR c2 * lx <= y2 < (IZR c2 + 1) * lx ->
  y2 + IZR m * L = y1 + w -> Rabs w < lx ->
  exists d, (-1 <= d <= 1)%Z /\ cell_periodic1 n (c1 + d) = c2.
Proof.
  intros Hn HL Hlx Hc1 Hc2 H1 H2 E Hw. apply Rabs_def2 in Hw.
  assert (Em : IZR m * L = IZR (m * n) * lx) by (rewrite mult_IZR, <- HL; ring).
  rewrite Em in E. set (c := (c2 + m * n)%Z).
  assert (Hc : IZR c = IZR c2 + IZR (m * n)) by (unfold c; apply plus_IZR).
  assert (A : IZR c * lx < (IZR c1 + 2) * lx) by (rewrite Hc; lra).
  assert (B : (IZR c1 - 1) * lx < (IZR c + 1) * lx) by (rewrite Hc; lra).
  apply Rmult_lt_reg_r in A; auto. apply Rmult_lt_reg_r in B; auto.
  assert (A' : (c < c1 + 2)%Z) by (apply lt_IZR; rewrite plus_IZR; simpl; lra).
  assert (B' : (c1 - 1 < c + 1)%Z) by (apply lt_IZR; rewrite plus_IZR, minus_IZR; simpl; lra).
  exists (c - c1)%Z. split; [lia|]. replace (c1 + (c - c1))%Z with c by lia.
  unfold cell_periodic1, c in *.
  assert (Hm : (m = -1 \/ m = 0 \/ m = 1)%Z) by nia.
  destruct Hm as [Hm|[Hm|Hm]]; subst m.
  - destruct (Z.ltb_spec (c2 + -1 * n) 0); lia.
  - destruct (Z.ltb_spec (c2 + 0 * n) 0); [lia|]. destruct (Z.ltb_spec (n - 1) (c2 + 0 * n)); lia.
  - destruct (Z.ltb_spec (c2 + 1 * n) 0); [lia|]. destruct (Z.ltb_spec (n - 1) (c2 + 1 * n)); lia.
Qed.

Lemma cell_periodic1_range n c d : (3 <= n -> 0 <= c < n -> -1 <= d <= 1 -> 0 <= cell_periodic1 n (c + d) < n)%Z.
Proof.
  intros. unfold cell_periodic1. destruct (Z.ltb_spec (c + d) 0); [lia|].
  destruct (Z.ltb_spec (n - 1) (c + d)); lia.
Qed.
Lemma cell_periodic1_inj n c d d' : (3 <= n -> 0 <= c < n -> -1 <= d <= 1 -> -1 <= d' <= 1 ->
  cell_periodic1 n (c + d) = cell_periodic1 n (c + d') -> d = d')%Z.
Proof.
  intros Hn Hc Hd Hd'. unfold cell_periodic1.
  destruct (Z.ltb_spec (c + d) 0), (Z.ltb_spec (c + d') 0); try lia;
  destruct (Z.ltb_spec (n - 1) (c + d)); try lia;
  destruct (Z.ltb_spec (n - 1) (c + d')); lia.
Qed.

(** ** Cell numbers *)
Lemma cell_index_inj ny nz i j k i' j' k' :
  (0 <= j < ny -> 0 <= k < nz -> 0 <= j' < ny -> 0 <= k' < nz ->
   cell_index ny nz i j k = cell_index ny nz i' j' k' -> i = i' /\ j = j' /\ k = k')%Z.
Proof.
  intros Hj Hk Hj' Hk' E. unfold cell_index in E.
  assert (E1 : ((i * ny + j) * nz + k = (i' * ny + j') * nz + k')%Z) by lia.
  assert (Q : forall a b a' b' m : Z, (0 <= b < m -> 0 <= b' < m -> a * m + b = a' * m + b' -> a = a' /\ b = b')%Z).
  { intros a b a' b' m Hb Hb' Q.
    assert (a = a')%Z by (assert (a - a' = 0 \/ a - a' >= 1 \/ a - a' <= -1)%Z by lia; nia). subst. lia. }
  apply Q in E1; auto. destruct E1 as [E1 ->]. apply Q in E1; auto. tauto.
Qed.
Lemma cell_index_range nx ny nz i j k :
  (0 <= i < nx -> 0 <= j < ny -> 0 <= k < nz -> 0 <= cell_index ny nz i j k < nx * ny * nz)%Z.
Proof.
  intros Hi Hj Hk. unfold cell_index.
  assert (A : (0 <= j * nz + k < ny * nz)%Z) by nia.
  replace (i * ny * nz + j * nz + k)%Z with (i * (ny * nz) + (j * nz + k))%Z by ring.
  replace (nx * ny * nz)%Z with (nx * (ny * nz))%Z by ring.
  generalize dependent (j * nz + k)%Z. generalize (ny * nz)%Z. intros m q A. nia.
Qed.

(** ** Members *)
Lemma combine_seq_nth {A} (l : list A) k i a :
  In (i, a) (combine (seq k (length l)) l) <-> (k <= i)%nat /\ nth_error l (i - k) = Some a.
Proof.
  revert k; induction l as [|x l IH]; intros k; simpl.
  - split; [tauto|]. intros [_ H]. destruct (i - k)%nat; discriminate.
  - rewrite IH. split.
    + intros [E|[H1 H2]].
      * injection E as <- <-. rewrite Nat.sub_diag. split; auto.
      * split; [lia|]. replace (i - k)%nat with (S (i - S k)) by lia. exact H2.
    + intros [H1 H2]. destruct (Nat.eq_dec k i) as [->|Hk].
      * left. rewrite Nat.sub_diag in H2. simpl in H2. congruence.
      * right. split; [lia|]. replace (i - k)%nat with (S (i - S k)) in H2 by lia. exact H2.
Qed.

Lemma In_members cs c i : In i (members cs c) <-> nth_error cs i = Some c.
Proof.
  unfold members. rewrite in_map_iff. split.
  - intros ([i' c'] & Ei & H). simpl in Ei; subst. apply filter_In in H. destruct H as [H1 H2].
    apply combine_seq_nth in H1. rewrite Nat.sub_0_r in H1. simpl in H2. apply Z.eqb_eq in H2.
    subst. tauto.
  - intros H. exists (i, c). split; auto. apply filter_In. split.
    + apply combine_seq_nth. rewrite Nat.sub_0_r. split; auto. lia.
    + simpl. apply Z.eqb_refl.
Qed.

Lemma map_fst_combine_seq {A} (l : list A) k : map fst (combine (seq k (length l)) l) = seq k (length l).
Proof. revert k; induction l; intros k; simpl; f_equal; auto. Qed.

Lemma NoDup_map_filter {A B} (f : A -> B) (p : A -> bool) l : NoDup (map f l) -> NoDup (map f (filter p l)).
Proof.
  induction l as [|a l IH]; simpl; intros H; auto. inversion H; subst. destruct (p a); simpl; auto.
  constructor; auto. rewrite in_map_iff. intros (x & E & Hx). apply filter_In in Hx.
  apply H2. apply in_map_iff. exists x. tauto.
Qed.

Lemma NoDup_members cs c : NoDup (members cs c).
Proof. unfold members. apply NoDup_map_filter. rewrite map_fst_combine_seq. apply seq_NoDup. Qed.

(** ** Neighbour cells *)
Lemma In_neighbor_cells g i j k c : In c (neighbor_cells g i j k) <->
  exists a b d, (-1 <= a <= 1 /\ -1 <= b <= 1 /\ -1 <= d <= 1)%Z /\
    c = cell_index (g_ny g) (g_nz g) (cell_periodic1 (g_nx g) (i + a))
          (cell_periodic1 (g_ny g) (j + b)) (cell_periodic1 (g_nz g) (k + d)).
Proof.
  unfold neighbor_cells. rewrite in_flat_map. split.
  - intros (si & Hi & H). apply in_flat_map in H. destruct H as (sj & Hj & H).
    apply in_map_iff in H. destruct H as (sk & E & Hk). apply In_zrange in Hi, Hj, Hk.
    exists (si - i)%Z, (sj - j)%Z, (sk - k)%Z. split; [lia|]. rewrite <- E. f_equal; f_equal; lia.
  - intros (a & b & d & H & ->). exists (i + a)%Z. split; [apply In_zrange; lia|].
    apply in_flat_map. exists (j + b)%Z. split; [apply In_zrange; lia|].
    apply in_map_iff. exists (k + d)%Z. split; auto. apply In_zrange; lia.
Qed.

Definition grid3 (g : grid) : Prop := (3 <= g_nx g /\ 3 <= g_ny g /\ 3 <= g_nz g)%Z.
Definition in_grid (g : grid) (i j k : Z) : Prop :=
  (0 <= i < g_nx g /\ 0 <= j < g_ny g /\ 0 <= k < g_nz g)%Z.

Lemma NoDup_neighbor_cells g i j k : grid3 g -> in_grid g i j k -> NoDup (neighbor_cells g i j k).
Proof.
  intros (Gx & Gy & Gz) (Hi & Hj & Hk). unfold neighbor_cells.
  assert (INJ : forall si sj sk si' sj' sk',
    In si (zrange (i - 1) (i + 2)) -> In sj (zrange (j - 1) (j + 2)) -> In sk (zrange (k - 1) (k + 2)) ->
    In si' (zrange (i - 1) (i + 2)) -> In sj' (zrange (j - 1) (j + 2)) -> In sk' (zrange (k - 1) (k + 2)) ->
    cell_index (g_ny g) (g_nz g) (cell_periodic1 (g_nx g) si) (cell_periodic1 (g_ny g) sj) (cell_periodic1 (g_nz g) sk)
    = cell_index (g_ny g) (g_nz g) (cell_periodic1 (g_nx g) si') (cell_periodic1 (g_ny g) sj') (cell_periodic1 (g_nz g) sk') ->
    si = si' /\ sj = sj' /\ sk = sk').
  { intros si sj sk si' sj' sk' I1 I2 I3 I4 I5 I6 E. apply In_zrange in I1, I2, I3, I4, I5, I6.
    replace si with (i + (si - i))%Z in * by lia. replace sj with (j + (sj - j))%Z in * by lia.
    replace sk with (k + (sk - k))%Z in * by lia. replace si' with (i + (si' - i))%Z in * by lia.
    replace sj' with (j + (sj' - j))%Z in * by lia. replace sk' with (k + (sk' - k))%Z in * by lia.
    apply cell_index_inj in E; try (apply cell_periodic1_range; lia).
    destruct E as (E1 & E2 & E3).
    apply cell_periodic1_inj in E1; try lia. apply cell_periodic1_inj in E2; try lia.
    apply cell_periodic1_inj in E3; try lia. }
  apply NoDup_flat_map; [apply NoDup_zrange| |].
  - intros si Hsi. apply NoDup_flat_map; [apply NoDup_zrange| |].
    + intros sj Hsj. assert (ND := NoDup_zrange (k - 1) (k + 2)).
      revert ND. assert (SUB : forall x, In x (zrange (k-1) (k+2)) -> In x (zrange (k-1) (k+2))) by auto.
      revert SUB. generalize (zrange (k - 1) (k + 2)) at 1 3 4. induction l as [|x l IH]; intros SUB ND; simpl; constructor.
      * inversion ND; subst. rewrite in_map_iff. intros (y & Ey & Hy).
        assert (y = x); [|subst; contradiction].
        eapply (INJ si sj y si sj x); eauto; apply SUB; [now right|now left].
      * inversion ND; subst. apply IH; auto. intros; apply SUB; now right.
    + intros sj sj' x Hsj Hsj' H1 H2. apply in_map_iff in H1, H2.
      destruct H1 as (sk & <- & Hk1), H2 as (sk' & E & Hk2).
      symmetry in E. eapply INJ in E; eauto. tauto.
  - intros si si' x Hsi Hsi' H1 H2. apply in_flat_map in H1, H2.
    destruct H1 as (sj & Hj1 & H1), H2 as (sj' & Hj2 & H2). apply in_map_iff in H1, H2.
    destruct H1 as (sk & <- & Hk1), H2 as (sk' & E & Hk2).
    symmetry in E. eapply INJ in E; eauto. tauto.
Qed.

(** ** The pairs *)
Definition cell_of_all (g : grid) (cs : list Z) : list (nat * nat) :=
  flat_map (fun i => flat_map (fun j => flat_map (fun k =>
        flat_map (fun ti => flat_map (fun c =>
          flat_map (fun tj => if (ti <? tj)%nat then [(ti, tj)] else []) (members cs c))
          (neighbor_cells g i j k))
        (members cs (cell_index (g_ny g) (g_nz g) i j k)))
      (zrange 0 (g_nz g))) (zrange 0 (g_ny g))) (zrange 0 (g_nx g)).

Definition inner (g : grid) (cs : list Z) (i j k : Z) : list (nat * nat) :=
  flat_map (fun ti => flat_map (fun c =>
          flat_map (fun tj => if (ti <? tj)%nat then [(ti, tj)] else []) (members cs c))
          (neighbor_cells g i j k))
        (members cs (cell_index (g_ny g) (g_nz g) i j k)).

Lemma In_inner g cs i j k ti tj : In (ti, tj) (inner g cs i j k) <->
  (ti < tj)%nat /\ nth_error cs ti = Some (cell_index (g_ny g) (g_nz g) i j k) /\
  exists c, In c (neighbor_cells g i j k) /\ nth_error cs tj = Some c.
Proof.
  unfold inner. rewrite in_flat_map. split.
  - intros (t & Ht & H). apply in_flat_map in H. destruct H as (c & Hc & H).
    apply in_flat_map in H. destruct H as (t' & Ht' & H).
    destruct (Nat.ltb_spec t t'); [|destruct H]. destruct H as [E|[]]. injection E as -> ->.
    apply In_members in Ht, Ht'. eauto.
  - intros (Hlt & Hi & c & Hc & Hj). exists ti. split; [now apply In_members|].
    apply in_flat_map. exists c. split; auto. apply in_flat_map. exists tj.
    split; [now apply In_members|]. apply Nat.ltb_lt in Hlt. rewrite Hlt. now left.
Qed.

Lemma In_cell_of_all g cs ti tj : In (ti, tj) (cell_of_all g cs) <->
  exists i j k, in_grid g i j k /\ In (ti, tj) (inner g cs i j k).
Proof.
  unfold cell_of_all. rewrite in_flat_map. split.
  - intros (i & Hi & H). apply in_flat_map in H. destruct H as (j & Hj & H).
    apply in_flat_map in H. destruct H as (k & Hk & H). apply In_zrange in Hi, Hj, Hk.
    exists i, j, k. split; auto. unfold in_grid. lia.
  - intros (i & j & k & (Hi & Hj & Hk) & H). exists i. split; [apply In_zrange; lia|].
    apply in_flat_map. exists j. split; [apply In_zrange; lia|].
    apply in_flat_map. exists k. split; [apply In_zrange; lia|]. exact H.
Qed.

Lemma NoDup_inner g cs i j k : grid3 g -> in_grid g i j k -> NoDup (inner g cs i j k).
Proof.
  intros G H. unfold inner. apply NoDup_flat_map; [apply NoDup_members| |].
  - intros ti _. apply NoDup_flat_map; [now apply NoDup_neighbor_cells| |].
    + intros c _. apply NoDup_flat_map; [apply NoDup_members| |].
      * intros tj _. destruct (ti <? tj)%nat; repeat constructor. simpl; tauto.
      * intros a b x _ _. destruct (ti <? a)%nat; simpl; [|tauto]. destruct (ti <? b)%nat; simpl; [|tauto].
        intros [<-|[]] [E|[]]. congruence.
    + intros c c' x _ _ H1 H2. apply in_flat_map in H1, H2.
      destruct H1 as (a & Ha & H1), H2 as (b & Hb & H2). apply In_members in Ha, Hb.
      destruct (ti <? a)%nat; simpl in H1; [|tauto]. destruct (ti <? b)%nat; simpl in H2; [|tauto].
      destruct H1 as [<-|[]], H2 as [E|[]]. injection E as ->. congruence.
  - intros a b x _ _ H1 H2. apply in_flat_map in H1, H2.
    destruct H1 as (c & _ & H1), H2 as (c' & _ & H2). apply in_flat_map in H1, H2.
    destruct H1 as (t & _ & H1), H2 as (t' & _ & H2).
    destruct (a <? t)%nat; simpl in H1; [|tauto]. destruct (b <? t')%nat; simpl in H2; [|tauto].
    destruct H1 as [<-|[]], H2 as [E|[]]. congruence.
Qed.

Lemma NoDup_cell_of_all g cs : grid3 g -> NoDup (cell_of_all g cs).
Proof.
  intros G. unfold cell_of_all.
  assert (U : forall i j k i' j' k' x, in_grid g i j k -> in_grid g i' j' k' ->
    In x (inner g cs i j k) -> In x (inner g cs i' j' k') -> i = i' /\ j = j' /\ k = k').
  { intros i j k i' j' k' [ti tj] (Hi & Hj & Hk) (Hi' & Hj' & Hk') H1 H2. apply In_inner in H1, H2.
    destruct H1 as (_ & H1 & _), H2 as (_ & H2 & _). rewrite H1 in H2.
    assert (E : cell_index (g_ny g) (g_nz g) i j k = cell_index (g_ny g) (g_nz g) i' j' k') by congruence.
    apply cell_index_inj in E; auto. }
  apply NoDup_flat_map; [apply NoDup_zrange| |].
  - intros i Hi. apply In_zrange in Hi. apply NoDup_flat_map; [apply NoDup_zrange| |].
    + intros j Hj. apply In_zrange in Hj. apply NoDup_flat_map; [apply NoDup_zrange| |].
      * intros k Hk. apply In_zrange in Hk. apply (NoDup_inner g cs i j k); auto. unfold in_grid; lia.
      * intros k k' x Hk Hk' H1 H2. apply In_zrange in Hk, Hk'.
        eapply (U i j k i j k'); eauto; unfold in_grid; lia.
    + intros j j' x Hj Hj' H1 H2. apply In_zrange in Hj, Hj'. apply in_flat_map in H1, H2.
      destruct H1 as (k & Hk & H1), H2 as (k' & Hk' & H2). apply In_zrange in Hk, Hk'.
      eapply (U i j k i j' k'); eauto; unfold in_grid; lia.
  - intros i i' x Hi Hi' H1 H2. apply In_zrange in Hi, Hi'. apply in_flat_map in H1, H2.
    destruct H1 as (j & Hj & H1), H2 as (j' & Hj' & H2). apply In_zrange in Hj, Hj'.
    apply in_flat_map in H1, H2.
    destruct H1 as (k & Hk & H1), H2 as (k' & Hk' & H2). apply In_zrange in Hk, Hk'.
    eapply (U i j k i' j' k'); eauto; unfold in_grid; lia.
Qed.

(** ** Close atoms are in neighbouring cells *)
Lemma eucl_ge x y z r : eucl x y z < r -> Rabs x < r /\ Rabs y < r /\ Rabs z < r.
Proof.
  intros H. assert (Hx : forall a, a ^ 2 <= len2 x y z -> Rabs a < r).
  { intros a Ha. apply Rle_lt_trans with (eucl x y z); auto. unfold eucl.
    rewrite <- sqrt_Rsqr_abs. apply sqrt_le_1_alt. unfold Rsqr. simpl in Ha. lra. }
  unfold len2 in Hx. pose proof (pow2_ge_0 x). pose proof (pow2_ge_0 y). pose proof (pow2_ge_0 z).
  repeat split; apply Hx; lra.
Qed.

Definition grid_of (s : sys Rnum) (r : R) : grid :=
  mkGrid (Rtrunc (vx (s_len s) / r)) (Rtrunc (vy (s_len s) / r)) (Rtrunc (vz (s_len s) / r)).

Lemma make_grid_ok (s : sys Rnum) : three_wide s (s_nd s) ->
  make_grid s = Ok (grid_of s (s_nd s)) /\ grid3 (grid_of s (s_nd s)).
Proof.
  intros (_ & Hr & Hx & Hy & Hz). unfold make_grid. rnum. unfold grid_of, grid3. cbn [g_nx g_ny g_nz].
  destruct (ncells _ _ Hr Hx) as [Nx _]. destruct (ncells _ _ Hr Hy) as [Ny _].
  destruct (ncells _ _ Hr Hz) as [Nz _].
  assert (E : (Z.ltb 0 (Rtrunc (vx (s_len s) / s_nd s)) && Z.ltb 0 (Rtrunc (vy (s_len s) / s_nd s))
    && Z.ltb 0 (Rtrunc (vz (s_len s) / s_nd s)))%bool = true).
  { rewrite !Bool.andb_true_iff, !Z.ltb_lt. lia. }
  cbv zeta. rewrite E. auto.
Qed.

(** The cell coordinates of an atom and their meaning. *)
Definition cc (L r x : R) : Z := cell_coord (N := Rnum) L (L / IZR (Rtrunc (L / r))) x.

Lemma atom_cell_cc (s : sys Rnum) p :
  atom_cell s (grid_of s (s_nd s)) p =
  cell_index (g_ny (grid_of s (s_nd s))) (g_nz (grid_of s (s_nd s)))
    (cc (vx (s_len s)) (s_nd s) (vx p)) (cc (vy (s_len s)) (s_nd s) (vy p))
    (cc (vz (s_len s)) (s_nd s) (vz p)).
Proof. reflexivity. Qed.

Lemma cc_range (L r x : R) : 1 / 1000000 <= r -> 3 * r <= L -> coord_ok L x ->
  (0 <= cc L r x < Rtrunc (L / r))%Z.
Proof.
  intros Hr HL Hx. destruct (ncells _ _ Hr HL) as [Hn Hnr].
  assert (Hn' : 3 <= IZR (Rtrunc (L / r))) by (apply IZR_le in Hn; exact Hn).
  destruct (cell_coord_spec L x (Rtrunc (L / r)) Hn) as (k & y & _ & _ & H & _); auto.
  apply Rle_trans with (IZR (Rtrunc (L / r)) * r); auto. apply Rmult_le_compat_l; lra.
Qed.

Lemma cc_close (L r x1 x2 w : R) (m : Z) : 1 / 1000000 <= r -> 3 * r <= L ->
  coord_ok L x1 -> coord_ok L x2 -> x2 + IZR m * L = x1 + w -> Rabs w < r ->
  exists d, (-1 <= d <= 1)%Z /\ cell_periodic1 (Rtrunc (L / r)) (cc L r x1 + d) = cc L r x2.
Proof.
  intros Hr HL H1 H2 E Hw. destruct (ncells _ _ Hr HL) as [Hn Hnr].
  assert (Hn' : 3 <= IZR (Rtrunc (L / r))) by (apply IZR_le in Hn; exact Hn).
  assert (HL6 : IZR (Rtrunc (L / r)) * (1 / 1000000) <= L).
  { apply Rle_trans with (IZR (Rtrunc (L / r)) * r); auto. apply Rmult_le_compat_l; lra. }
  destruct (cell_coord_spec L x1 _ Hn HL6 H1) as (k1 & y1 & E1 & B1 & R1 & C1).
  destruct (cell_coord_spec L x2 _ Hn HL6 H2) as (k2 & y2 & E2 & B2 & R2 & C2).
  set (lx := L / IZR (Rtrunc (L / r))) in *.
  assert (Hlx : lx * IZR (Rtrunc (L / r)) = L) by (unfold lx; field; lra).
  assert (Hrlx : r <= lx) by (unfold lx; apply div_range; lra).
  apply (close_cells L lx (Rtrunc (L / r)) (m + k1 - k2) _ _ y1 y2 w); auto; try lra.
  rewrite E1, E2, minus_IZR, plus_IZR. lra.
Qed.

Lemma cell_pairs_ok (s : sys Rnum) : stored s -> cells_ok s (s_nd s) ->
  exists ps, cell_pairs s = Ok ps /\ NoDup ps /\
    (forall p, In p ps -> (fst p < snd p < length (s_atoms s))%nat) /\
    (forall i j a b, (i < j)%nat -> nth_error (s_atoms s) i = Some a -> nth_error (s_atoms s) j = Some b ->
       abs_distance s (a_pos b) (a_pos a) < s_nd s -> In (i, j) ps).
Proof.
  intros Hst [H3 Hat]. destruct (make_grid_ok s H3) as [Eg G3].
  pose proof H3 as (Ho & Hr & Hx & Hy & Hz).
  set (g := grid_of s (s_nd s)) in *.
  assert (RNG : forall a, In a (s_atoms s) ->
     in_grid g (cc (vx (s_len s)) (s_nd s) (vx (a_pos a))) (cc (vy (s_len s)) (s_nd s) (vy (a_pos a)))
      (cc (vz (s_len s)) (s_nd s) (vz (a_pos a)))).
  { intros a Ha. destruct (Hat a Ha) as (Hax & Hay & Haz).
    pose proof (cc_range _ _ _ Hr Hx Hax). pose proof (cc_range _ _ _ Hr Hy Hay).
    pose proof (cc_range _ _ _ Hr Hz Haz). unfold in_grid, g, grid_of. cbn [g_nx g_ny g_nz]. auto. }
  set (cs := map (fun a => atom_cell s g (a_pos a)) (s_atoms s)).
  assert (Ecs : atom_cells s g = Ok cs).
  { unfold atom_cells. rewrite Hst, Nat2Z.id. unfold cs.
    assert (Q : forall l1 l2, s_atoms s = l1 ++ l2 ->
      mapM (fun ti => bind (get (s_atoms s) ti) (fun a => let c := atom_cell s g (a_pos a) in
          if (Z.leb 0 c && Z.ltb c (g_nx g * g_ny g * g_nz g))%bool then Ok c else Err UB))
        (seq (length l1) (length l2)) = Ok (map (fun a => atom_cell s g (a_pos a)) l2)).
    { intros l1 l2; revert l1; induction l2 as [|a l2 IH]; intros l1 E; cbn [mapM map seq length]; auto.
      assert (Ea : nth_error (s_atoms s) (length l1) = Some a).
      { rewrite E, nth_error_app2, Nat.sub_diag; auto. }
      rewrite (get_Ok Ea). cbn [bind]. cbv zeta.
      assert (Hin : In a (s_atoms s)) by (apply nth_error_In in Ea; exact Ea).
      assert (RC : (0 <= atom_cell s g (a_pos a) < g_nx g * g_ny g * g_nz g)%Z).
      { unfold g at 1. rewrite atom_cell_cc. fold g.
        destruct (RNG a Hin) as (A & B & C). apply cell_index_range; auto. }
      assert (E1 : (Z.leb 0 (atom_cell s g (a_pos a)) && Z.ltb (atom_cell s g (a_pos a)) (g_nx g * g_ny g * g_nz g))%bool = true).
      { rewrite Bool.andb_true_iff, Z.leb_le, Z.ltb_lt. lia. }
      rewrite E1. cbn [bind].
      specialize (IH (l1 ++ [a])). rewrite app_length in IH. cbn [length] in IH. rewrite Nat.add_1_r in IH.
      rewrite IH; auto. rewrite E, <- app_assoc. reflexivity. }
    exact (Q [] (s_atoms s) eq_refl). }
  exists (cell_of_all g cs). split.
  { unfold cell_pairs. rewrite Eg. cbn [bind]. fold g. rewrite Ecs. reflexivity. }
  split; [now apply NoDup_cell_of_all|]. split.
  - intros [ti tj] H. apply In_cell_of_all in H. destruct H as (i & j & k & _ & H).
    apply In_inner in H. destruct H as (Hlt & _ & c & _ & Hc). simpl. split; auto.
    assert (HH : (tj < length cs)%nat) by (apply nth_error_Some; congruence).
    unfold cs in HH. now rewrite map_length in HH.
  - intros i j a b Hij Ha Hb Hd. apply In_cell_of_all.
    assert (Ia : In a (s_atoms s)) by (eapply nth_error_In; eauto).
    assert (Ib : In b (s_atoms s)) by (eapply nth_error_In; eauto).
    exists (cc (vx (s_len s)) (s_nd s) (vx (a_pos a))), (cc (vy (s_len s)) (s_nd s) (vy (a_pos a))),
      (cc (vz (s_len s)) (s_nd s) (vz (a_pos a))). split; [auto|].
    apply In_inner. split; auto. split.
    { unfold cs. rewrite nth_error_map, Ha. reflexivity. }
    exists (atom_cell s g (a_pos b)). split.
    2:{ unfold cs. rewrite nth_error_map, Hb. reflexivity. }
    apply In_neighbor_cells.
    change (abs_distance s (a_pos b) (a_pos a)) with (norm (distance_vector s (a_pos b) (a_pos a))) in Hd.
    rewrite (distance_vector_ortho s _ _ Ho), norm_eucl in Hd. cbn [vx vy vz] in Hd.
    apply eucl_ge in Hd. destruct Hd as (Dx & Dy & Dz).
    destruct (Hat a Ia) as (Hax & Hay & Haz). destruct (Hat b Ib) as (Hbx & Hby & Hbz).
    destruct (wrap1_congr (vx (s_len s)) (vx (a_pos b) - vx (a_pos a))) as (kx & _ & Ex).
    destruct (wrap1_congr (vy (s_len s)) (vy (a_pos b) - vy (a_pos a))) as (ky & _ & Ey).
    destruct (wrap1_congr (vz (s_len s)) (vz (a_pos b) - vz (a_pos a))) as (kz & _ & Ez).
    destruct (cc_close _ _ _ _ (wrap1 (N := Rnum) (vx (s_len s)) (vx (a_pos b) - vx (a_pos a))) kx Hr Hx Hax Hbx)
      as (dx & Bx & Cx); auto.
    { rewrite Ex. rnum. lra. }
    destruct (cc_close _ _ _ _ (wrap1 (N := Rnum) (vy (s_len s)) (vy (a_pos b) - vy (a_pos a))) ky Hr Hy Hay Hby)
      as (dy & By & Cy); auto.
    { rewrite Ey. rnum. lra. }
    destruct (cc_close _ _ _ _ (wrap1 (N := Rnum) (vz (s_len s)) (vz (a_pos b) - vz (a_pos a))) kz Hr Hz Haz Hbz)
      as (dz & Bz & Cz); auto.
    { rewrite Ez. rnum. lra. }
    exists dx, dy, dz. split; [lia|]. unfold g. rewrite atom_cell_cc. unfold grid_of.
    cbn [g_nx g_ny g_nz]. rewrite Cx, Cy, Cz. reflexivity.
Qed.
