(** Property C18 for the doubles that are computed: systems of any size. *)
From Coq Require Import ZArith Reals Lra Lia Psatz Permutation.
From Coq.Floats Require Import SpecFloat.
From Flocq Require Import Core.
From Verif Require Import Base Num NumR NumF Types Ex M_Geometry M_Container M_Neighbors S_Geometry S_Neighbors S_Double S_DoubleDist
  P_Container P_Double P_DoubleDist P_Neighbors P_Cells P_Search P_FindN P_Cutoff P_CellDouble C_Neighbors C_DoubleDist.
Open Scope R_scope.

Lemma prod_bound a b c r : 0 < r -> 3 * r <= a -> 3 * r <= b -> 3 * r <= c -> a * b * c <= 1073741824 * (r * r * r) -> a <= 1073741824 * r.
Proof.
  intros R0 A B C H. apply Rmult_le_reg_r with (r * r); [nra|].
  apply Rle_trans with (a * b * c); [|nra]. rewrite Rmult_assoc. apply Rmult_le_compat_l; nra.
Qed.

Lemma NoDup_app_l {A} (l l' : list A) : NoDup (l ++ l') -> NoDup l.
Proof. induction l as [|a l IH]; cbn; intros H; [constructor|]. inversion H; subst. constructor; [rewrite in_app_iff in *; tauto|auto]. Qed.

Section S.
Context (lib : libm) (s0 : sys (SF64 lib)) (x y z : SF64 lib).
Hypothesis HT : s_tri s0 = false.
Hypothesis Sx : side x. Hypothesis Sy : side y. Hypothesis Sz : side z.
Let L := mkV (N := Rnum) (val x) (val y) (val z).
Let sb := sbox s0 (diag (N := SF64 lib) x y z).

Lemma pow_50 : powerRZ 2 (-50) = 8 * u. Proof. rewrite pow_bpow. unfold u. change (bpow radix2 (-50)) with (/ 1125899906842624). lra. Qed.
Lemma pow_19 : powerRZ 2 (-19) = / 524288. Proof. rewrite pow_bpow. reflexivity. Qed.
Lemma pow_30 : powerRZ 2 30 = 1073741824. Proof. rewrite pow_bpow. reflexivity. Qed.

Lemma pairs_double (l : list (atom (SF64 lib))) (r : SF64 lib) f :
  double r -> three_wide_d L (val r) -> (forall a, In a l -> double3 (a_pos a)) -> (forall a, In a l -> inside_d L (val3 (a_pos a))) ->
  exists ps, cell_pairs (prep (set_atoms sb l) f r) = Ok ps /\ NoDup ps /\
    (forall p, In p ps -> (fst p < snd p < length l)%nat) /\
    (forall i j a b, (i < j)%nat -> nth_error l i = Some a -> nth_error l j = Some b ->
       (exists n m k, image_distance L (val3 (a_pos a)) (val3 (a_pos b)) n m k < val r - 2 * tol L) -> In (i, j) ps).
Proof.
  intros Hr (R0 & Wx & Wy & Wz & W) HD HI. rewrite pow_19 in R0. rewrite pow_30 in W. cbn [vx vy vz L] in Wx, Wy, Wz, W.
  assert (RP : 0 < val r) by lra.
  assert (Bx : val x <= 1073741824 * val r) by (apply (prod_bound (val x) (val y) (val z)); assumption).
  assert (By : val y <= 1073741824 * val r) by (apply (prod_bound (val y) (val x) (val z)); try assumption; lra).
  assert (Bz : val z <= 1073741824 * val r) by (apply (prod_bound (val z) (val x) (val y)); try assumption; lra).
  assert (Rr := rep_double Hr). destruct (side_reps Sx) as [Hx [_ Ux]], (side_reps Sy) as [Hy [_ Uy]], (side_reps Sz) as [Hz [_ Uz]].
  destruct (@diag_len_rep lib x y z _ _ _ (side_reps Sx) (side_reps Sy) (side_reps Sz)) as (Lx & Ly & Lz).
  set (s := prep (set_atoms sb l) f r).
  change (vx (sbox_len (diag (N := SF64 lib) x y z))) with (vx (s_len s)) in Lx.
  change (vy (sbox_len (diag (N := SF64 lib) x y z))) with (vy (s_len s)) in Ly.
  change (vz (sbox_len (diag (N := SF64 lib) x y z))) with (vz (s_len s)) in Lz.
  set (g := mkGrid (sf_trunc (sf_div (vx (s_len s)) r)) (sf_trunc (sf_div (vy (s_len s)) r)) (sf_trunc (sf_div (vz (s_len s)) r))).
  destruct (@grid_double lib _ _ _ _ Lx Rr RP (conj Wx Bx)) as [[Gx _] _].
  destruct (@grid_double lib _ _ _ _ Ly Rr RP (conj Wy By)) as [[Gy _] _].
  destruct (@grid_double lib _ _ _ _ Lz Rr RP (conj Wz Bz)) as [[Gz _] _].
  assert (EG : make_grid s = Ok g).
  { unfold make_grid. cbn [ntrunc ndiv SF64]. change (s_nd s) with r. cbv zeta. fold g.
    assert (E : (Z.ltb 0 (sf_trunc (sf_div (vx (s_len s)) r)) && Z.ltb 0 (sf_trunc (sf_div (vy (s_len s)) r)) && Z.ltb 0 (sf_trunc (sf_div (vz (s_len s)) r)))%bool = true).
    { rewrite !Bool.andb_true_iff, !Z.ltb_lt. lia. }
    rewrite E. reflexivity. }
  assert (INR : forall a, In a l -> exists px py pz, rep (vx (a_pos a)) px /\ rep (vy (a_pos a)) py /\ rep (vz (a_pos a)) pz /\
    val3 (a_pos a) = mkV (N := Rnum) px py pz /\
    0 <= px <= val x * (1 - 8 * u) /\ 0 <= py <= val y * (1 - 8 * u) /\ 0 <= pz <= val z * (1 - 8 * u)).
  { intros a Ha. destruct (HD a Ha) as (D1 & D2 & D3). destruct (HI a Ha) as (I1 & I2 & I3). rewrite pow_50 in I1, I2, I3. cbn [vx vy vz val3 L] in I1, I2, I3.
    exists (val (vx (a_pos a))), (val (vy (a_pos a))), (val (vz (a_pos a))). split; [apply rep_double; exact D1|]. split; [apply rep_double; exact D2|].
    split; [apply rep_double; exact D3|]. split; [reflexivity|]. repeat split; lra. }
  assert (IS : forall a, In a (s_atoms s) -> exists a0, In a0 l /\ a_pos a = a_pos a0).
  { intros a Ha. cbn in Ha. apply in_map_iff in Ha as (a0 & <- & Ha). exists a0. split; [exact Ha|reflexivity]. }
  destruct (@cell_pairs_gen (SF64 lib) s g) as (ps & E & ND & RG & CL).
  - unfold stored. cbn. now rewrite map_length.
  - exact EG.
  - split; [exact Gx|split; [exact Gy|exact Gz]].
  - intros a Ha. destruct (IS a Ha) as (a0 & Ha0 & ->). destruct (INR a0 Ha0) as (px & py & pz & Px & Py & Pz & _ & Ix & Iy & Iz).
    destruct (@cell_double lib _ _ _ _ _ _ Lx Rr Px R0 (conj Wx Bx) Ux Ix) as (_ & _ & Cx & _).
    destruct (@cell_double lib _ _ _ _ _ _ Ly Rr Py R0 (conj Wy By) Uy Iy) as (_ & _ & Cy & _).
    destruct (@cell_double lib _ _ _ _ _ _ Lz Rr Pz R0 (conj Wz Bz) Uz Iz) as (_ & _ & Cz & _).
    split; [exact Cx|split; [exact Cy|exact Cz]].
  - exists ps. split; [exact E|]. split; [exact ND|].
    assert (LEN : length (s_atoms s) = length l) by (cbn; apply map_length). rewrite LEN in RG. split; [exact RG|].
    intros i j a b Hij Ha Hb (n & m & k & Hd).
    destruct (INR a (nth_error_In _ _ Ha)) as (px & py & pz & Px & Py & Pz & Ea & Ix & Iy & Iz).
    destruct (INR b (nth_error_In _ _ Hb)) as (qx & qy & qz & Qx & Qy & Qz & Eb & Jx & Jy & Jz).
    rewrite Ea, Eb in Hd. unfold image_distance in Hd. cbn [vx vy vz L] in Hd. apply eucl_ge in Hd. destruct Hd as (Dx & Dy & Dz).
    unfold tol in Dx, Dy, Dz. rewrite pow_50 in Dx, Dy, Dz. cbn [vx vy vz L] in Dx, Dy, Dz.
    replace (px - (qx + IZR n * val x)) with (px - qx + IZR (- n) * val x) in Dx by (rewrite opp_IZR; ring).
    replace (py - (qy + IZR m * val y)) with (py - qy + IZR (- m) * val y) in Dy by (rewrite opp_IZR; ring).
    replace (pz - (qz + IZR k * val z)) with (pz - qz + IZR (- k) * val z) in Dz by (rewrite opp_IZR; ring).
    assert (U0 : 0 < u) by (unfold u; lra).
    assert (0 < u * val x) by nra. assert (0 < u * val y) by nra. assert (0 < u * val z) by nra.
    apply (CL i j (reset_atom_all a) (reset_atom_all b) Hij).
    + cbn. now rewrite nth_error_map, Ha.
    + cbn. now rewrite nth_error_map, Hb.
    + apply (@near_double lib _ _ _ _ _ _ _ _ (- n) Lx Rr Px Qx R0 (conj Wx Bx) Ux Ix Jx). lra.
    + apply (@near_double lib _ _ _ _ _ _ _ _ (- m) Ly Rr Py Qy R0 (conj Wy By) Uy Iy Jy). lra.
    + apply (@near_double lib _ _ _ _ _ _ _ _ (- k) Lz Rr Pz Qz R0 (conj Wz Bz) Uz Iz Jz). lra.
Qed.
End S.

(** For systems of any size (all pairs up to 2300 real atoms, cells above) the
    neighbours found with a cutoff contain every atom with an image closer than
    the cutoff minus twice the bound of C02_double, once, and no atom all of
    whose images are at the cutoff plus the bound or further. *)
Theorem C18_double :
  forall (lib : libm) inv srt voro area_pow inv' (s0 sb : sys (SF64 lib)) (x y z : SF64 lib) (l : list (atom (SF64 lib))) (r t pad : SF64 lib) (nl : Z) (f : filt),
  s_tri s0 = false -> side x -> side y -> side z -> box_set inv s0 (diag (N := SF64 lib) x y z) = Ok sb ->
  let L := mkV (N := Rnum) (val x) (val y) (val z) in
  (forall a, In a l -> double3 (a_pos a)) -> (forall a, In a l -> inside_d L (val3 (a_pos a))) ->
  double r -> three_wide_d L (val r) ->
  let s := set_atoms sb l in
  (forall i, (i < length l)%nat -> (length (neighbors_within s r f i) <= 300)%nat) ->
  exists s', find_neighbors srt voro area_pow inv' s (mkArgs (N := SF64 lib) (MCutoff (CutVal (N := SF64 lib) r)) f t pad nl) = Ok (s', None) /\
  forall i a, nth_error l i = Some a -> NoDup (map (@nb_idx (SF64 lib)) (nbrs_at s' i)) /\
  forall j b, i <> j -> nth_error l j = Some b ->
    let dist := image_distance L (val3 (a_pos a)) (val3 (a_pos b)) in
    ((exists n m k, dist n m k < val r - 2 * tol L) -> allowed f (a_type a) (a_type b) = true -> In j (map (@nb_idx (SF64 lib)) (nbrs_at s' i))) /\
    (In j (map (@nb_idx (SF64 lib)) (nbrs_at s' i)) -> allowed f (a_type a) (a_type b) = true /\ exists n m k, dist n m k < val r + tol L) /\
    (forall e, In e (nbrs_at s' i) -> nb_idx e = j -> double (nb_dist e) /\
       (exists n m k, Rabs (val (nb_dist e) - dist n m k) <= tol L) /\ (forall n m k, val (nb_dist e) <= dist n m k + tol L)).
Proof.
  intros lib inv srt voro area_pow inv' s0 sb x y z l r t pad nl f HT Sx Sy Sz HB L HD HI Hr HW s Hc.
  rewrite box_set_diag_double in HB by assumption. injection HB as <-.
  assert (R0 : 0 < val r) by (destruct HW as (H & _); rewrite pow_19 in H; lra).
  assert (Rr := rep_double Hr). assert (LT : forall d : SF64 lib, double d -> nltb (n := SF64 lib) d r = true <-> val d < val r).
  { intros d Hd. change (nltb (n := SF64 lib) d r) with (SFltb d r). rewrite (ltb_rep (rep_double Hd) Rr). apply Rltb_true. }
  assert (WI : forall a b, In a l -> In b l -> within L (val3 (a_pos a)) (val3 (a_pos b))).
  { assert (0 < powerRZ 2 (-50)) as P by (apply powerRZ_lt; lra).
    intros a b Ha Hb. destruct (HI a Ha) as (A1 & A2 & A3), (HI b Hb) as (B1 & B2 & B3).
    assert (Px : 0 < vx L) by (destruct HW as (H & W & _); rewrite pow_19 in H; lra).
    assert (Py : 0 < vy L) by (destruct HW as (H & _ & W & _); rewrite pow_19 in H; lra).
    assert (Pz : 0 < vz L) by (destruct HW as (H & _ & _ & W & _); rewrite pow_19 in H; lra).
    assert (0 < powerRZ 2 (-50) * vx L) by nra. assert (0 < powerRZ 2 (-50) * vy L) by nra. assert (0 < powerRZ 2 (-50) * vz L) by nra.
    unfold within. repeat split; apply Rabs_le; lra. }
  (* what both searches leave *)
  assert (KEY : exists s', find_neighbors srt voro area_pow inv' s (mkArgs (N := SF64 lib) (MCutoff (CutVal (N := SF64 lib) r)) f t pad nl) = Ok (s', None) /\
    forall i a, nth_error l i = Some a -> (exists rest, Permutation (neighbors_within s r f i) (nbrs_at s' i ++ rest)) /\
    (forall j b e, i <> j -> nth_error l j = Some b -> In e (neighbors_within s r f i) -> nb_idx e = j ->
       (exists n m k, image_distance L (val3 (a_pos a)) (val3 (a_pos b)) n m k < val r - 2 * tol L) -> In e (nbrs_at s' i))).
  { assert (St : stored s) by reflexivity.
    assert (NZ : neqb (n := SF64 lib) r n0 = false).
    { change (SFeqb r (S754_zero false) = false). clear - R0. destruct r as [sr|sr| |sr mr er]; try reflexivity; cbn in R0; try lra. destruct sr; reflexivity. }
    unfold find_neighbors. rewrite (reset_stored St). cbn [bind]. cbv zeta. cbn [fa_method fa_filter fa_threshold]. rewrite NZ.
    destruct (pairs_double lib s0 x y z Sx Sy Sz l r f Hr HW HD HI) as (ps & E & ND & RG & CL).
    destruct (@cells_visited (SF64 lib) s f r ps St E ND RG Hc) as (sc & EC & HC).
    pose proof (@normal_spec (SF64 lib) s f r St) as B.
    destruct (Z.ltb 2300 _).
    - match goal with |- context [get_all_neighbors_cells ?q] => replace (get_all_neighbors_cells q) with (Ok sc) by (symmetry; exact EC) end. cbn [bind]. eexists. split; [reflexivity|]. intros i a Ha.
      assert (Hi : (i < length (s_atoms s))%nat) by (apply nth_error_Some; cbn; congruence).
      destruct (HC i Hi) as [P V]. split; [exact P|]. intros j b e Hij Hb He Hj Hd. apply V; [exact He|]. rewrite Hj. unfold key.
      destruct (Nat.ltb_spec i j) as [H|H]; [exact (CL i j a b H Ha Hb Hd)|]. apply (CL j i b a ltac:(lia) Hb Ha).
      destruct Hd as (n & m & k & Hd). exists (- n)%Z, (- m)%Z, (- k)%Z.
      fold L. eapply Rle_lt_trans; [|exact Hd]. right.
      unfold image_distance. rewrite <- P_Geometry.eucl_opp. rewrite !opp_IZR. f_equal; ring.
    - destruct (get_all_neighbors_normal _) as [sn|e]; cbn [bind].
      + destruct B as [BR _]. eexists. split; [reflexivity|]. intros i a Ha.
        assert (Hi : (i < length (s_atoms s))%nat) by (apply nth_error_Some; cbn; congruence).
        pose proof (nbrs_at_result BR Hi) as EN. split.
        * exists []. rewrite app_nil_r. change (Permutation (neighbors_within s r f i) (nbrs_at sn i)). rewrite EN. apply Permutation_refl.
        * intros j b e _ _ He _ _. change (In e (nbrs_at sn i)). rewrite EN. exact He.
      + exfalso. destruct B as (_ & i & Hi & H). specialize (Hc i Hi). unfold max_nbrs in H. lia. }
  destruct KEY as (s' & E & K). exists s'. split; [exact E|]. intros i a Ha. destruct (K i a Ha) as [(rest & P) V].
  destruct (C15_membership (SF64 lib) s r f i) as [ND M]. split.
  { apply (Permutation_map (@nb_idx (SF64 lib))) in P. rewrite map_app in P. apply (Permutation_NoDup P) in ND. exact (NoDup_app_l _ _ ND). }
  intros j b Hij Hb dist.
  destruct (link_bounds lib s0 x y z l HT Sx Sy Sz HD WI i j a b Hij Ha Hb) as (e & El & Ej & De & (n & m & k & E1) & E2).
  fold s in El. fold L in E1, E2. fold dist in E1, E2. apply Rabs_le_inv in E1.
  assert (TA : type_at s i = a_type a) by (unfold type_at; cbn; now rewrite Ha).
  assert (TB : type_at s j = a_type b) by (unfold type_at; cbn; now rewrite Hb).
  assert (T0 : 0 < tol L).
  { unfold tol. apply Rmult_lt_0_compat; [apply powerRZ_lt; lra|]. destruct HW as (H & W1 & W2 & W3 & _). rewrite pow_19 in H. lra. }
  assert (IN : forall e', In e' (nbrs_at s' i) -> In e' (neighbors_within s r f i)).
  { intros e' He. apply (Permutation_in _ (Permutation_sym P)). apply in_app_iff. now left. }
  split; [|split].
  - intros Hd Hal. apply in_map_iff. exists e. split; [exact Ej|]. apply (V j b e Hij Hb); [|exact Ej|exact Hd].
    apply M. rewrite Ej, TA, TB. split; [exact Hij|]. split; [exact El|]. split; [|exact Hal].
    apply LT; [exact De|]. destruct Hd as (n' & m' & k' & Hd). specialize (E2 n' m' k'). fold dist in Hd. lra.
  - intros Hin. apply in_map_iff in Hin as (e' & He & Hin). apply IN, M in Hin as (_ & El' & Hlt & Hal). rewrite He, El in El'. injection El' as <-.
    rewrite Ej, TA, TB in Hal. split; [exact Hal|]. apply LT in Hlt; [|exact De]. exists n, m, k. lra.
  - intros e' Hin He. apply IN, M in Hin as (_ & El' & _). rewrite He, El in El'. injection El' as <-. split; [exact De|]. split; [|exact E2]. exists n, m, k. apply Rabs_le. lra.
Qed.
Print Assumptions C18_double.

(** ** The hypotheses hold *)
(** 2400 atoms in pairs of one type; the cell lists are used. *)
Definition q_atom (k : nat) : atom F64 :=
  at_pos (if Nat.even k then zv F64 1 1 1 else zv F64 11 1 1) <| a_type := Z.of_nat (k / 2) |>.
Definition q_atoms : list (atom F64) := map q_atom (seq 0 2400).
Lemma q_nth i a : nth_error q_atoms i = Some a -> a = q_atom i.
Proof.
  unfold q_atoms. rewrite nth_error_map. destruct (nth_error (seq 0 2400) i) as [k|] eqn:E; [|discriminate]. intros [= <-].
  assert (i < length (seq 0 2400))%nat as H by (apply nth_error_Some; congruence). rewrite seq_length in H.
  apply nth_error_nth with (d := 0%nat) in E. rewrite seq_nth in E by exact H. now subst k.
Qed.
Lemma q_in a : In a q_atoms -> exists k, a = q_atom k.
Proof. unfold q_atoms. intros H. apply in_map_iff in H as (k & <- & _). now exists k. Qed.

Lemma small_double k : (1 <= k <= 1000)%Z -> double (sf_ofZ k) /\ val (sf_ofZ k) = IZR k.
Proof. intros H. apply double_rep, ofZ_rep. lia. Qed.

Example C18_double_hyp :
  let x := sf_ofZ 12 in let r := sf_ofZ 3 in
  let L := mkV (N := Rnum) (val x) (val x) (val x) in
  let s := set_atoms (sbox (sys_ctor (raw_sys F64)) (diag (N := F64) x x x)) q_atoms in
  side x /\ (forall a, In a q_atoms -> double3 (lib := libm_test) (a_pos a)) /\
  (forall a, In a q_atoms -> inside_d L (val3 (lib := libm_test) (a_pos a))) /\ double r /\ three_wide_d L (val r) /\
  (forall i, (i < length q_atoms)%nat -> (length (neighbors_within (N := F64) s r FType i) <= 300)%nat) /\ (s_real s > 2300)%Z.
Proof.
  intros x r L s.
  destruct (small_double 12 ltac:(lia)) as [D12 V12], (small_double 3 ltac:(lia)) as [D3 V3], (small_double 1 ltac:(lia)) as [D1 V1], (small_double 11 ltac:(lia)) as [D9 V9].
  assert (SX : side x).
  { split; [exact D12|]. unfold x. rewrite V12, !pow_bpow. split.
    - apply Rle_trans with (bpow radix2 0); [apply bpow_le; lia|cbn; lra].
    - apply Rle_trans with (bpow radix2 10); [change (bpow radix2 10) with 1024; lra|apply bpow_le; lia]. }
  split; [exact SX|]. split; [|split; [|split; [exact D3|split; [|split]]]].
  - intros a Ha. destruct (q_in a Ha) as (k & ->). unfold q_atom. cbn [a_pos at_pos].
    destruct (Nat.even k); (split; [|split]); first [exact D1|exact D9].
  - intros a Ha. destruct (q_in a Ha) as (k & ->). unfold inside_d, L, x. cbn [vx vy vz]. rewrite V12, pow_50.
    assert (0 < u < / 1000) by (unfold u; lra).
    assert (EP : exists c, (c = 1 \/ c = 11) /\ val3 (lib := libm_test) (a_pos (q_atom k)) = mkV (N := Rnum) c 1 1).
    { unfold q_atom. destruct (Nat.even k).
      - exists 1. split; [now left|]. change (mkV (N := Rnum) (val (sf_ofZ 1)) (val (sf_ofZ 1)) (val (sf_ofZ 1)) = mkV (N := Rnum) 1 1 1). now rewrite V1.
      - exists 11. split; [now right|]. change (mkV (N := Rnum) (val (sf_ofZ 11)) (val (sf_ofZ 1)) (val (sf_ofZ 1)) = mkV (N := Rnum) 11 1 1). now rewrite V1, V9. }
    destruct EP as (c & Hc & ->). cbn [vx vy vz]. repeat split; destruct Hc; lra.
  - unfold three_wide_d, L, x, r. cbn [vx vy vz]. rewrite V12, V3, pow_19, pow_30. repeat split; lra.
  - intros i Hi. destruct (C15_membership F64 s r FType i) as [ND M].
    rewrite <- (map_length (@nb_idx F64)). apply Nat.le_trans with (length [2 * (i / 2); 2 * (i / 2) + 1]%nat); [|cbn; lia].
    apply NoDup_incl_length; [exact ND|]. intros j Hj. apply in_map_iff in Hj as (e & <- & He). apply M in He as (_ & El & _ & Hal).
    destruct (link_idx El) as (Hj & _). cbn in Hal. unfold type_at in Hal. change (s_atoms s) with q_atoms in Hal.
    destruct (nth_error q_atoms i) as [a|] eqn:Ea; [|apply nth_error_None in Ea; lia].
    destruct (nth_error q_atoms (nb_idx e)) as [b|] eqn:Eb.
    2:{ exfalso. unfold link in El. change (s_atoms s) with q_atoms in El. rewrite Ea, Eb in El. discriminate. }
    apply q_nth in Ea, Eb. subst a b. cbn in Hal. apply Z.eqb_eq in Hal. apply Nat2Z.inj in Hal.
    change (fst (Nat.divmod i 1 0 1)) with (i / 2)%nat in Hal. change (fst (Nat.divmod (nb_idx e) 1 0 1)) with (nb_idx e / 2)%nat in Hal.
    pose proof (Nat.div_mod (nb_idx e) 2 ltac:(lia)). pose proof (Nat.mod_upper_bound (nb_idx e) 2 ltac:(lia)).
    cbn [In]. lia.
  - change (count_real q_atoms > 2300)%Z. vm_compute. reflexivity.
Qed.
