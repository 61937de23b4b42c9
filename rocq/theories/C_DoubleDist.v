(** Properties C02, C03, C05 and C15 for the doubles that are computed, with
    an error bound. *)
From Coq Require Import ZArith Reals Lra Lia.
From Coq.Floats Require Import SpecFloat.
From Flocq Require Import Core.
From Verif Require Import Base Num NumR NumF Types Ex M_Geometry M_Container M_Neighbors S_Geometry S_Neighbors S_Double S_DoubleDist
  P_Double P_DoubleDist P_Neighbors C_Neighbors.
Open Scope R_scope.

(** ** C02 *)
(** A box of side lengths between 2^-480 and 2^500 is always accepted, and for
    atoms whose coordinates differ by at most the side lengths the distance is a
    finite double, within 2^-50 of the sum of the side lengths of the distance
    of one image and below the distances of all images by the same bound. *)
Theorem C02_double :
  forall (lib : libm) inv (s0 : sys (SF64 lib)) (x y z : SF64 lib),
  s_tri s0 = false -> side x -> side y -> side z ->
  let L := mkV (N := Rnum) (val x) (val y) (val z) in
  exists s, box_set inv s0 (diag (N := SF64 lib) x y z) = Ok s /\
  forall a b : atom (SF64 lib), double3 (a_pos a) -> double3 (a_pos b) ->
  let p := val3 (a_pos a) in let q := val3 (a_pos b) in within L p q ->
  exists d, get_distance s a b false = DistOnly (N := SF64 lib) d /\ double d /\
    (exists i j k, Rabs (val d - image_distance L p q i j k) <= tol L) /\
    (forall i j k, val d <= image_distance L p q i j k + tol L).
Proof.
  intros lib inv s0 x y z HT Sx Sy Sz L. exists (sbox s0 (diag (N := SF64 lib) x y z)). split; [apply box_set_diag_double; assumption|].
  intros a b Ha Hb p q HW. destruct (@distance_bounds lib s0 x y z (a_pos a) (a_pos b) HT Sx Sy Sz Ha Hb HW) as (Dd & _ & _ & _ & _ & E1 & E2).
  eexists. split; [reflexivity|]. auto.
Qed.
Print Assumptions C02_double.

(** ** C03 *)
(** The vector: each component is at most half a side length, exactly, and within
    2^-52 of a side length of the difference of the coordinates plus a multiple
    of the side length; the distance is within the bound of its Euclidean
    length.  The routine that builds neighbours returns the same distance and
    the opposite vector. *)
Theorem C03_double :
  forall (lib : libm) inv (s0 : sys (SF64 lib)) (x y z : SF64 lib),
  s_tri s0 = false -> side x -> side y -> side z ->
  let L := mkV (N := Rnum) (val x) (val y) (val z) in
  exists s, box_set inv s0 (diag (N := SF64 lib) x y z) = Ok s /\
  forall a b : atom (SF64 lib), double3 (a_pos a) -> double3 (a_pos b) ->
  let p := val3 (a_pos a) in let q := val3 (a_pos b) in within L p q ->
  exists d v w, get_distance s a b true = DistVec (N := SF64 lib) d v /\ get_distance s a b false = DistOnly (N := SF64 lib) d /\
    abs_distance_ij s (a_pos a) (a_pos b) = (d, w) /\ double d /\ double3 v /\
    (val (vx w) = - val (vx v) /\ val (vy w) = - val (vy v) /\ val (vz w) = - val (vz v)) /\
    (Rabs (val (vx v)) <= vx L / 2 /\ Rabs (val (vy v)) <= vy L / 2 /\ Rabs (val (vz v)) <= vz L / 2) /\
    (exists i j k, Rabs (val (vx v) - (vx p - vx q + IZR i * vx L)) <= powerRZ 2 (-52) * vx L /\
       Rabs (val (vy v) - (vy p - vy q + IZR j * vy L)) <= powerRZ 2 (-52) * vy L /\
       Rabs (val (vz v) - (vz p - vz q + IZR k * vz L)) <= powerRZ 2 (-52) * vz L) /\
    Rabs (val d - eucl (val (vx v)) (val (vy v)) (val (vz v))) <= tol L.
Proof.
  intros lib inv s0 x y z HT Sx Sy Sz L. exists (sbox s0 (diag (N := SF64 lib) x y z)). split; [apply box_set_diag_double; assumption|].
  set (s := sbox s0 (diag (N := SF64 lib) x y z)).
  intros a b Ha Hb p q HW. destruct (@distance_bounds lib s0 x y z (a_pos a) (a_pos b) HT Sx Sy Sz Ha Hb HW) as (Dd & Dv & Bv & Ev & Nv & _).
  destruct (@distance_opposite lib s0 x y z (a_pos a) (a_pos b) HT Sx Sy Sz Ha Hb) as [E1 E2].
  eexists _, _, _. split; [reflexivity|]. split; [reflexivity|]. split; [exact E1|]. split; [exact Dd|]. split; [exact Dv|]. split; [exact E2|]. split; [exact Bv|]. split; [exact Ev|exact Nv].
Qed.
Print Assumptions C03_double.

(** ** C05 *)
Theorem C05_double :
  forall (lib : libm) inv (s0 s : sys (SF64 lib)) (x y z : SF64 lib) (a b c : atom (SF64 lib)),
  s_tri s0 = false -> side x -> side y -> side z -> box_set inv s0 (diag (N := SF64 lib) x y z) = Ok s ->
  let L := mkV (N := Rnum) (val x) (val y) (val z) in
  double3 (a_pos a) -> double3 (a_pos b) -> double3 (a_pos c) ->
  within L (val3 (a_pos a)) (val3 (a_pos b)) -> within L (val3 (a_pos b)) (val3 (a_pos c)) -> within L (val3 (a_pos a)) (val3 (a_pos c)) ->
  exists dab dbc dac,
    get_distance s a b false = DistOnly (N := SF64 lib) dab /\ get_distance s b c false = DistOnly (N := SF64 lib) dbc /\
    get_distance s a c false = DistOnly (N := SF64 lib) dac /\
    val dac <= val dab + val dbc + 3 * tol L.
Proof.
  intros lib inv s0 s x y z a b c HT Sx Sy Sz HB L Ha Hb Hc Wab Wbc Wac.
  destruct (C02_double lib inv s0 x y z HT Sx Sy Sz) as (s' & E & G). rewrite HB in E. injection E as <-.
  destruct (G a b Ha Hb Wab) as (dab & E1 & _ & (i & j & k & H1) & _). destruct (G b c Hb Hc Wbc) as (dbc & E2 & _ & (i' & j' & k' & H2) & _).
  destruct (G a c Ha Hc Wac) as (dac & E3 & _ & _ & H3). exists dab, dbc, dac. split; [exact E1|]. split; [exact E2|]. split; [exact E3|].
  specialize (H3 (i + i')%Z (j + j')%Z (k + k')%Z). apply Rabs_le_inv in H1, H2.
  assert (T : image_distance L (val3 (a_pos a)) (val3 (a_pos c)) (i + i') (j + j') (k + k') <=
    image_distance L (val3 (a_pos a)) (val3 (a_pos b)) i j k + image_distance L (val3 (a_pos b)) (val3 (a_pos c)) i' j' k').
  { unfold image_distance. eapply Rle_trans; [|apply P_Geometry.eucl_triangle]. right. rewrite !plus_IZR. f_equal; ring. }
  unfold L in *. lra.
Qed.
Print Assumptions C05_double.

(** ** C15 *)
Lemma link_bounds (lib : libm) (s0 : sys (SF64 lib)) (x y z : SF64 lib) (l : list (atom (SF64 lib))) :
  s_tri s0 = false -> side x -> side y -> side z ->
  let L := mkV (N := Rnum) (val x) (val y) (val z) in
  (forall a, In a l -> double3 (a_pos a)) ->
  (forall a b, In a l -> In b l -> within L (val3 (a_pos a)) (val3 (a_pos b))) ->
  let s := set_atoms (sbox s0 (diag (N := SF64 lib) x y z)) l in
  forall i j a b, i <> j -> nth_error l i = Some a -> nth_error l j = Some b ->
  exists e, link s i j = Some e /\ nb_idx e = j /\ double (nb_dist e) /\
    (exists n m k, Rabs (val (nb_dist e) - image_distance L (val3 (a_pos a)) (val3 (a_pos b)) n m k) <= tol L) /\
    (forall n m k, val (nb_dist e) <= image_distance L (val3 (a_pos a)) (val3 (a_pos b)) n m k + tol L).
Proof.
  intros HT Sx Sy Sz L HD HW s i j a b Hij Ha Hb.
  assert (Ia := nth_error_In _ _ Ha). assert (Ib := nth_error_In _ _ Hb).
  unfold link. change (s_atoms s) with l. rewrite Ha, Hb.
  destruct (Nat.ltb_spec i j) as [H|H]; [|destruct (Nat.ltb_spec j i) as [H'|H']; [|lia]].
  - change (abs_distance_ij s) with (abs_distance_ij (sbox s0 (diag (N := SF64 lib) x y z))).
    rewrite (proj1 (@distance_opposite lib s0 x y z (a_pos a) (a_pos b) HT Sx Sy Sz (HD a Ia) (HD b Ib))).
    destruct (@distance_bounds lib s0 x y z (a_pos a) (a_pos b) HT Sx Sy Sz (HD a Ia) (HD b Ib) (HW a b Ia Ib)) as (Dd & _ & _ & _ & _ & E1 & E2).
    eexists. split; [reflexivity|]. cbn [nb_idx nb_dist]. auto.
  - change (abs_distance_ij s) with (abs_distance_ij (sbox s0 (diag (N := SF64 lib) x y z))).
    rewrite (proj1 (@distance_opposite lib s0 x y z (a_pos b) (a_pos a) HT Sx Sy Sz (HD b Ib) (HD a Ia))).
    destruct (@distance_bounds lib s0 x y z (a_pos b) (a_pos a) HT Sx Sy Sz (HD b Ib) (HD a Ia) (HW b a Ib Ia)) as (Dd & _ & _ & _ & _ & (n & m & k & E1) & E2).
    assert (SY : forall n m k, image_distance L (val3 (a_pos b)) (val3 (a_pos a)) n m k = image_distance L (val3 (a_pos a)) (val3 (a_pos b)) (- n) (- m) (- k)).
    { intros n' m' k'. unfold image_distance. rewrite <- P_Geometry.eucl_opp. rewrite !opp_IZR. f_equal; ring. }
    eexists. split; [reflexivity|]. cbn [nb_idx nb_dist]. split; [reflexivity|]. split; [exact Dd|]. split.
    + exists (- n)%Z, (- m)%Z, (- k)%Z. rewrite <- SY. exact E1.
    + intros n' m' k'. specialize (E2 (- n')%Z (- m')%Z (- k')%Z). fold L in E2. rewrite SY, !Z.opp_involutive in E2. exact E2.
Qed.

(** The neighbours found with a cutoff contain every atom with an image closer
    than the cutoff minus the bound, and no atom all of whose images are at the
    cutoff plus the bound or further; the stored distance is within the bound of
    an image distance and below all of them by the bound. *)
Theorem C15_double :
  forall (lib : libm) inv srt voro area_pow inv' (s0 sb : sys (SF64 lib)) (x y z : SF64 lib) (l : list (atom (SF64 lib))) (r t pad : SF64 lib) (nl : Z),
  s_tri s0 = false -> side x -> side y -> side z -> box_set inv s0 (diag (N := SF64 lib) x y z) = Ok sb ->
  let L := mkV (N := Rnum) (val x) (val y) (val z) in
  (forall a, In a l -> double3 (a_pos a)) ->
  (forall a b, In a l -> In b l -> within L (val3 (a_pos a)) (val3 (a_pos b))) ->
  double r -> 0 < val r -> (length l <= 2300)%nat ->
  let s := set_atoms sb l in
  (forall i, (i < length l)%nat -> (length (neighbors_within s r FNone i) <= 300)%nat) ->
  exists s', find_neighbors srt voro area_pow inv' s (mkArgs (N := SF64 lib) (MCutoff (CutVal (N := SF64 lib) r)) FNone t pad nl) = Ok (s', None) /\
  forall i j a b, i <> j -> nth_error l i = Some a -> nth_error l j = Some b ->
    let dist := image_distance L (val3 (a_pos a)) (val3 (a_pos b)) in
    ((exists n m k, dist n m k < val r - tol L) -> In j (map (@nb_idx (SF64 lib)) (nbrs_at s' i))) /\
    (In j (map (@nb_idx (SF64 lib)) (nbrs_at s' i)) -> exists n m k, dist n m k < val r + tol L) /\
    (forall e, In e (nbrs_at s' i) -> nb_idx e = j -> double (nb_dist e) /\
       (exists n m k, Rabs (val (nb_dist e) - dist n m k) <= tol L) /\ (forall n m k, val (nb_dist e) <= dist n m k + tol L)).
Proof.
  intros lib inv srt voro area_pow inv' s0 sb x y z l r t pad nl HT Sx Sy Sz HB L HD HW Hr Hr0 Hl s Hc.
  rewrite box_set_diag_double in HB by assumption. injection HB as HB.
  assert (Rr := rep_double Hr). assert (LT : forall d : SF64 lib, double d -> nltb (n := SF64 lib) d r = true <-> val d < val r).
  { intros d Hd. change (nltb (n := SF64 lib) d r) with (SFltb d r). rewrite (ltb_rep (rep_double Hd) Rr). apply Rltb_true. }
  destruct (C15_cutoff_neighbours (SF64 lib) srt voro area_pow inv' s r t pad nl FNone) as (s' & E & _ & _ & H).
  - reflexivity.
  - change (s_real s) with (count_real l). unfold count_real. assert (length (filter (@is_real (SF64 lib)) l) <= length l)%nat; [|lia].
    clear. induction l as [|a l IH]; cbn [filter length]; [lia|]. destruct (is_real a); cbn [length]; lia.
  - change (SFeqb r (S754_zero false) = false). destruct r as [sr|sr| |sr mr er]; try reflexivity; cbn in Hr0; try lra. destruct sr; reflexivity.
  - exact Hc.
  - exists s'. split; [exact E|]. intros i j a b Hij Ha Hb dist.
    destruct (H i a Ha) as (a' & Ha' & _ & HN & _). assert (EN : nbrs_at s' i = neighbors_within s r FNone i) by (unfold nbrs_at; now rewrite Ha').
    rewrite EN. destruct (link_bounds lib s0 x y z l HT Sx Sy Sz HD HW i j a b Hij Ha Hb) as (e & El & Ej & De & (n & m & k & E1) & E2).
    rewrite HB in El. fold s in El. fold L in E1, E2. fold dist in E1, E2. apply Rabs_le_inv in E1.
    destruct (C15_membership (SF64 lib) s r FNone i) as [_ M]. split; [|split].
    + intros (n' & m' & k' & Hd). apply in_map_iff. exists e. split; [exact Ej|]. apply M. rewrite Ej. split; [exact Hij|]. split; [exact El|]. split; [|reflexivity].
      apply LT; [exact De|]. specialize (E2 n' m' k'). lra.
    + intros Hin. apply in_map_iff in Hin as (e' & He & Hin). apply M in Hin as (_ & El' & Hlt & _). rewrite He, El in El'. injection El' as <-.
      apply LT in Hlt; [|exact De]. exists n, m, k. lra.
    + intros e' Hin He. apply M in Hin as (_ & El' & _). rewrite He, El in El'. injection El' as <-. split; [exact De|]. split; [|exact E2]. exists n, m, k. apply Rabs_le. lra.
Qed.
Print Assumptions C15_double.

(** ** The hypotheses hold *)
Lemma d_val : val (sf_ofZ 10) = 10 /\ val (sf_ofZ 8) = 8 /\ val (sf_ofZ 6) = 6 /\ val (sf_ofZ 1) = 1 /\ val (sf_ofZ 9) = 9.
Proof.
  replace (sf_ofZ 10) with (S754_finite false 5629499534213120 (-49)) by (vm_compute; reflexivity).
  replace (sf_ofZ 8) with (S754_finite false 4503599627370496 (-49)) by (vm_compute; reflexivity).
  replace (sf_ofZ 6) with (S754_finite false 6755399441055744 (-50)) by (vm_compute; reflexivity).
  replace (sf_ofZ 1) with (S754_finite false 4503599627370496 (-52)) by (vm_compute; reflexivity).
  replace (sf_ofZ 9) with (S754_finite false 5066549580791808 (-49)) by (vm_compute; reflexivity).
  unfold val. rewrite !pow_bpow. change (bpow radix2 (-49)) with (/ 562949953421312). change (bpow radix2 (-50)) with (/ 1125899906842624).
  change (bpow radix2 (-52)) with (/ 4503599627370496). repeat split; lra.
Qed.
Definition d_atoms : list (atom F64) := [at_pos (zv F64 1 1 1); at_pos (zv F64 9 1 1); at_pos (zv F64 1 6 6)].
Example C02_double_hyp :
  (side (sf_ofZ 10) /\ side (sf_ofZ 8) /\ side (sf_ofZ 6)) /\
  (forall a, In a d_atoms -> double3 (lib := libm_test) (a_pos a)) /\
  (forall a b, In a d_atoms -> In b d_atoms -> within (mkV (N := Rnum) 10 8 6) (val3 (lib := libm_test) (a_pos a)) (val3 (lib := libm_test) (a_pos b))).
Proof.
  destruct d_val as (V10 & V8 & V6 & V1 & V9).
  assert (SD : forall k v, val (sf_ofZ k) = v -> dbl (sf_ofZ k) -> (exists m e, sf_ofZ k = S754_finite false m e) -> 1 <= v <= 1000 -> side (sf_ofZ k)).
  { intros k v Hv V (m & e & E) Hb. split; [split; [exact V|exists false, m, e; now right]|]. rewrite Hv, !pow_bpow. split.
    - apply Rle_trans with 1; [|lra]. change 1 with (bpow radix2 0). apply bpow_le. lia.
    - apply Rle_trans with 1000; [lra|]. apply Rle_trans with (bpow radix2 10); [change (bpow radix2 10) with 1024; lra|apply bpow_le; lia]. }
  assert (S10 : side (sf_ofZ 10)) by (eapply SD; [exact V10|vm_compute; reflexivity|eexists _, _; vm_compute; reflexivity|lra]).
  assert (S8 : side (sf_ofZ 8)) by (eapply SD; [exact V8|vm_compute; reflexivity|eexists _, _; vm_compute; reflexivity|lra]).
  assert (S6 : side (sf_ofZ 6)) by (eapply SD; [exact V6|vm_compute; reflexivity|eexists _, _; vm_compute; reflexivity|lra]).
  assert (S1 : side (sf_ofZ 1)) by (eapply SD; [exact V1|vm_compute; reflexivity|eexists _, _; vm_compute; reflexivity|lra]).
  assert (S9 : side (sf_ofZ 9)) by (eapply SD; [exact V9|vm_compute; reflexivity|eexists _, _; vm_compute; reflexivity|lra]).
  clear SD. split; [auto|]. split.
  - intros a [<-|[<-|[<-|[]]]]; (split; [|split]); first [exact (proj1 S1)|exact (proj1 S9)|exact (proj1 S6)].
  - assert (W : forall t (v : v3 F64), val3 (lib := libm_test) (a_pos (at_pos v)) = t -> val3 (lib := libm_test) v = t) by auto. clear W.
    assert (A1 : val3 (lib := libm_test) (zv F64 1 1 1) = mkV (N := Rnum) 1 1 1) by (unfold val3, zv; cbn [vx vy vz]; f_equal; assumption).
    assert (A2 : val3 (lib := libm_test) (zv F64 9 1 1) = mkV (N := Rnum) 9 1 1) by (unfold val3, zv; cbn [vx vy vz]; f_equal; assumption).
    assert (A3 : val3 (lib := libm_test) (zv F64 1 6 6) = mkV (N := Rnum) 1 6 6) by (unfold val3, zv; cbn [vx vy vz]; f_equal; assumption).
    intros a b Ha Hb.
    assert (C : forall a, In a d_atoms -> exists p : v3 Rnum, val3 (lib := libm_test) (a_pos a) = p /\ (1 <= vx p <= 9 /\ 1 <= vy p <= 6 /\ 1 <= vz p <= 6)).
    { intros c [<-|[<-|[<-|[]]]]; eexists; (split; [first [exact A1|exact A2|exact A3]|]); cbn [vx vy vz]; lra. }
    destruct (C a Ha) as (p & -> & Hp), (C b Hb) as (q & -> & Hq). unfold within. cbn [vx vy vz]. repeat split; apply Rabs_le; lra.
Qed.
(** The distance across the boundary, exactly 2. *)
Example C02_double_run :
  let s := sbox (sys_ctor (raw_sys F64)) (diag (N := F64) (sf_ofZ 10) (sf_ofZ 8) (sf_ofZ 6)) in
  (abs_distance s (zv F64 1 1 1) (zv F64 9 1 1) : spec_float) = sf_ofZ 2.
Proof. vm_compute. reflexivity. Qed.
