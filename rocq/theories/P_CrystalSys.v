(** Perfect cubic crystals assigned to a System, and their neighbour lists. *)
From Coq Require Import Reals Lra ZArith List Lia String Permutation Bool.
From Verif Require Import Base Num NumR Types M_Geometry M_Container M_Neighbors M_Crystal S_Geometry S_Container S_Neighbors S_Crystal
  P_Geometry P_Container P_Box P_Neighbors P_FindN P_Centro P_Crystal P_Coord P_Perfect Ex.
From Verif Require Import C_Neighbors.
Import ListNotations.
Set Implicit Arguments.
Close Scope R_scope.

Lemma diag_shift (x y z : R) i j k (p q : v3 Rnum) : displaced (diag (N := Rnum) x y z) i j k p q ->
  (vx q = vx p + IZR i * x /\ vy q = vy p + IZR j * y /\ vz q = vz p + IZR k * z)%R.
Proof.
  unfold displaced, diag; cbn [r0 r1 r2 vx vy vz]. rnum. intros (-> & -> & ->). repeat split; ring.
Qed.
Lemma scale_diag (x y z : R) rr : scale_box (diag (N := Rnum) x y z) (rr, rr, rr) =
  diag (N := Rnum) (IZR (2 * rr + 1) * x)%R (IZR (2 * rr + 1) * y)%R (IZR (2 * rr + 1) * z)%R.
Proof. unfold scale_box, vscale, diag; cbn [r0 r1 r2 vx vy vz]. rnum. rewrite !Rmult_0_r. reflexivity. Qed.

Section Sys.
Variables (hs : list B3) (memb : B3 -> bool) (S : list Z3) (m1 m2 : Z).
Hypothesis NDh : NoDup hs.
Hypothesis Hmem : forall b, In b hs <-> memb b = true.
Hypothesis Hgrp : forall x d, memb x = true -> memb (xor3 x d) = memb d.
Hypothesis NDS : NoDup S.
Hypothesis HS1 : forall d, memb (odd3 d) = true -> d <> (0, 0, 0)%Z -> (sq3 d < m2)%Z -> In d S.
Hypothesis HS3 : forall d, In d S -> memb (odd3 d) = true /\ (sq3 d <= m1)%Z /\ d <> (0, 0, 0)%Z /\
  let '(a, b, c) := d in (-2 <= a <= 2 /\ -2 <= b <= 2 /\ -2 <= c <= 2)%Z.
Variables (name : string) (bs : list (Z * (R * R * R))).
Hypothesis HB : In (name, bs) basis.
Hypothesis Hhs : map snd bs = map half3 hs.
Variables (a ca noise r : R) (nx ny nz : Z) (rest : list Z).
Hypothesis Hcell : cell_sides name a ca = (a, a, a).
Hypothesis Hnoise : (noise <= 0)%R.
Hypothesis Ha : (0 < a)%R.
Hypothesis Hn : (3 <= nx /\ 3 <= ny /\ 3 <= nz)%Z.
Hypothesis Hr : (0 < r)%R.
Hypothesis Hr1 : (IZR m1 * (a / 2 * (a / 2)) < r * r)%R.
Hypothesis Hr2 : (r * r <= IZR m2 * (a / 2 * (a / 2)))%R.
Notation cx := (Z.to_nat nx). Notation cy := (Z.to_nat ny). Notation cz := (Z.to_nat nz).
Notation nb := (List.length hs).
Notation count := (count0 hs cx cy cz).
Notation X0 := (X0 hs cy cz).
Definition the_box : m3 Rnum := diag (N := Rnum) (IZR nx * a)%R (IZR ny * a)%R (IZR nz * a)%R.

Lemma Hn3 : 3 <= cx /\ 3 <= cy /\ 3 <= cz.
Proof. lia. Qed.
Lemma nb_bs : List.length bs = nb.
Proof. rewrite <- (map_length snd bs), Hhs. apply map_length. Qed.
Lemma site_pt i j k b : site name a ca i j k (half3 b) = pt (a / 2) (plus3 (2 * Z.of_nat i, 2 * Z.of_nat j, 2 * Z.of_nat k)%Z (z3 b)).
Proof.
  unfold site. rewrite Hcell. destruct b as [[b1 b2] b3]. cbn [half3 z3 plus3 pt].
  assert (E : forall i b, ((INR i + half b) * a = IZR (2 * Z.of_nat i + Z.b2z b) * (a / 2))%R).
  { intros i0 b0. rewrite plus_IZR, mult_IZR, <- INR_IZR_INZ. destruct b0; cbn [Z.b2z half]; lra. }
  apply v3_eq; apply E.
Qed.
Lemma crystal_points raw normal : exists atoms,
  make_crystal raw normal name (a : Rnum) (Some (nx :: ny :: nz :: rest)) (ca : Rnum) (noise : Rnum) = Ok (atoms, the_box) /\
  List.length atoms = count /\ all_real atoms /\ forall m, m < count -> exists x, nth_error atoms m = Some x /\ a_pos x = pt (a / 2) (X0 m).
Proof.
  destruct (@lattice_run raw normal name bs a ca noise nx ny nz rest HB Hnoise) as (atoms & E & L & H). rewrite Hcell in E. rewrite nb_bs in *.
  fold (count0 hs cx cy cz) in L. exists atoms. split; [exact E|]. split; [exact L|].
  assert (G : forall m, m < count -> exists x, nth_error atoms m = Some x /\ a_pos x = pt (a / 2) (X0 m) /\ a_ghost x = 0%Z).
  { intros m Hm. destruct (@X0_cases hs cx cy cz Hn3 m Hm) as (i & j & k & l & b & Hi & Hj & Hk & Hl & -> & EX).
    assert (Hl' : exists t, nth_error bs l = Some (t, half3 b)).
    { assert (Q : nth_error (map snd bs) l = Some (half3 b)) by (rewrite Hhs, nth_error_map, Hl; reflexivity).
      rewrite nth_error_map in Q. destruct (nth_error bs l) as [[t f]|]; [|discriminate]. injection Q as ->. eauto. }
    destruct Hl' as [t Hl']. destruct (H i j k l t _ Hi Hj Hk Hl') as (x & Ex & _ & Px & Gx). exists x. split; [exact Ex|]. split; [|exact Gx].
    rewrite Px, EX. apply site_pt. }
  split.
  - intros x Hx. apply In_nth_error in Hx. destruct Hx as [m Hm]. destruct (G m) as (x' & E' & _ & G'); [rewrite <- L; apply nth_error_Some; congruence|]. congruence.
  - intros m Hm. destruct (G m Hm) as (x & ? & ? & _). eauto.
Qed.

Lemma pt_t0 : pt (a / 2) (t0 cx cy cz) = mkV (N := Rnum) (IZR nx * a)%R (IZR ny * a)%R (IZR nz * a)%R.
Proof. unfold t0, pt. apply v3_eq; rewrite Z2Nat.id by lia; rewrite mult_IZR; field. Qed.
Lemma sides_pos : (0 < IZR nx * a /\ 0 < IZR ny * a /\ 0 < IZR nz * a)%R.
Proof. destruct Hn as (H1 & H2 & H3). apply IZR_le in H1, H2, H3. repeat split; apply Rmult_lt_0_compat; lra. Qed.

(** The system after assigning the box and the atoms, as a supercell. *)
Lemma assigned raw' inv s0 atoms : s_tri s0 = false -> s_actual s0 = None -> List.length atoms = count -> all_real atoms ->
  (forall m, m < count -> exists x, nth_error atoms m = Some x /\ a_pos x = pt (a / 2) (X0 m)) ->
  exists s2 rr (keys : list key), atoms_set inv raw' (sbox s0 the_box) atoms = Ok s2 /\ stored s2 /\ s_real s2 = Z.of_nat count /\
    (0 <= rr)%Z /\ NoDup keys /\ (rr = 0%Z \/ count < 200) /\
    (forall i j k m, In ((i, j, k), m) keys <-> (- rr <= i <= rr /\ - rr <= j <= rr /\ - rr <= k <= rr)%Z /\ m < count) /\
    Forall2 (fun (q : key) (x : atom Rnum) => a_pos x = pt (a / 2) (plus3 (X0 (snd q)) (shift3 cx cy cz (fst q)))) keys (s_atoms s2) /\
    ortho s2 /\ s_len s2 = pt (a / 2) (t1 cx cy cz rr).
Proof.
  intros Ht0 Hac HLen Hreal Hpos. pose proof sides_pos as SP.
  assert (Hnil : atoms <> []).
  { intros ->. cbn in HLen. unfold count0 in HLen. pose proof nb_bs as Q. destruct bs as [|p bs0]; [destruct (basis_nonempty HB); reflexivity|]. cbn in Q. nia. }
  set (k0 := map (fun m => ((0, 0, 0)%Z, m) : key) (seq 0 count)).
  assert (ND0 : NoDup k0). { apply FinFun.Injective_map_NoDup; [intros x y; congruence|apply seq_NoDup]. }
  assert (F0 : Forall2 (fun (q : key) (x : atom Rnum) => a_pos x = pt (a / 2) (plus3 (X0 (snd q)) (shift3 cx cy cz (fst q)))) k0 atoms).
  { assert (Q : forall (l : list (atom Rnum)) m0, (forall m x, nth_error l m = Some x -> a_pos x = pt (a / 2) (X0 (m0 + m))) ->
      Forall2 (fun (q : key) (x : atom Rnum) => a_pos x = pt (a / 2) (plus3 (X0 (snd q)) (shift3 cx cy cz (fst q)))) (map (fun m => ((0, 0, 0)%Z, m) : key) (seq m0 (List.length l))) l).
    { clear. induction l as [|x l IH]; intros m0 H; cbn [List.length seq map]; constructor.
      - cbn [fst snd]. rewrite (H 0 x eq_refl), Nat.add_0_r. f_equal. destruct (X0 m0) as [[x1 x2] x3]. unfold shift3, t0. cbn [plus3]. f_equal; [f_equal|]; lia.
      - apply IH. intros m y Hy. rewrite (H (Datatypes.S m) y Hy). do 2 f_equal. lia. }
    unfold k0. rewrite <- HLen. apply Q. intros m x Hx. destruct (Hpos m) as (x' & E & Px); [rewrite <- HLen; apply nth_error_Some; congruence|]. rewrite Hx in E. injection E as <-. exact Px. }
  assert (BG : box_get (sbox s0 the_box) = the_box) by (unfold box_get; cbn; rewrite Hac; reflexivity).
  unfold atoms_set. rewrite BG, HLen.
  destruct (Z.ltb_spec (Z.of_nat count) 200) as [H200|H200].
  - assert (C0 : Z.eqb (Z.of_nat count) 0 = false). { apply Z.eqb_neq. intros Z0. destruct atoms; [congruence|]. cbn in HLen. lia. }
    rewrite C0. assert (B0 : neqb (box_sum the_box) n0 = false).
    { unfold the_box, box_sum, diag; cbn [r0 r1 r2 vx vy vz]; rnum. apply Reqb_false. lra. }
    rewrite B0. set (rr := small_reps (Z.of_nat count)).
    assert (Hrr : (1 <= rr)%Z). { apply small_reps_enough. apply Z.eqb_neq in C0. lia. }
    destruct (repeat_cell inv raw' (sbox s0 the_box) (rr, rr, rr) (Some atoms) true true) as [[s1 l1]|e] eqn:R.
    2:{ exfalso. unfold repeat_cell in R. cbn [bind] in R. rewrite BG in R. unfold the_box in R. rewrite scale_diag in R.
        rewrite box_set_diag in R. discriminate. }
    destruct (repeat_spec R) as (l0 & new & El0 & -> & C & Ln & _ & _ & _). subst l0. rewrite BG in C.
    assert (Sx : exists s1', s1 = (sbox (sbox s0 the_box <| s_actual := Some the_box |>) (scale_box the_box (rr, rr, rr))) <| s_ghosts_created := true |> /\ s1' = s1).
    { exists s1. split; [|reflexivity]. unfold repeat_cell in R. cbn [bind] in R. rewrite BG in R. unfold the_box in R |- *. rewrite scale_diag in R |- *.
      rewrite box_set_diag in R. cbn [bind] in R. injection R as R _. symmetry. exact R. }
    destruct Sx as (_ & Es1 & _). cbn [bind].
    destruct C as (keys & NDk & Ik & Fk & _).
    exists (set_atoms s1 (atoms ++ new)), rr, (k0 ++ keys). split; [reflexivity|].
    split; [reflexivity|].
    assert (Hg : forall x, In x new -> a_ghost x <> 0%Z).
    { intros x Hx. assert (G : exists k, copy_rel the_box atoms 1 k x).
      { clear -Fk Hx. induction Fk as [|k g ks gs Hk F IH]; [contradiction|]. destruct Hx as [->|Hx]; [exists k; assumption|auto]. }
      destruct G as [[[[i j] k] m] [a' [_ [_ [_ G]]]]]. rewrite G. discriminate. }
    split; [|split; [lia|]].
    { destruct (count_real_split Hreal Hg) as [K1 _]. rewrite HLen in K1. exact K1. }
    split; [|split; [right; lia|split; [|split; [|split]]]].
    + apply NoDup_app_intro; auto. intros [[[i j] k] m] I1 I2. unfold k0 in I1. apply in_map_iff in I1. destruct I1 as (m' & E & _). injection E as <- <- <- _.
      apply Ik in I2. destruct I2 as (_ & _ & _ & Z0 & _). congruence.
    + intros i j k m. rewrite in_app_iff, (Ik ((i, j, k), m)). unfold k0, shift_ok. rewrite in_map_iff, HLen. split.
      * intros [(m' & E & I)|(B1 & B2 & B3 & _ & B4)]; [|tauto]. injection E as <- <- <- <-. apply in_seq in I. lia.
      * intros ((B1 & B2 & B3) & B4). destruct (Z.eq_dec i 0) as [->|]; [destruct (Z.eq_dec j 0) as [->|]; [destruct (Z.eq_dec k 0) as [->|]|]|].
        { left. exists m. split; [reflexivity|]. apply in_seq. lia. }
        all: right; repeat split; auto; try lia; congruence.
    + change (s_atoms (set_atoms s1 (atoms ++ new))) with (atoms ++ new). apply Forall2_app; [exact F0|]. eapply Forall2_impl; [|exact Fk]. intros [[[i j] k] m] x (y & Ey & D & _). cbn [fst snd].
      destruct (Hpos m) as (y' & Ey' & Py); [rewrite <- HLen; apply nth_error_Some; congruence|]. rewrite Ey in Ey'. injection Ey' as <-.
      apply diag_shift in D. rewrite Py in D. destruct (X0 m) as [[x1 x2] x3], (a_pos x) as [p1 p2 p3]. unfold shift3, t0, pt in *. cbn [plus3 vx vy vz] in *.
      destruct D as (-> & -> & ->). rewrite !Z2Nat.id by lia. apply v3_eq; rewrite plus_IZR, !mult_IZR; field.
    + rewrite Es1. unfold the_box. rewrite scale_diag. destruct Hn as (H1 & H2 & H3). apply IZR_le in H1, H2, H3.
      assert (R0 : (1 <= IZR (2 * rr + 1))%R) by (apply (IZR_le 1); lia).
      pose proof (@sbox_diag_ortho (sbox s0 the_box <| s_actual := Some the_box |>) (IZR (2 * rr + 1) * (IZR nx * a))%R (IZR (2 * rr + 1) * (IZR ny * a))%R (IZR (2 * rr + 1) * (IZR nz * a))%R) as Q.
      apply Q; [exact Ht0| | |]; apply Rmult_lt_0_compat; lra.
    + rewrite Es1. unfold the_box. rewrite scale_diag. 
      assert (R0 : (1 <= IZR (2 * rr + 1))%R) by (apply (IZR_le 1); lia).
      etransitivity; [apply (@diag_len (IZR (2 * rr + 1) * (IZR nx * a))%R (IZR (2 * rr + 1) * (IZR ny * a))%R (IZR (2 * rr + 1) * (IZR nz * a))%R); apply Rmult_le_pos; lra|].
      unfold t1, t0, pt. rewrite !Z2Nat.id by lia. apply v3_eq; rewrite !(mult_IZR (2 * rr + 1)), (mult_IZR 2); field.
  - exists (set_atoms (sbox s0 the_box) atoms), 0%Z, k0. split; [reflexivity|]. split; [reflexivity|].
    assert (Hg : forall x, In x (@nil (atom Rnum)) -> a_ghost x <> 0%Z) by (intros x []).
    split; [destruct (count_real_split Hreal Hg) as [K1 _]; rewrite app_nil_r, HLen in K1; exact K1|].
    split; [lia|]. split; [exact ND0|]. split; [now left|]. split; [|split; [exact F0|split]].
    + intros i j k m. unfold k0. rewrite in_map_iff. split.
      * intros (m' & E & I). injection E as <- <- <- <-. apply in_seq in I. lia.
      * intros (B & Hm). exists m. split; [|apply in_seq; lia]. f_equal. f_equal; [f_equal|]; lia.
    + apply sbox_diag_ortho; [exact Ht0|apply SP..].
    + etransitivity; [apply (@diag_len (IZR nx * a)%R (IZR ny * a)%R (IZR nz * a)%R); apply Rlt_le, SP|].
      unfold t1, t0, pt. rewrite !Z2Nat.id by lia. apply v3_eq; rewrite !(mult_IZR (2 * 0 + 1)), (mult_IZR 2); cbn [Z.mul Z.add]; field.
Qed.

Hypothesis Hcap : List.length S <= 300.
Hypothesis Hsize : (Z.of_nat count <= 2300)%Z \/
  (1 / 1000000 <= r /\ 3 * r <= IZR nx * a /\ 3 * r <= IZR ny * a /\ 3 * r <= IZR nz * a)%R.

Theorem crystal_coordination raw normal raw' inv s0 srt voro area_pow inv' t pad nl : s_tri s0 = false -> s_actual s0 = None ->
  exists atoms box s1 s2 s3,
    make_crystal raw normal name (a : Rnum) (Some (nx :: ny :: nz :: rest)) (ca : Rnum) (noise : Rnum) = Ok (atoms, box) /\
    box_set inv s0 box = Ok s1 /\ atoms_set inv raw' s1 atoms = Ok s2 /\
    find_neighbors srt voro area_pow inv' s2 (mkArgs (N := Rnum) (MCutoff (CutVal (N := Rnum) r)) FNone t pad nl) = Ok (s3, None) /\
    (Z.to_nat (s_real s2)) = count /\ count <= List.length (s_atoms s2) /\
    forall i, i < List.length (s_atoms s2) -> List.length (nbrs_at s3 i) = List.length S.
Proof.
  intros Ht0 Hac. destruct (crystal_points raw normal) as (atoms & E & L & Re & Pp).
  destruct (@assigned raw' inv s0 atoms Ht0 Hac L Re Pp) as (s2 & rr & keys & E2 & St & Sr & Hrr & NDk & H200 & Ik & Fk & Ho & HL).
  assert (Hn' : 3 <= cx /\ 3 <= cy /\ 3 <= cz) by lia.
  assert (W : forall i, i < List.length (s_atoms s2) -> List.length (neighbors_within s2 r FNone i) = List.length S).
  { intros i. eapply (@perfect_coordination hs memb S m1 m2 NDh Hmem Hgrp cx cy cz Hn' s2 a r rr keys); eauto. }
  assert (Cap : forall i, i < List.length (s_atoms s2) -> List.length (neighbors_within s2 r FNone i) <= 300) by (intros i Hi; rewrite W; auto).
  assert (Len : count <= List.length (s_atoms s2)).
  { destruct (atoms_set_spec Re E2) as (g & -> & _). rewrite app_length, L. lia. }
  exists atoms, the_box, (sbox s0 the_box), s2.
  destruct (Z_le_gt_dec (Z.of_nat count) 2300) as [Small|Large].
  - assert (Hr0 : neqb (n := Rnum) r n0 = false) by (apply Reqb_false; change (r <> 0%R); lra).
    destruct (C15_cutoff_neighbours Rnum srt voro area_pow inv' s2 r t pad nl FNone St ltac:(lia) Hr0 Cap) as (s3 & E3 & _ & L3 & H3).
    exists s3. split; [exact E|]. split; [apply box_set_diag|]. split; [exact E2|]. split; [exact E3|]. split; [lia|]. split; [exact Len|].
    intros i Hi. destruct (nth_error (s_atoms s2) i) as [x|] eqn:Ex; [|apply nth_error_None in Ex; lia].
    destruct (H3 i x Ex) as (x' & Ex' & _ & Nx & _). unfold nbrs_at. rewrite Ex', Nx. now apply W.
  - destruct Hsize as [?|(Hr6 & W1 & W2 & W3)]; [lia|].
    destruct H200 as [->|?]; [|lia].
    assert (HL' : s_len s2 = mkV (N := Rnum) (IZR nx * a)%R (IZR ny * a)%R (IZR nz * a)%R).
    { rewrite HL, <- pt_t0. unfold t1, t0. f_equal. f_equal; [f_equal|]; lia. }
    assert (CO : cells_ok s2 r).
    { split; [split; [exact Ho|]; rewrite HL'; cbn [vx vy vz]; auto|].
      intros x Hx. apply In_nth_error in Hx. destruct Hx as [m Hm].
      assert (Lm : m < List.length keys) by (rewrite (P_FindN.Forall2_length' Fk); apply nth_error_Some; congruence).
      destruct (nth_error keys m) as [[[[i j] k] m0]|] eqn:Ek; [|apply nth_error_None in Ek; lia].
      destruct (Forall2_nth_l Fk Ek) as (x' & Ex' & Px). rewrite Hm in Ex'. injection Ex' as <-. cbn [fst snd] in Px.
      apply nth_error_In in Ek. apply Ik in Ek. destruct Ek as (B & Hm0). assert (i = 0 /\ j = 0 /\ k = 0)%Z as (-> & -> & ->) by lia.
      pose proof (@X0_range hs cx cy cz Hn3 m0 Hm0) as Rg. rewrite HL', Px. destruct (X0 m0) as [[x1 x2] x3]. unfold shift3, t0, pt in *. cbn [plus3 vx vy vz]. rewrite !Z2Nat.id in * by lia.
      assert (Q : forall x n, (0 <= x < 2 * n)%Z -> coord_ok (IZR n * a) (IZR (x + 0 * (2 * n)) * (a / 2))).
      { clear -Ha. intros x n [H1 H2]. rewrite Z.mul_0_l, Z.add_0_r. apply IZR_le in H1. apply IZR_lt in H2. rewrite mult_IZR in H2. unfold coord_ok. split; [split; nra|]. intros [_ K]. nra. }
      split; [|split]; apply Q; lia. }
    destruct (C18_find_neighbors_any_size srt voro area_pow inv' s2 r t pad nl FNone St CO Cap) as (s3 & E3 & H3).
    exists s3. split; [exact E|]. split; [apply box_set_diag|]. split; [exact E2|]. split; [exact E3|]. split; [lia|]. split; [exact Len|].
    intros i Hi. rewrite (Permutation_length (H3 i Hi)). now apply W.
Qed.
End Sys.
