(** C83: the distance searched by the number and adaptive methods is the
    threshold times the mean spacing of the arrangement. *)
From Coq Require Import Reals ZArith List Lia Lra.
From Verif Require Import Base Num NumR NumF NumP Types M_Geometry M_Container M_Neighbors
  S_Geometry S_Container S_Neighbors S_Periodic S_Spacing Ex P_Geometry P_Box P_Container P_Neighbors P_Periodic C_Periodic P_Supercell.
Import ListNotations.
Close Scope R_scope. Close Scope Z_scope.
#[local] Open Scope nat_scope.

Lemma cube_root (x : R) : (0 < x)%R -> (0 < Rcbrt x)%R /\ (Rcbrt x ^ 3 = x)%R.
Proof.
  intros H. unfold Rcbrt. destruct (Rlt_dec 0 x) as [_|C]; [|lra]. split; [apply exp_pos|].
  rewrite <- Rpower_pow by apply exp_pos. rewrite Rpower_mult. replace (/ 3 * INR 3)%R with 1%R by (simpl; field). now apply Rpower_1.
Qed.
Lemma cube_root_neg (x : R) : (x < 0)%R -> (Rcbrt x < 0)%R /\ (Rcbrt x ^ 3 = x)%R.
Proof.
  intros H. destruct (cube_root (- x)%R ltac:(lra)) as [A B].
  assert (E : Rcbrt x = (- Rcbrt (- x))%R).
  { unfold Rcbrt. destruct (Rlt_dec 0 x); [lra|]. destruct (Rlt_dec x 0); [|lra]. destruct (Rlt_dec 0 (- x)); [reflexivity|lra]. }
  rewrite E. split; [lra|]. replace ((- Rcbrt (- x)) ^ 3)%R with (- (Rcbrt (- x) ^ 3))%R by ring. lra.
Qed.

(** Orthogonal boxes: the spacing of the atoms given, whether or not the system
    was padded with copies. *)
Theorem C83_spacing : forall (inv : m3 Rnum -> option (m3 Rnum)) raw (s s1 s2 : sys Rnum) (x y z : R) (l : list (atom Rnum)) (t : R),
  s_tri s = false -> s_actual s = None -> (0 < x /\ 0 < y /\ 0 < z)%R ->
  box_set inv s (diag (N := Rnum) x y z) = Ok s1 -> all_real l -> 1 <= length l -> atoms_set inv raw s1 l = Ok s2 -> (0 < t)%R ->
  spacing (x * y * z) (INR (length l)) (guess_distance (N := Rnum) s2 t / t).
Proof.
  intros inv raw s s1 s2 x y z l t Ht Hac Hpos E1 Hreal Hl E2 T0.
  assert (N0 : (0 < INR (length l))%R) by (apply lt_0_INR; lia).
  assert (V0 : (0 < x * y * z)%R) by (destruct Hpos as (? & ? & ?); repeat apply Rmult_lt_0_compat; auto).
  assert (exists K, (0 <= K)%Z /\ Z.of_nat (length (s_atoms s2)) = ((2 * K + 1) ^ 3 * Z.of_nat (length l))%Z /\ stored s2 /\ s_tri s2 = false /\
    s_len s2 = mkV (N := Rnum) (IZR (2 * K + 1) * x)%R (IZR (2 * K + 1) * y)%R (IZR (2 * K + 1) * z)%R) as (K & K0 & Ln & St & T2 & L2).
  { destruct (Nat.lt_ge_cases (length l) 200) as [B|B].
    - destruct (padded Ht Hac Hpos E1 Hreal (conj Hl B) E2) as (K & W & K1 & Ln & St & _ & T2 & L2 & _). exists K. split; [lia|auto].
    - destruct (embedded Ht Hac Hpos E1 Hreal Hl E2) as (_ & _ & _ & _ & St & _ & T2 & _).
      exists 0%Z. split; [lia|]. rewrite box_set_diag in E1. injection E1 as <-.
      unfold atoms_set in E2. destruct (Z.ltb_spec (Z.of_nat (length l)) 200) as [C|_]; [lia|]. injection E2 as E2.
      split; [rewrite <- E2; cbn [s_atoms set_atoms]; change ((2 * 0 + 1) ^ 3)%Z with 1%Z; rewrite Z.mul_1_l; reflexivity|].
      split; [exact St|]. split; [exact T2|]. rewrite <- E2. change (sbox_len (diag (N := Rnum) x y z) = mkV (N := Rnum) (IZR (2 * 0 + 1) * x)%R (IZR (2 * 0 + 1) * y)%R (IZR (2 * 0 + 1) * z)%R).
      rewrite diag_len by lra. change (2 * 0 + 1)%Z with 1%Z. f_equal; rring. }
  assert (G : guess_distance (N := Rnum) s2 t = (t * Rcbrt (x * y * z / INR (length l)))%R).
  { unfold guess_distance, box_volume. rewrite T2, L2, St, Ln. cbn [vx vy vz].
    change ((t * Rcbrt (IZR (2 * K + 1) * x * (IZR (2 * K + 1) * y) * (IZR (2 * K + 1) * z) / IZR ((2 * K + 1) ^ 3 * Z.of_nat (length l))))%R = (t * Rcbrt (x * y * z / INR (length l)))%R).
    assert (Q : (0 < IZR (2 * K + 1))%R) by (apply IZR_lt; lia).
    replace ((2 * K + 1) ^ 3 * Z.of_nat (length l))%Z with ((2 * K + 1) * (2 * K + 1) * (2 * K + 1) * Z.of_nat (length l))%Z by ring.
    rewrite !mult_IZR, <- INR_IZR_INZ. f_equal. f_equal. field. split; lra. }
  rewrite G. replace (t * Rcbrt (x * y * z / INR (length l)) / t)%R with (Rcbrt (x * y * z / INR (length l)))%R by (field; lra).
  destruct (cube_root (x * y * z / INR (length l))%R) as [A B]; [now apply Rdiv_lt_0_compat|]. split; [exact A|]. rewrite B. field. lra.
Qed.
Print Assumptions C83_spacing.
Example C83_hyp : forall (inv : m3 Rnum -> option (m3 Rnum)) raw mem, exists s1 s2,
  s_tri (sys_ctor mem) = false /\ s_actual (sys_ctor mem) = None /\ box_set inv (sys_ctor mem) (diag (N := Rnum) 1%R 10%R 10%R) = Ok s1 /\
  all_real [thin_atom] /\ atoms_set inv raw s1 [thin_atom] = Ok s2.
Proof.
  intros. destruct (C81_hyp inv raw mem (fun l => l) (fun _ => None) (fun v => v) inv 1%R 1%R 1%Z (3 / 2)%R ltac:(lra)) as (s1 & s2 & s3 & A & B & C & D & _).
  exists s1, s2. split; [exact A|]. split; [exact B|]. split; [exact C|]. split; [exact thin_real|exact D].
Qed.

(** Triclinic boxes: the spacing in right-handed cells only.  In left-handed
    ones the distance is negative. *)
Theorem C83_triclinic : forall (inv : m3 Rnum -> option (m3 Rnum)) (s s1 : sys Rnum) (b : m3 Rnum) (t : R),
  (/ 1000000 < Rabs (cos_sum (N := Rnum) b))%R -> box_set inv s b = Ok s1 -> stored s1 -> s_atoms s1 <> [] -> (0 < t)%R ->
  ((0 < det3 b)%R -> spacing (det3 b) (INR (length (s_atoms s1))) (guess_distance (N := Rnum) s1 t / t)) /\
  ((det3 b < 0)%R -> (guess_distance (N := Rnum) s1 t < 0)%R).
Proof.
  intros inv s s1 b t HC E St NE T0.
  assert (N0 : (0 < INR (length (s_atoms s1)))%R) by (apply lt_0_INR; destruct (s_atoms s1); [congruence|cbn; lia]).
  assert (G : guess_distance (N := Rnum) s1 t = (t * Rcbrt (det3 b / INR (length (s_atoms s1))))%R).
  { unfold guess_distance. rewrite St. change (nofZ (n := Rnum) (Z.of_nat (length (s_atoms s1)))) with (IZR (Z.of_nat (length (s_atoms s1)))). rewrite <- INR_IZR_INZ.
    assert (V : box_volume s1 = det3 b :> R).
    { clear -E HC. unfold box_set in E.
      assert (Q : nltb (n := Rnum) (nlit 1 1000000) (nabs (cos_sum b)) = true).
      { apply Rltb_true. unfold nlit. cbn. replace (1 / 1000000)%R with (/ 1000000)%R by lra. exact HC. }
      rewrite Q in E. destruct (inv (mtrans b)) as [ri|]; [|discriminate]. injection E as <-.
      destruct b as [[a1 a2 a3] [b1 b2 b3] [c1 c2 c3]]. unfold box_volume. cbn. rring. }
    unfold ndiv, nmul, ncbrt. cbn. rewrite V. reflexivity. }
  rewrite G. split; intros D.
  - replace (t * Rcbrt (det3 b / INR (length (s_atoms s1))) / t)%R with (Rcbrt (det3 b / INR (length (s_atoms s1))))%R by (field; lra).
    destruct (cube_root (det3 b / INR (length (s_atoms s1)))%R) as [A B]; [now apply Rdiv_lt_0_compat|]. split; [exact A|]. rewrite B. field. lra.
  - destruct (cube_root_neg (det3 b / INR (length (s_atoms s1)))%R) as [A _].
    { unfold Rdiv. assert (0 < / INR (length (s_atoms s1)))%R by (now apply Rinv_0_lt_compat). nra. }
    nra.
Qed.
Print Assumptions C83_triclinic.

(** A left-handed cell of volume 1: every distance between atoms exceeds the
    distance searched, whatever the atoms and the threshold, so no atom has a
    candidate neighbour. *)
Definition left_cell : m3 Rnum := mkM (mkV (N := Rnum) 1 1 0)%R (mkV (N := Rnum) 1 0 0)%R (mkV (N := Rnum) 0 0 1)%R.
Lemma left_cos : (/ 1000000 < Rabs (cos_sum (N := Rnum) left_cell))%R.
Proof.
  assert (E : (cos_sum (N := Rnum) left_cell = / sqrt 2)%R).
  { unfold cos_sum, left_cell, norm, vdot. cbn.
    replace (0 * 0 + 0 * 0 + 1 * 1)%R with 1%R by ring. replace (1 * 1 + 1 * 1 + 0 * 0)%R with 2%R by ring. replace (1 * 1 + 0 * 0 + 0 * 0)%R with 1%R by ring.
    rewrite sqrt_1. assert (0 < sqrt 2)%R by (apply sqrt_lt_R0; lra). field. lra. }
  rewrite E. assert (0 < sqrt 2)%R by (apply sqrt_lt_R0; lra). assert (sqrt 2 < 2)%R by (pose proof (sqrt_sqrt 2 ltac:(lra)); nra).
  rewrite Rabs_right by (apply Rle_ge, Rlt_le, Rinv_0_lt_compat; lra). apply Rinv_lt_contravar; nra.
Qed.
Lemma link_nonneg (s : sys Rnum) i j e : link s i j = Some e -> (0 <= nb_dist e)%R.
Proof.
  unfold link. destruct (nth_error (s_atoms s) i); [|discriminate]. destruct (nth_error (s_atoms s) j); [|discriminate].
  unfold abs_distance_ij. destruct (i <? j); [|destruct (j <? i); [|discriminate]]; intros [= <-]; apply sqrt_pos.
Qed.
Theorem C83_left_handed_refuted : exists b, Rabs (det3 b) = 1%R /\
  forall (inv : m3 Rnum -> option (m3 Rnum)) (s s1 : sys Rnum) (t : R),
  box_set inv s b = Ok s1 -> stored s1 -> s_atoms s1 <> [] -> (0 < t)%R ->
  ~ spacing 1 (INR (length (s_atoms s1))) (guess_distance (N := Rnum) s1 t / t) /\
  forall i j e, link s1 i j = Some e -> (guess_distance (N := Rnum) s1 t < nb_dist e)%R.
Proof.
  exists left_cell. assert (D : det3 left_cell = (-1)%R) by (unfold det3, left_cell; cbn; lra). split; [rewrite D; rewrite Rabs_left; lra|].
  intros inv s s1 t E St NE T0. destruct (C83_triclinic inv s s1 left_cell t left_cos E St NE T0) as (_ & G). specialize (G ltac:(lra)). split.
  - intros (A & _). assert (0 < / t)%R by (now apply Rinv_0_lt_compat). unfold Rdiv in A. nra.
  - intros i j e L. apply link_nonneg in L. lra.
Qed.
Print Assumptions C83_left_handed_refuted.
Definition unit_inverse : m3 Rnum := mkM (mkV (N := Rnum) 0 1 0)%R (mkV (N := Rnum) 1 (-1) 0)%R (mkV (N := Rnum) 0 0 1)%R.
Example C83_left_hyp : forall mem, exists s1, box_set (N := Rnum) (fun _ => Some unit_inverse) (set_atoms (sys_ctor mem) [thin_atom; thin_atom]) left_cell = Ok s1 /\
  stored s1 /\ s_atoms s1 <> [].
Proof.
  intros mem. unfold box_set. assert (Q : nltb (n := Rnum) (nlit 1 1000000) (nabs (cos_sum left_cell)) = true).
  { apply Rltb_true. unfold nlit. cbn. replace (1 / 1000000)%R with (/ 1000000)%R by lra. exact left_cos. }
  rewrite Q. eexists. split; [reflexivity|]. split; [reflexivity|]. discriminate.
Qed.
