(** Proofs about distances over the reals. *)
From Coq Require Import Reals ZArith Lra Lia Psatz.
From Verif Require Import Base Num NumR Types M_Geometry S_Geometry.
Open Scope R_scope.
Ltac rring := rnum; ring.
Ltac rlra := rnum; lra.

(** ** One coordinate *)

Lemma wrap1_cases (L d : R) :
  (L / 2 < d /\ (d - L < - L / 2 /\ wrap1 (N:=Rnum) L d = d
              \/ - L / 2 <= d - L /\ wrap1 (N:=Rnum) L d = d - L)) \/
  (d <= L / 2 /\ (d < - L / 2 /\ wrap1 (N:=Rnum) L d = d + L
              \/ - L / 2 <= d /\ wrap1 (N:=Rnum) L d = d)).
Proof.
  unfold wrap1; rnum. unfold Rltb.
  destruct (Rlt_dec (L / 2) d) as [H|H].
  - left. split; [assumption|]. destruct (Rlt_dec (d - L) (- L / 2)); [left|right]; split; lra.
  - right. split; [lra|]. destruct (Rlt_dec d (- L / 2)); [left|right]; split; lra.
Qed.

Lemma wrap1_opp (L d : R) : 0 <= L -> wrap1 (N:=Rnum) L (- d) = - wrap1 (N:=Rnum) L d.
Proof.
  intros HL. destruct (wrap1_cases L d) as [[H [[H1 E]|[H1 E]]]|[H [[H1 E]|[H1 E]]]];
  destruct (wrap1_cases L (-d)) as [[G [[G1 F]|[G1 F]]]|[G [[G1 F]|[G1 F]]]];
  rewrite E, F; lra.
Qed.

Lemma wrap1_0 (L : R) : 0 <= L -> wrap1 (N:=Rnum) L 0 = 0.
Proof.
  intros HL. destruct (wrap1_cases L 0) as [[H [[H1 E]|[H1 E]]]|[H [[H1 E]|[H1 E]]]]; rewrite E; lra.
Qed.

(** The wrapped value is a representative modulo L ... *)
Lemma wrap1_congr (L d : R) : exists k : Z, (-1 <= k <= 1)%Z /\ wrap1 (N:=Rnum) L d = d + IZR k * L.
Proof.
  destruct (wrap1_cases L d) as [[H [[H1 E]|[H1 E]]]|[H [[H1 E]|[H1 E]]]]; rewrite E.
  - exists 0%Z. split; [lia|]. simpl; lra.
  - exists (-1)%Z. split; [lia|]. simpl; lra.
  - exists 1%Z. split; [lia|]. simpl; lra.
  - exists 0%Z. split; [lia|]. simpl; lra.
Qed.

(** ... of magnitude at most L/2 if |d| <= 3L/2. *)
Lemma wrap1_bound (L d : R) : 0 <= L -> Rabs d <= 3 / 2 * L -> Rabs (wrap1 (N:=Rnum) L d) <= L / 2.
Proof.
  intros HL Hd.
  assert (Hd' : - (3/2*L) <= d <= 3/2*L) by (revert Hd; unfold Rabs; destruct (Rcase_abs d); lra).
  destruct (wrap1_cases L d) as [[H [[H1 E]|[H1 E]]]|[H [[H1 E]|[H1 E]]]]; rewrite E;
  unfold Rabs; destruct (Rcase_abs _); lra.
Qed.

(** Minimality of the wrapped value among all representatives. *)
Lemma wrap1_min (L d : R) (n : Z) :
  0 <= L -> Rabs d <= 3 / 2 * L -> Rabs (wrap1 (N:=Rnum) L d) <= Rabs (d + IZR n * L).
Proof.
  intros HL Hd. pose proof (wrap1_bound _ _ HL Hd) as Hb.
  destruct (wrap1_congr L d) as [k [_ Ek]].
  replace (d + IZR n * L) with (wrap1 (N:=Rnum) L d + IZR (n - k) * L)
    by (rewrite Ek, minus_IZR; rring ).
  set (w := wrap1 (N:=Rnum) L d) in *. clearbody w.
  destruct (Z.eq_dec (n - k) 0) as [E|E]; [rewrite E; simpl; right; f_equal; rring |].
  assert (Hm : IZR (n - k) <= -1 \/ 1 <= IZR (n - k)).
  { destruct (Z_lt_le_dec (n - k) 0) as [G|G].
    - left. apply IZR_le. lia.
    - right. apply IZR_le. lia. }
  assert (Hb' : - (L/2) <= w <= L/2) by (revert Hb; unfold Rabs; destruct (Rcase_abs w); lra).
  destruct Hm as [Hm|Hm].
  - assert (IZR (n - k) * L <= - L) by nra.
    unfold Rabs at 2. destruct (Rcase_abs (w + IZR (n-k) * L)); lra.
  - assert (L <= IZR (n - k) * L) by nra.
    unfold Rabs at 2. destruct (Rcase_abs (w + IZR (n-k) * L)); lra.
Qed.

(** ** Vectors *)

Lemma norm_eucl (d : v3 Rnum) : norm d = eucl (vx d) (vy d) (vz d).
Proof. unfold norm, eucl, len2; rnum. f_equal; rring . Qed.

Lemma len2_nonneg x y z : 0 <= len2 x y z.
Proof. unfold len2. nra. Qed.

Lemma eucl_nonneg x y z : 0 <= eucl x y z.
Proof. apply sqrt_pos. Qed.

Lemma eucl_sqr x y z : eucl x y z * eucl x y z = len2 x y z.
Proof. apply sqrt_sqrt, len2_nonneg. Qed.

Lemma eucl_opp x y z : eucl (- x) (- y) (- z) = eucl x y z.
Proof. unfold eucl, len2. f_equal. rring . Qed.

Lemma eucl_mono x y z x' y' z' :
  Rabs x <= Rabs x' -> Rabs y <= Rabs y' -> Rabs z <= Rabs z' ->
  eucl x y z <= eucl x' y' z'.
Proof.
  intros Hx Hy Hz. unfold eucl. apply sqrt_le_1_alt. unfold len2.
  assert (Hsq : forall a b, Rabs a <= Rabs b -> a ^ 2 <= b ^ 2).
  { intros a b H. rewrite <- (pow2_abs a), <- (pow2_abs b).
    pose proof (Rabs_pos a). nra. }
  pose proof (Hsq _ _ Hx). pose proof (Hsq _ _ Hy). pose proof (Hsq _ _ Hz). lra.
Qed.

Lemma eucl_triangle x y z x' y' z' :
  eucl (x + x') (y + y') (z + z') <= eucl x y z + eucl x' y' z'.
Proof.
  pose proof (eucl_nonneg x y z) as H1. pose proof (eucl_nonneg x' y' z') as H2.
  pose proof (eucl_sqr x y z) as E1. pose proof (eucl_sqr x' y' z') as E2.
  set (u := eucl x y z) in *. set (v := eucl x' y' z') in *. clearbody u v.
  apply Rsqr_incr_0_var; [|lra].
  unfold Rsqr. rewrite eucl_sqr.
  assert (CS : (x*x' + y*y' + z*z') ^ 2 <= (u*v) ^ 2).
  { replace ((u*v)^2) with (len2 x y z * len2 x' y' z') by (rewrite <- E1, <- E2; rring ).
    unfold len2.
    pose proof (pow2_ge_0 (x*y'-y*x')). pose proof (pow2_ge_0 (y*z'-z*y')).
    pose proof (pow2_ge_0 (z*x'-x*z')). lra. }
  assert (Hd : x*x' + y*y' + z*z' <= u * v).
  { assert (0 <= u * v) by nra. nra. }
  unfold len2 in *. lra.
Qed.

Lemma eucl_0 x y z : eucl x y z = 0 -> x = 0 /\ y = 0 /\ z = 0.
Proof.
  intros H. pose proof (eucl_sqr x y z) as E. rewrite H in E. unfold len2 in E.
  repeat split; nra.
Qed.

Lemma wrap_opp (L d : v3 Rnum) : nonneg3 L -> wrap L (vopp d) = vopp (wrap L d).
Proof.
  intros [H1 [H2 H3]]. unfold wrap, vopp; cbn [vx vy vz]; rnum.
  rewrite !wrap1_opp by assumption. reflexivity.
Qed.

Lemma mvmul_opp (m : m3 Rnum) (d : v3 Rnum) : mvmul m (vopp d) = vopp (mvmul m d).
Proof. unfold mvmul, vopp, vdot; cbn [vx vy vz]; rnum. f_equal; rring . Qed.

Lemma pbc_diff_opp (s : sys Rnum) (d : v3 Rnum) :
  nonneg3 (s_len s) -> pbc_diff s (vopp d) = vopp (pbc_diff s d).
Proof.
  intros HL. unfold pbc_diff. destruct (s_tri s).
  - rewrite mvmul_opp. set (a := mvmul (s_rotinv s) d). clearbody a.
    rewrite <- mvmul_opp. f_equal.
    set (w := wrap (s_len s) (mkV (vx (vopp a) * vx (s_len s))%num (vy (vopp a) * vy (s_len s))%num
                                 (vz (vopp a) * vz (s_len s))%num)).
    assert (E : w = vopp (wrap (s_len s) (mkV (vx a * vx (s_len s))%num (vy a * vy (s_len s))%num
                                 (vz a * vz (s_len s))%num))).
    { unfold w. rewrite <- wrap_opp by assumption. f_equal.
      unfold vopp; cbn [vx vy vz]; rnum. f_equal; rring . }
    rewrite E. unfold vopp; cbn [vx vy vz]; rnum. unfold Rdiv. f_equal; rring .
  - apply wrap_opp; assumption.
Qed.

Lemma vsub_opp (a b : v3 Rnum) : vsub a b = vopp (vsub b a).
Proof. unfold vsub, vopp; cbn [vx vy vz]; rnum. f_equal; rring . Qed.

Lemma norm_vopp (d : v3 Rnum) : norm (vopp d) = norm d.
Proof. rewrite !norm_eucl. unfold vopp; cbn [vx vy vz]; rnum. apply eucl_opp. Qed.

Lemma abs_distance_sym (s : sys Rnum) p q :
  nonneg3 (s_len s) -> abs_distance s p q = abs_distance s q p.
Proof.
  intros HL. unfold abs_distance. rewrite (vsub_opp p q), pbc_diff_opp, norm_vopp by assumption.
  reflexivity.
Qed.

Lemma abs_distance_nonneg (s : sys Rnum) p q : 0 <= abs_distance s p q.
Proof. unfold abs_distance. rewrite norm_eucl. apply eucl_nonneg. Qed.

Lemma abs_distance_self (s : sys Rnum) p : nonneg3 (s_len s) -> abs_distance s p p = 0.
Proof.
  intros [H1 [H2 H3]]. unfold abs_distance.
  assert (E : vsub p p = mkV (N:=Rnum) 0 0 0) by (unfold vsub; rnum; f_equal; rring ).
  rewrite E. rewrite norm_eucl. unfold pbc_diff. destruct (s_tri s).
  - unfold mvmul, vdot, wrap; cbn [vx vy vz]; rnum.
    assert (Hz : forall a b c, a * 0 + b * 0 + c * 0 = 0) by (intros; rring ).
    rewrite !Hz, !Rmult_0_l, !wrap1_0 by assumption. unfold Rdiv. rewrite !Rmult_0_l, !Hz.
    unfold eucl, len2. replace (0^2+0^2+0^2) with 0 by rring . apply sqrt_0.
  - unfold wrap; cbn [vx vy vz]. rewrite !wrap1_0 by assumption.
    unfold eucl, len2. replace (0^2+0^2+0^2) with 0 by rring . apply sqrt_0.
Qed.

(** The routine used for neighbours has the mirrored vector and the same
    distance as the routine bound to Python. *)
Lemma abs_distance_ij_spec (s : sys Rnum) p q :
  nonneg3 (s_len s) ->
  abs_distance_ij s p q = (abs_distance s p q, vopp (distance_vector s p q)).
Proof.
  intros HL. unfold abs_distance_ij, abs_distance, distance_vector.
  rewrite (vsub_opp q p), pbc_diff_opp, norm_vopp by assumption. reflexivity.
Qed.

(** ** Orthogonal boxes *)

Lemma ortho_nonneg s : ortho s -> nonneg3 (s_len s).
Proof. intros [_ [H1 [H2 H3]]]. unfold nonneg3. lra. Qed.

Lemma distance_vector_ortho (s : sys Rnum) p q :
  ortho s ->
  distance_vector s p q =
  mkV (wrap1 (N:=Rnum) (vx (s_len s)) (vx p - vx q))
      (wrap1 (N:=Rnum) (vy (s_len s)) (vy p - vy q))
      (wrap1 (N:=Rnum) (vz (s_len s)) (vz p - vz q)).
Proof. intros [Ht _]. unfold distance_vector, pbc_diff. rewrite Ht. reflexivity. Qed.

Definition near (L p q : v3 Rnum) : Prop :=
  Rabs (vx p - vx q) <= 3/2 * vx L /\ Rabs (vy p - vy q) <= 3/2 * vy L /\
  Rabs (vz p - vz q) <= 3/2 * vz L.

Lemma in_box_near L p q : in_box L p -> in_box L q -> near L p q.
Proof.
  unfold in_box, near. intros [A [B C]] [A' [B' C']].
  repeat split; unfold Rabs; destruct (Rcase_abs _); lra.
Qed.

Lemma abs_distance_min_near (s : sys Rnum) p q :
  ortho s -> near (s_len s) p q ->
  is_min_image_distance (s_len s) p q (abs_distance s p q).
Proof.
  intros Ho [Nx [Ny Nz]]. pose proof (ortho_nonneg _ Ho) as [Lx [Ly Lz]].
  unfold abs_distance. fold (distance_vector s p q).
  rewrite (distance_vector_ortho s p q Ho), norm_eucl; cbn [vx vy vz].
  split.
  - destruct (wrap1_congr (vx (s_len s)) (vx p - vx q)) as [i [_ Ei]].
    destruct (wrap1_congr (vy (s_len s)) (vy p - vy q)) as [j [_ Ej]].
    destruct (wrap1_congr (vz (s_len s)) (vz p - vz q)) as [k [_ Ek]].
    exists (- i)%Z, (- j)%Z, (- k)%Z. unfold image_distance.
    rewrite Ei, Ej, Ek, !opp_IZR. f_equal; rring .
  - intros i j k. unfold image_distance.
    replace (vx p - (vx q + IZR i * vx (s_len s))) with ((vx p - vx q) + IZR (- i) * vx (s_len s))
      by (rewrite opp_IZR; rring ).
    replace (vy p - (vy q + IZR j * vy (s_len s))) with ((vy p - vy q) + IZR (- j) * vy (s_len s))
      by (rewrite opp_IZR; rring ).
    replace (vz p - (vz q + IZR k * vz (s_len s))) with ((vz p - vz q) + IZR (- k) * vz (s_len s))
      by (rewrite opp_IZR; rring ).
    apply eucl_mono; apply wrap1_min; assumption.
Qed.

Lemma abs_distance_min (s : sys Rnum) p q :
  ortho s -> in_box (s_len s) p -> in_box (s_len s) q ->
  is_min_image_distance (s_len s) p q (abs_distance s p q).
Proof. intros Ho Hp Hq. apply abs_distance_min_near; [assumption|]. apply in_box_near; assumption. Qed.

Lemma distance_vector_consistent (s : sys Rnum) p q :
  ortho s ->
  let v := distance_vector s p q in
  let L := s_len s in
  (exists i j k : Z,
      vx v = vx p - vx q + IZR i * vx L /\ vy v = vy p - vy q + IZR j * vy L /\
      vz v = vz p - vz q + IZR k * vz L) /\
  eucl (vx v) (vy v) (vz v) = abs_distance s p q /\
  (near L p q ->
      Rabs (vx v) <= vx L / 2 /\ Rabs (vy v) <= vy L / 2 /\ Rabs (vz v) <= vz L / 2).
Proof.
  intros Ho. cbn zeta. pose proof (ortho_nonneg _ Ho) as [Lx [Ly Lz]]. split; [|split].
  - rewrite (distance_vector_ortho s p q Ho); cbn [vx vy vz].
    destruct (wrap1_congr (vx (s_len s)) (vx p - vx q)) as [i [_ Ei]].
    destruct (wrap1_congr (vy (s_len s)) (vy p - vy q)) as [j [_ Ej]].
    destruct (wrap1_congr (vz (s_len s)) (vz p - vz q)) as [k [_ Ek]].
    exists i, j, k. auto.
  - unfold abs_distance, distance_vector. rewrite norm_eucl. reflexivity.
  - intros [Nx [Ny Nz]]. rewrite (distance_vector_ortho s p q Ho); cbn [vx vy vz].
    repeat split; apply wrap1_bound; assumption.
Qed.

Lemma abs_distance_translate (s : sys Rnum) p q t :
  abs_distance s (vadd p t) (vadd q t) = abs_distance s p q.
Proof.
  unfold abs_distance. do 2 f_equal. unfold vsub, vadd; cbn [vx vy vz]; rnum. f_equal; rring .
Qed.

(** Moving one atom by whole box lengths changes nothing as long as both
    separations stay within the range of the single shift. *)
Lemma abs_distance_lattice (s : sys Rnum) p q (i j k : Z) :
  ortho s ->
  let L := s_len s in
  let q' := mkV (N:=Rnum) (vx q + IZR i * vx L) (vy q + IZR j * vy L) (vz q + IZR k * vz L) in
  near L p q -> near L p q' ->
  abs_distance s p q' = abs_distance s p q.
Proof.
  intros Ho L q' Hn Hn'.
  destruct (abs_distance_min_near s p q Ho Hn) as [[i1 [j1 [k1 E1]]] M1].
  destruct (abs_distance_min_near s p q' Ho Hn') as [[i2 [j2 [k2 E2]]] M2].
  assert (T : forall a b c, image_distance L p q' a b c = image_distance L p q (i+a) (j+b) (k+c)).
  { intros a b c. unfold image_distance, q'; cbn [vx vy vz]. rewrite !plus_IZR. f_equal; rring . }
  apply Rle_antisym.
  - rewrite E1. specialize (M2 (i1 - i)%Z (j1 - j)%Z (k1 - k)%Z). fold L in M2. rewrite T in M2.
    replace (i + (i1 - i))%Z with i1 in M2 by lia.
    replace (j + (j1 - j))%Z with j1 in M2 by lia.
    replace (k + (k1 - k))%Z with k1 in M2 by lia. exact M2.
  - rewrite E2. fold L. rewrite T. apply M1.
Qed.

Lemma abs_distance_triangle (s : sys Rnum) a b c :
  ortho s -> in_box (s_len s) a -> in_box (s_len s) b -> in_box (s_len s) c ->
  abs_distance s a c <= abs_distance s a b + abs_distance s b c.
Proof.
  intros Ho Ha Hb Hc.
  destruct (abs_distance_min s a b Ho Ha Hb) as [[i1 [j1 [k1 E1]]] _].
  destruct (abs_distance_min s b c Ho Hb Hc) as [[i2 [j2 [k2 E2]]] _].
  destruct (abs_distance_min s a c Ho Ha Hc) as [_ M].
  rewrite E1, E2. eapply Rle_trans; [apply (M (i1+i2) (j1+j2) (k1+k2))%Z|].
  unfold image_distance. eapply Rle_trans; [|apply eucl_triangle].
  right. rewrite !plus_IZR. f_equal; rring .
Qed.

Lemma abs_distance_0_inv (s : sys Rnum) a b :
  ortho s -> in_box (s_len s) a -> in_box (s_len s) b ->
  abs_distance s a b = 0 -> a = b.
Proof.
  intros Ho Ha Hb H0.
  destruct (abs_distance_min s a b Ho Ha Hb) as [[i [j [k E]]] _].
  rewrite H0 in E. symmetry in E. apply eucl_0 in E. destruct E as [Ex [Ey Ez]].
  destruct Ha as [A1 [A2 A3]], Hb as [B1 [B2 B3]].
  assert (Z : forall x y l (n : Z), 0 < l -> 0 <= x < l -> 0 <= y < l -> x - (y + IZR n * l) = 0 -> x = y).
  { intros x y l n Hl Hx Hy H.
    assert (n = 0)%Z.
    { assert (-1 < IZR n) by nra. assert (IZR n < 1) by nra.
      assert (-1 < n)%Z by (apply lt_IZR; assumption). assert (n < 1)%Z by (apply lt_IZR; assumption). lia. }
    subst n. lra. }
  destruct a as [ax ay az], b as [bx by_ bz]; cbn [vx vy vz] in *.
  f_equal; eapply Z; [ | | | eassumption | | | | eassumption | | | | eassumption ]; try eassumption; lra.
Qed.

(** ** Triclinic boxes *)

Lemma wrap1_scaled (L x : R) :
  0 < L -> exists k : Z, wrap1 (N:=Rnum) L (x * L) / L = x + IZR k /\
           (Rabs x <= 3/2 -> Rabs (x + IZR k) <= 1/2).
Proof.
  intros HL. destruct (wrap1_congr L (x * L)) as [k [_ Ek]]. exists k.
  assert (E : wrap1 (N:=Rnum) L (x * L) / L = x + IZR k) by (rewrite Ek; field; lra).
  split; [exact E|]. intros Hx. rewrite <- E. unfold Rdiv. rewrite Rabs_mult, Rabs_inv, (Rabs_pos_eq L) by lra.
  assert (B : Rabs (wrap1 (N:=Rnum) L (x * L)) <= L / 2).
  { apply wrap1_bound; [lra|]. rewrite Rabs_mult, (Rabs_pos_eq L) by lra. nra. }
  apply (Rmult_le_reg_r L); [lra|]. rewrite Rmult_assoc, Rinv_l by lra. lra.
Qed.

(** A matrix with a right inverse is injective. *)
Lemma inverse_injective (M W : m3 Rnum) (u v : v3 Rnum) :
  inverse_of M W -> mvmul M u = mvmul M v -> u = v.
Proof.
  intros Hi E.
  unfold inverse_of, dot3, col0, col1, col2 in Hi; cbn [vx vy vz r0 r1 r2] in Hi.
  destruct Hi as [H1 [H2 [H3 [H4 [H5 [H6 [H7 [H8 H9]]]]]]]].
  destruct M as [[a b c] [d e f] [g h i]], W as [[a' b' c'] [d' e' f'] [g' h' i']].
  destruct u as [x y z], v as [x' y' z'].
  unfold mvmul, vdot in E; cbn [vx vy vz r0 r1 r2] in *; rnum.
  injection E as E1 E2 E3.
  set (det := a * (e * i - f * h) - b * (d * i - f * g) + c * (d * h - e * g)).
  assert (D : det * (a' * (e' * i' - f' * h') - b' * (d' * i' - f' * g') + c' * (d' * h' - e' * g')) = 1).
  { transitivity (
      (a * a' + b * d' + c * g') * ((d * b' + e * e' + f * h') * (g * c' + h * f' + i * i') - (d * c' + e * f' + f * i') * (g * b' + h * e' + i * h'))
      - (a * b' + b * e' + c * h') * ((d * a' + e * d' + f * g') * (g * c' + h * f' + i * i') - (d * c' + e * f' + f * i') * (g * a' + h * d' + i * g'))
      + (a * c' + b * f' + c * i') * ((d * a' + e * d' + f * g') * (g * b' + h * e' + i * h') - (d * b' + e * e' + f * h') * (g * a' + h * d' + i * g'))).
    { unfold det. rring . }
    rewrite H1, H2, H3, H4, H5, H6, H7, H8, H9. rring . }
  assert (Dn : det <> 0) by (intros Z; rewrite Z, Rmult_0_l in D; lra).
  assert (P1 : a * (x - x') + b * (y - y') + c * (z - z') = 0) by lra.
  assert (P2 : d * (x - x') + e * (y - y') + f * (z - z') = 0) by lra.
  assert (P3 : g * (x - x') + h * (y - y') + i * (z - z') = 0) by lra.
  f_equal; apply Rminus_diag_uniq; apply (Rmult_eq_reg_l det); try assumption; rewrite Rmult_0_r.
  - transitivity ((e * i - f * h) * (a * (x - x') + b * (y - y') + c * (z - z'))
      - (b * i - c * h) * (d * (x - x') + e * (y - y') + f * (z - z'))
      + (b * f - c * e) * (g * (x - x') + h * (y - y') + i * (z - z'))); [unfold det; rring |].
    rewrite P1, P2, P3. rring .
  - transitivity (- (d * i - f * g) * (a * (x - x') + b * (y - y') + c * (z - z'))
      + (a * i - c * g) * (d * (x - x') + e * (y - y') + f * (z - z'))
      - (a * f - c * d) * (g * (x - x') + h * (y - y') + i * (z - z'))); [unfold det; rring |].
    rewrite P1, P2, P3. rring .
  - transitivity ((d * h - e * g) * (a * (x - x') + b * (y - y') + c * (z - z'))
      - (a * h - b * g) * (d * (x - x') + e * (y - y') + f * (z - z'))
      + (a * e - b * d) * (g * (x - x') + h * (y - y') + i * (z - z'))); [unfold det; rring |].
    rewrite P1, P2, P3. rring .
Qed.

Lemma mvmul_transpose (b : m3 Rnum) (x y z : R) :
  mvmul (transpose b) (mkV (N:=Rnum) x y z) = lin b x y z.
Proof.
  unfold mvmul, vdot, lin, transpose, col0, col1, col2; cbn [vx vy vz r0 r1 r2]; rnum.
  f_equal; rring .
Qed.

Lemma inverse_right (M W : m3 Rnum) (d : v3 Rnum) :
  inverse_of M W -> mvmul M (mvmul W d) = d.
Proof.
  intros Hi. destruct d as [dx dy dz].
  unfold inverse_of, dot3, col0, col1, col2 in Hi; cbn [vx vy vz r0 r1 r2] in Hi.
  unfold mvmul, vdot; cbn [vx vy vz]; rnum.
  destruct Hi as [H1 [H2 [H3 [H4 [H5 [H6 [H7 [H8 H9]]]]]]]].
  f_equal.
  + transitivity ((vx (r0 M) * vx (r0 W) + vy (r0 M) * vx (r1 W) + vz (r0 M) * vx (r2 W)) * dx
      + (vx (r0 M) * vy (r0 W) + vy (r0 M) * vy (r1 W) + vz (r0 M) * vy (r2 W)) * dy
      + (vx (r0 M) * vz (r0 W) + vy (r0 M) * vz (r1 W) + vz (r0 M) * vz (r2 W)) * dz); [rring |].
    rewrite H1, H2, H3. rring .
  + transitivity ((vx (r1 M) * vx (r0 W) + vy (r1 M) * vx (r1 W) + vz (r1 M) * vx (r2 W)) * dx
      + (vx (r1 M) * vy (r0 W) + vy (r1 M) * vy (r1 W) + vz (r1 M) * vy (r2 W)) * dy
      + (vx (r1 M) * vz (r0 W) + vy (r1 M) * vz (r1 W) + vz (r1 M) * vz (r2 W)) * dz); [rring |].
    rewrite H4, H5, H6. rring .
  + transitivity ((vx (r2 M) * vx (r0 W) + vy (r2 M) * vx (r1 W) + vz (r2 M) * vx (r2 W)) * dx
      + (vx (r2 M) * vy (r0 W) + vy (r2 M) * vy (r1 W) + vz (r2 M) * vy (r2 W)) * dy
      + (vx (r2 M) * vz (r0 W) + vy (r2 M) * vz (r1 W) + vz (r2 M) * vz (r2 W)) * dz); [rring |].
    rewrite H7, H8, H9. rring .
Qed.

(** The same in terms of the fractional coordinates of the separation. *)
Lemma triclinic_frac (s : sys Rnum) (b : m3 Rnum) (p q : atom Rnum) (f : v3 Rnum) :
  tric s b ->
  mkV (N:=Rnum) (vx (a_pos p) - vx (a_pos q)) (vy (a_pos p) - vy (a_pos q))
      (vz (a_pos p) - vz (a_pos q)) = lin b (vx f) (vy f) (vz f) ->
  exists (d : R) (v : v3 Rnum) (i j k : Z),
    get_distance s p q true = DistVec (N:=Rnum) d v /\
    d = eucl (vx v) (vy v) (vz v) /\
    v = lin b (vx f + IZR i) (vy f + IZR j) (vz f + IZR k) /\
    (Rabs (vx f) <= 3/2 -> Rabs (vx f + IZR i) <= 1/2) /\
    (Rabs (vy f) <= 3/2 -> Rabs (vy f + IZR j) <= 1/2) /\
    (Rabs (vz f) <= 3/2 -> Rabs (vz f + IZR k) <= 1/2).
Proof.
  intros [Ht [[Lx [Ly Lz]] [Hr Hi]]] E.
  assert (F : mvmul (s_rotinv s) (vsub (a_pos p) (a_pos q)) = f).
  { apply (inverse_injective (s_rot s) (s_rotinv s)); [assumption|].
    rewrite inverse_right by assumption. rewrite Hr.
    destruct f as [fx fy fz]. rewrite mvmul_transpose. exact E. }
  exists (abs_distance s (a_pos p) (a_pos q)), (distance_vector s (a_pos p) (a_pos q)).
  assert (V : exists i j k : Z,
    distance_vector s (a_pos p) (a_pos q) = lin b (vx f + IZR i) (vy f + IZR j) (vz f + IZR k) /\
    (Rabs (vx f) <= 3/2 -> Rabs (vx f + IZR i) <= 1/2) /\
    (Rabs (vy f) <= 3/2 -> Rabs (vy f + IZR j) <= 1/2) /\
    (Rabs (vz f) <= 3/2 -> Rabs (vz f + IZR k) <= 1/2)).
  { unfold distance_vector, pbc_diff. rewrite Ht, F.
    destruct (wrap1_scaled _ (vx f) Lx) as [i [Ei Bi]].
    destruct (wrap1_scaled _ (vy f) Ly) as [j [Ej Bj]].
    destruct (wrap1_scaled _ (vz f) Lz) as [k [Ek Bk]].
    exists i, j, k. unfold wrap; cbn [vx vy vz]; rnum. rewrite Ei, Ej, Ek, Hr, mvmul_transpose. auto. }
  destruct V as [i [j [k [V1 V2]]]]. exists i, j, k.
  split; [reflexivity|]. split; [apply norm_eucl|]. split; assumption.
Qed.
