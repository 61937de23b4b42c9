(** calculate_q in exact arithmetic: the stored values are Steinhardt's
    parameters; invariances and bounds. *)
From Coq Require Import Reals ZArith List Lia Lra Permutation.
From Verif Require Import Base Num NumR Types M_Geometry M_Steinhardt S_Steinhardt
  P_Container P_QRun P_Addition P_Legendre P_Harmonics.
Import ListNotations.
Set Implicit Arguments.
Unset Strict Implicit.
Local Open Scope R_scope.

(** ** The harmonics of the code *)
Definition kappa : R := sqrt (PI / pi_lit Rnum).
Lemma pi_lit_pos : 0 < pi_lit Rnum.
Proof. unfold pi_lit. rnum. lra. Qed.
Lemma kappa_sq : kappa * kappa = PI / pi_lit Rnum.
Proof.
  apply sqrt_sqrt. pose proof pi_lit_pos. pose proof PI_RGT_0.
  apply Rlt_le, Rdiv_lt_0_compat; lra.
Qed.

Lemma dfactorial_eq l m : (2 <= l <= 12)%nat -> (m <= l)%nat ->
  dfactorial Rnum (Z.of_nat l) (Z.of_nat m) = IZR (zfact (l - m)) / IZR (zfact (l + m)).
Proof.
  intros Hl Hm. unfold dfactorial. rnum.
  assert (forall is (z : Z), fold_left (fun fac i => fac * IZR (Z.of_nat l + Z.of_nat m - i)) is (IZR z) =
     IZR (fold_left (fun fac i => fac * (Z.of_nat l + Z.of_nat m - i))%Z is z)) as E.
  { induction is as [|i is IH]; intros z; simpl; auto. rewrite <- mult_IZR. apply IH. }
  rewrite (E _ 1%Z). clear E.
  set (F := fold_left _ _ _).
  assert (F * zfact (l - m) = zfact (l + m))%Z as E.
  { unfold F. do 2 (destruct l as [|l]; [lia|]).
    do 11 (destruct l as [|l]; [do 13 (destruct m as [|m]; [vm_compute; reflexivity|try lia])|]). lia. }
  rewrite <- E, mult_IZR.
  assert (0 < IZR (zfact (l - m))) by (apply IZR_lt, zfact_pos).
  assert (0 < IZR (zfact (l + m))) as Hp by (apply IZR_lt, zfact_pos).
  rewrite <- E, mult_IZR in Hp.
  assert (IZR F <> 0) by (intros Z0; rewrite Z0 in Hp; lra).
  assert (IZR (zfact (l - m)) <> 0) by lra.
  field. auto.
Qed.

Lemma YLM_eq l m th ph : (2 <= l <= 12)%nat -> (m <= l)%nat ->
  YLM (N := Rnum) (Z.of_nat l) (Z.of_nat m) th ph =
  (kappa * fst (Y_pos l m th ph), kappa * snd (Y_pos l m th ph)).
Proof.
  intros Hl Hm. unfold YLM. rewrite dfactorial_eq by auto. rnum.
  rewrite PLM_assoc by auto. unfold Y_pos. cbn [fst snd]. rewrite <- !INR_IZR_INZ.
  assert (sqrt ((2 * INR l + 1) / (4 * pi_lit Rnum) * (IZR (zfact (l - m)) / IZR (zfact (l + m))))
          = kappa * Y_norm l m) as ->.
  { unfold kappa, Y_norm. pose proof pi_lit_pos as Hp. pose proof PI_RGT_0 as HP.
    assert (0 < IZR (zfact (l - m))) by (apply IZR_lt, zfact_pos).
    assert (0 < IZR (zfact (l + m))) by (apply IZR_lt, zfact_pos).
    rewrite <- sqrt_mult_alt by (apply Rlt_le, Rdiv_lt_0_compat; lra).
    f_equal. field. repeat split; lra. }
  f_equal; ring.
Qed.

Definition conj_sign (m : Z) : R := if Z.ltb m 0 then -1 else 1.
Lemma conj_sign_sq m : conj_sign m * conj_sign m = 1.
Proof. unfold conj_sign. destruct (Z.ltb m 0); ring. Qed.

Lemma pow_parity m : (-1) ^ m = if Z.even (Z.of_nat m) then 1 else -1.
Proof.
  induction m; [reflexivity|]. cbn [pow]. rewrite IHm, Nat2Z.inj_succ, Z.even_succ, <- Z.negb_even.
  destruct (Z.even (Z.of_nat m)); cbn [negb]; ring.
Qed.

Lemma QLM_eq l m th ph : (2 <= l <= 12)%nat -> (- Z.of_nat l <= m <= Z.of_nat l)%Z ->
  QLM (N := Rnum) (Z.of_nat l) m th ph =
  (kappa * fst (Y l m th ph), conj_sign m * (kappa * snd (Y l m th ph))).
Proof.
  intros Hl Hm. unfold QLM, Y, conj_sign. destruct (Z.ltb_spec m 0).
  - replace (Z.leb 0 m) with false by (symmetry; apply Z.leb_gt; lia).
    replace (Z.abs m) with (Z.of_nat (Z.to_nat (- m))) by lia.
    rewrite YLM_eq by (auto; lia). destruct (Y_pos l (Z.to_nat (- m)) th ph) as [re im]. cbn [fst snd].
    rewrite pow_parity, Z2Nat.id by lia. rewrite Z.even_opp.
    destruct (Z.even m); rnum; f_equal; ring.
  - replace (Z.leb 0 m) with true by (symmetry; apply Z.leb_le; lia).
    replace m with (Z.of_nat (Z.to_nat m)) at 1 by lia.
    rewrite YLM_eq by (auto; lia). destruct (Y_pos l (Z.to_nat m) th ph) as [re im]. cbn [fst snd].
    f_equal. ring.
Qed.

(** ** The components *)
Definition env_of (es : list (nbr Rnum)) : dirs :=
  map (fun e => let '(phi, theta) := spherical (nb_vec e) in (nb_weight e : R, theta : R, phi : R)) es.

Lemma fold_qadd l m es : (2 <= l <= 12)%nat -> (- Z.of_nat l <= m <= Z.of_nat l)%Z ->
  forall x y w : R,
  fold_left (qadd (N := Rnum) (Z.of_nat l) m) es (x, y, w) =
  (x + kappa * fst (sum_lm l m (env_of es)),
   y + conj_sign m * (kappa * snd (sum_lm l m (env_of es))), w + weights (env_of es)).
Proof.
  intros Hl Hm. induction es as [|e es IH]; intros x y w; cbn [fold_left].
  - unfold sum_lm, weights, Rsum. cbn. f_equal; [f_equal|]; ring.
  - unfold qadd at 2. unfold env_of. cbn [map]. destruct (spherical (nb_vec e)) as [phi theta].
    rewrite QLM_eq by auto. rewrite IH. fold (env_of es). unfold sum_lm, weights. cbn [map fst snd].
    rewrite !Rsum_cons. unfold wgt, Yt. cbn [fst snd]. rnum.
    f_equal; [f_equal|]; ring.
Qed.

Lemma comp_eq (vor : bool) l m es : (2 <= l <= 12)%nat -> (- Z.of_nat l <= m <= Z.of_nat l)%Z ->
  let W := if vor then 1 else weights (env_of es) in
  comp (N := Rnum) vor (Z.of_nat l) m es =
  (kappa * (fst (sum_lm l m (env_of es)) / W), conj_sign m * (kappa * (snd (sum_lm l m (env_of es)) / W))).
Proof.
  intros Hl Hm W. unfold comp. set (t := fold_left _ _ _).
  assert (t = _) as -> by exact (@fold_qadd l m es Hl Hm 0 0 0). clear t. rnum. unfold W.
  destruct vor; f_equal; unfold Rdiv; rewrite ?Rinv_1, ?Rplus_0_l; ring.
Qed.

Lemma sumsq_eq {A} (f : A -> R * R) ms :
  sumsq (N := Rnum) (map f ms) = Rsum (map (fun m => abs2 (f m)) ms).
Proof.
  unfold sumsq. rnum. assert (forall x : R, fold_left (fun (summ : R) (z : R * R) => summ + (fst z * fst z + snd z * snd z)) (map f ms) x =
     x + Rsum (map (fun m => abs2 (f m)) ms)) as E.
  { induction ms as [|m ms IH]; intros x; cbn [map fold_left]; [cbn; ring|].
    rewrite IH, Rsum_cons. unfold abs2. ring. }
  rewrite E. ring.
Qed.

Lemma In_zr l m : In m (zrange (- Z.of_nat l) (Z.of_nat l + 1)) -> (- Z.of_nat l <= m <= Z.of_nat l)%Z.
Proof. intros H. apply In_zrange in H. lia. Qed.

Lemma four_pi l (X : R) : four_pi_over Rnum (Z.of_nat l) * (kappa * kappa * X) =
  4 * PI / (2 * INR l + 1) * X.
Proof.
  unfold four_pi_over. rnum. rewrite kappa_sq, plus_IZR, mult_IZR, <- INR_IZR_INZ.
  pose proof pi_lit_pos. pose proof (two_l_pos l). field. lra.
Qed.

Theorem qval_steinhardt l es : (2 <= l <= 12)%nat ->
  qval (N := Rnum) false (Z.of_nat l) es = steinhardt l (env_of es).
Proof.
  intros Hl. unfold qval, steinhardt, comps. rnum. rewrite sumsq_eq. f_equal.
  rewrite <- four_pi. f_equal. rewrite <- Rsum_map_scale. apply Rsum_map_ext.
  intros m Hm. rewrite comp_eq by (auto using In_zr). cbv zeta. unfold abs2, q_lm, sum_lm. cbn [fst snd].
  pose proof (conj_sign_sq m) as E. unfold wgt, Yt.
  set (a := Rsum _). set (b := Rsum _). set (W := weights _).
  transitivity (kappa * kappa * (a / W) ^ 2 + conj_sign m * conj_sign m * (kappa * kappa * (b / W) ^ 2)); [ring|].
  rewrite E. ring.
Qed.
Theorem qval_voronoi l es : (2 <= l <= 12)%nat ->
  qval (N := Rnum) true (Z.of_nat l) es =
  sqrt (4 * PI / (2 * INR l + 1) *
    Rsum (map (fun m => abs2 (sum_lm l m (env_of es))) (zrange (- Z.of_nat l) (Z.of_nat l + 1)))).
Proof.
  intros Hl. unfold qval, comps. rnum. rewrite sumsq_eq. f_equal.
  rewrite <- four_pi. f_equal. rewrite <- Rsum_map_scale. apply Rsum_map_ext.
  intros m Hm. rewrite comp_eq by (auto using In_zr). cbv zeta. unfold abs2. cbn [fst snd].
  pose proof (conj_sign_sq m) as E. unfold Rdiv. rewrite Rinv_1.
  set (a := fst (sum_lm _ _ _)). set (b := snd (sum_lm _ _ _)).
  transitivity (kappa * kappa * a ^ 2 + conj_sign m * conj_sign m * (kappa * kappa * b ^ 2)); [ring|].
  rewrite E. ring.
Qed.
(** With weights that already sum to 1 both agree. *)
Lemma sum_lm_q l m E : weights E = 1 -> sum_lm l m E = q_lm l m E.
Proof. intros H. unfold sum_lm, q_lm. rewrite H. unfold Rdiv. now rewrite Rinv_1, !Rmult_1_r. Qed.
Theorem qval_any l (vor : bool) es : (2 <= l <= 12)%nat -> (vor = true -> weights (env_of es) = 1) ->
  qval (N := Rnum) vor (Z.of_nat l) es = steinhardt l (env_of es).
Proof.
  intros Hl H. destruct vor; [|now apply qval_steinhardt].
  rewrite qval_voronoi by auto. unfold steinhardt. do 3 f_equal. apply map_ext. intros m.
  now rewrite sum_lm_q by auto.
Qed.

(** ** Spherical coordinates *)
Lemma norm_pos (v : v3 Rnum) : nonzero v -> 0 < norm v.
Proof.
  intros H. unfold norm. rnum. apply sqrt_lt_R0.
  destruct v as [x y z]. unfold nonzero in H. cbn in *.
  destruct (Req_dec x 0) as [->|]; [|nra]. destruct (Req_dec y 0) as [->|]; [|nra].
  destruct (Req_dec z 0) as [->|]; [|nra]. exfalso; auto.
Qed.
Lemma norm_sq (v : v3 Rnum) : norm v * norm v = vx v * vx v + vy v * vy v + vz v * vz v.
Proof. unfold norm. rnum. apply sqrt_sqrt. nra. Qed.

Lemma atan2_cos_sin x y : ~ (x = 0 /\ y = 0) -> let h := sqrt (x * x + y * y) in
  h * cos (Ratan2 y x) = x /\ h * sin (Ratan2 y x) = y.
Proof.
  intros H h.
  assert (forall x, x <> 0 -> sqrt (1 + Rsqr (y / x)) = sqrt (x * x + y * y) / Rabs x) as E.
  { intros a Ha. rewrite <- sqrt_Rsqr_abs. rewrite <- sqrt_div_alt by (unfold Rsqr; nra).
    f_equal. unfold Rsqr. field. auto. }
  assert (x <> 0 -> 0 < h) as Hh by (intros; apply sqrt_lt_R0; nra).
  unfold Ratan2. destruct (Rlt_dec 0 x) as [Hx|Hx].
  - rewrite cos_atan, sin_atan, E by lra. fold h. rewrite Rabs_pos_eq by lra.
    specialize (Hh ltac:(lra)). split; field; lra.
  - destruct (Rlt_dec x 0) as [Hx'|Hx'].
    + specialize (Hh ltac:(lra)).
      assert (cos (atan (y / x)) = - x / h /\ sin (atan (y / x)) = - y / h) as [C S].
      { rewrite cos_atan, sin_atan, E by lra. fold h. rewrite Rabs_left by lra. split; field; lra. }
      destruct (Rle_dec 0 y).
      * rewrite neg_cos, neg_sin, C, S. split; field; lra.
      * unfold Rminus. rewrite cos_plus, sin_plus, cos_neg, sin_neg, cos_PI, sin_PI, C, S. split; field; lra.
    + assert (x = 0) as -> by lra.
      destruct (Rlt_dec 0 y).
      * rewrite cos_PI2, sin_PI2. unfold h. split; [ring|].
        rewrite Rmult_0_l, Rplus_0_l, sqrt_square; lra.
      * destruct (Rlt_dec y 0); [|exfalso; apply H; split; lra].
        rewrite cos_neg, sin_neg, cos_PI2, sin_PI2. unfold h. split; [ring|].
        replace (0 * 0 + y * y) with (- y * - y) by ring. rewrite sqrt_square; lra.
Qed.

Lemma mul_div (r z : R) : r <> 0 -> z = r * (z / r).
Proof. intros; field; auto. Qed.

Lemma spherical_angles (v : v3 Rnum) : nonzero v ->
  angles v (snd (spherical v)) (fst (spherical v)).
Proof.
  intros H. pose proof (norm_pos H) as Hp. pose proof (norm_sq v) as Hs.
  unfold spherical. cbn [fst snd]. rnum. set (r := norm v) in *.
  assert (-1 <= vz v / r <= 1) as Hb.
  { assert (Rabs (vz v) <= r) as Ha.
    { apply Rsqr_incr_0_var; [|lra]. rewrite <- Rsqr_abs. unfold Rsqr. nra. }
    assert (- r <= vz v <= r) as Hc by (unfold Rabs in Ha; destruct (Rcase_abs (vz v)); lra).
    split; apply Rmult_le_reg_r with r; auto; unfold Rdiv; rewrite Rmult_assoc, Rinv_l by lra; lra. }
  unfold angles. fold r. split; auto. split; [apply acos_bound|].
  rewrite cos_acos by auto. rewrite sin_acos by auto.
  assert (r * sqrt (1 - (vz v / r)²) = sqrt (vx v * vx v + vy v * vy v)) as Eh.
  { rewrite <- (sqrt_square r) at 1 by lra. rewrite <- sqrt_mult_alt by nra. f_equal. unfold Rsqr.
    field_simplify; [|lra]. replace (r ^ 2) with (r * r) by ring. rewrite Hs. ring. }
  rewrite Eh. destruct (Req_dec (vx v) 0) as [Ex|Ex], (Req_dec (vy v) 0) as [Ey|Ey].
  - rewrite Ex, Ey. replace (0 * 0 + 0 * 0) with 0 by ring. rewrite sqrt_0. repeat split; try ring. apply mul_div; lra.
  - destruct (@atan2_cos_sin (vx v) (vy v)) as [C S]; [tauto|]. rewrite C, S. repeat split. apply mul_div; lra.
  - destruct (@atan2_cos_sin (vx v) (vy v)) as [C S]; [tauto|]. rewrite C, S. repeat split. apply mul_div; lra.
  - destruct (@atan2_cos_sin (vx v) (vy v)) as [C S]; [tauto|]. rewrite C, S. repeat split. apply mul_div; lra.
Qed.

(** The cosine of the angle between two vectors. *)
Definition cosine (v v' : v3 Rnum) : R := vdot v v' / (norm v * norm v').
Lemma cosine_angles v v' th ph th' ph' : angles v th ph -> angles v' th' ph' ->
  cos_between th ph th' ph' = cosine v v'.
Proof.
  intros (Hr & _ & Ex & Ey & Ez) (Hr' & _ & Ex' & Ey' & Ez'). unfold cosine, vdot. rnum.
  rewrite Ex, Ey, Ez, Ex', Ey', Ez'. unfold cos_between. rewrite cos_minus.
  field. lra.
Qed.
