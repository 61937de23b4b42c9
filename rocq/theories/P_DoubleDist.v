(** Doubles: error bounds of the distance in an orthogonal box. *)
From Coq Require Import ZArith Reals Lia Lra Bool Psatz.
From Coq.Floats Require Import SpecFloat.
From Flocq Require Import Core BinarySingleNaN Relative Sterbenz.
From Verif Require Import Base Num NumR NumF Types M_Geometry M_Container S_Double S_Geometry S_DoubleDist P_Order P_Round P_Double P_Geometry Ex.
Set Implicit Arguments.
Open Scope R_scope.
#[local] Instance P53 : Prec_gt_0 prec64 := eq_refl.
#[local] Instance E53 : Prec_lt_emax prec64 emax64 := eq_refl.
#[local] Instance V53 : Valid_exp fe := FLT_exp_valid (-1074) 53.
#[local] Instance M53 : Monotone_exp fe := FLT_exp_monotone (-1074) 53.

(** ** Doubles and the numbers they stand for *)
Definition rep (x : spec_float) (r : R) : Prop := exists b : b64, x = B2SF b /\ is_finite b = true /\ B2R b = r.

Lemma pow_bpow e : powerRZ 2 e = bpow radix2 e. Proof. symmetry. apply bpow_powerRZ. Qed.
Lemma val_B (b : b64) : val (B2SF b) = B2R b.
Proof.
  destruct b as [s|s| |s m e H]; try reflexivity. cbn [B2SF val B2R]. unfold F2R. cbn [Fnum Fexp]. rewrite pow_bpow. destruct s; cbn [cond_Zopp]; cbn iota; [|ring].
  change (- Z.pos m)%Z with (Z.opp (Z.pos m)). rewrite opp_IZR. ring.
Qed.
Lemma rep_double x : double x -> rep x (val x).
Proof.
  intros [V F]. destruct (B_dbl V) as [b ->]. exists b. split; [reflexivity|]. split; [|symmetry; apply val_B].
  apply fin_b in F. destruct b; try discriminate F; reflexivity.
Qed.
Lemma double_rep x r : rep x r -> double x /\ val x = r.
Proof.
  intros (b & -> & F & <-). split; [|apply val_B]. split; [apply dbl_B|]. destruct b as [s|s| |s m e H]; try discriminate F; [exists s, 1%positive, 0%Z; now left|exists s, m, e; now right].
Qed.
Lemma rep_fmt x r : rep x r -> fmt r. Proof. intros (b & _ & _ & <-). apply generic_format_B2R. Qed.
Lemma rep_0 : rep (S754_zero false) 0. Proof. exists (B754_zero false). auto. Qed.
Lemma rep_2 : rep two 2.
Proof. destruct two_B as (b & E & H). exists b. split; [exact E|]. split; [|exact H]. destruct b; try discriminate E; reflexivity. Qed.

Lemma rnd_small r e : (e <= 1023)%Z -> Rabs r <= bpow radix2 e -> Rabs (rnd r) < bpow radix2 1024.
Proof.
  intros He H. destruct (Z_lt_le_dec e (-1074)) as [Hs|Hs].
  - apply Rle_lt_trans with (bpow radix2 (-1074)); [|apply bpow_lt; lia].
    apply (@abs_round_le_generic radix2 fe _ ZnearestE _); [apply (@generic_format_bpow radix2 fe _); unfold SpecFloat.fexp, SpecFloat.emin, prec64, emax64; lia|].
    eapply Rle_trans; [exact H|]. apply bpow_le. lia.
  - apply Rle_lt_trans with (bpow radix2 e); [|apply bpow_lt; lia].
    apply (@abs_round_le_generic radix2 fe _ ZnearestE _); [apply (@generic_format_bpow radix2 fe _); unfold SpecFloat.fexp, SpecFloat.emin, prec64, emax64; lia|exact H].
Qed.

Lemma add_rep x y a b e : rep x a -> rep y b -> (e <= 1023)%Z -> Rabs (a + b) <= bpow radix2 e -> rep (sf_add x y) (rnd (a + b)).
Proof.
  intros (u & -> & Fu & <-) (v & -> & Fv & <-) He H. rewrite add_B. eexists. split; [reflexivity|].
  pose proof (Bplus_correct prec64 emax64 _ _ mode_NE u v Fu Fv) as Q. change (round radix2 fe (round_mode mode_NE)) with rnd in Q.
  rewrite Rlt_bool_true in Q by (exact (rnd_small _ He H)). destruct Q as (Q1 & Q2 & _). auto.
Qed.
Lemma opp_rep x a : rep x a -> rep (SFopp x) (- a).
Proof. intros (u & -> & Fu & <-). rewrite B_opp. exists (Bopp u). rewrite is_finite_Bopp, B2R_Bopp. auto. Qed.
Lemma abs_rep x a : rep x a -> rep (SFabs x) (Rabs a).
Proof.
  intros (u & -> & Fu & <-). exists (Babs u). split; [destruct u; reflexivity|]. rewrite is_finite_Babs, B2R_Babs. auto.
Qed.
Lemma sub_rep x y a b e : rep x a -> rep y b -> (e <= 1023)%Z -> Rabs (a - b) <= bpow radix2 e -> rep (sf_sub x y) (rnd (a - b)).
Proof. intros Hx Hy He H. rewrite sub_add. apply (@add_rep x (SFopp y) a (- b) e); [exact Hx|apply opp_rep; exact Hy|exact He|exact H]. Qed.
Lemma mul_rep x y a b e : rep x a -> rep y b -> (e <= 1023)%Z -> Rabs (a * b) <= bpow radix2 e -> rep (sf_mul x y) (rnd (a * b)).
Proof.
  intros (u & -> & Fu & <-) (v & -> & Fv & <-) He H. rewrite mul_B. eexists. split; [reflexivity|].
  pose proof (Bmult_correct prec64 emax64 _ _ mode_NE u v) as Q. change (round radix2 fe (round_mode mode_NE)) with rnd in Q.
  rewrite Rlt_bool_true in Q by (exact (rnd_small _ He H)). destruct Q as (Q1 & Q2 & _). split; [etransitivity; [exact Q2|now rewrite Fu, Fv]|exact Q1].
Qed.
Lemma div_rep x y a b e : rep x a -> rep y b -> b <> 0 -> (e <= 1023)%Z -> Rabs (a / b) <= bpow radix2 e -> rep (sf_div x y) (rnd (a / b)).
Proof.
  intros (u & -> & Fu & <-) (v & -> & Fv & <-) Hb He H. rewrite div_B. eexists. split; [reflexivity|].
  pose proof (Bdiv_correct prec64 emax64 _ _ mode_NE u v Hb) as Q. change (round radix2 fe (round_mode mode_NE)) with rnd in Q.
  rewrite Rlt_bool_true in Q by (exact (rnd_small _ He H)). destruct Q as (Q1 & Q2 & _). split; [etransitivity; [exact Q2|exact Fu]|exact Q1].
Qed.
Lemma sqrt_rep x a : rep x a -> 0 <= a -> rep (sf_sqrt x) (rnd (sqrt a)).
Proof.
  intros (u & -> & Fu & <-) Ha. rewrite sqrt_B. eexists. split; [reflexivity|].
  destruct (Bsqrt_correct prec64 emax64 _ _ mode_NE u) as (Q1 & Q2 & _). split; [|exact Q1]. etransitivity; [exact Q2|].
  destruct u as [s|s| |s m e H]; try discriminate Fu; try reflexivity. destruct s; [|reflexivity]. exfalso.
  cbn [B2R] in Ha. unfold F2R in Ha. cbn [Fnum Fexp cond_Zopp] in Ha. pose proof (bpow_gt_0 radix2 e).
  assert (IZR (Zneg m) < 0) by (apply IZR_lt; lia). cbn in Ha. nra.
Qed.
Lemma ltb_rep x y a b : rep x a -> rep y b -> SFltb x y = Rltb a b.
Proof.
  intros (u & -> & Fu & <-) (v & -> & Fv & <-). pose proof (Bltb_correct prec64 emax64 u v Fu Fv) as Q. unfold Bltb in Q. rewrite Q.
  unfold Rltb. destruct (Rlt_dec (B2R u) (B2R v)); [apply Rlt_bool_true; assumption|apply Rlt_bool_false; lra].
Qed.

(** ** Rounding errors *)
Definition u : R := / 9007199254740992.
Definition eta : R := bpow radix2 (-1075).
Lemma eta_pos : 0 < eta. Proof. apply bpow_gt_0. Qed.
Lemma rnd_err t : Rabs (rnd t - t) <= u * Rabs t + eta.
Proof.
  destruct (error_N_FLT radix2 (-1074) 53 eq_refl (fun x => negb (Z.even x)) t) as (e & h & He & Hh & _ & E).
  change (rnd t = t * (1 + e) + h) in E. rewrite E. replace (t * (1 + e) + h - t) with (e * t + h) by ring.
  eapply Rle_trans; [apply Rabs_triang|]. rewrite Rabs_mult. apply Rplus_le_compat.
  - apply Rmult_le_compat_r; [apply Rabs_pos|]. eapply Rle_trans; [exact He|]. change (bpow radix2 (- (53) + 1)) with (/ 4503599627370496). unfold u. lra.
  - eapply Rle_trans; [exact Hh|]. unfold eta. change (-1074)%Z with (1 + -1075)%Z. rewrite bpow_plus. change (bpow radix2 1) with 2. lra.
Qed.
Lemma rnd_bounds t : 0 <= t -> t * (1 - u) - eta <= rnd t <= t * (1 + u) + eta.
Proof. intros H. pose proof (rnd_err t) as E. rewrite (Rabs_pos_eq t H) in E. apply Rabs_le_inv in E. lra. Qed.
Lemma rnd_pos t : 0 <= t -> 0 <= rnd t.
Proof. intros H. rewrite <- (rnd_fmt (generic_format_0 radix2 fe)). apply rnd_le. exact H. Qed.

(** ** One coordinate *)
Lemma half_fmt l : fmt l -> bpow radix2 (-1021) <= l -> fmt (l / 2).
Proof.
  intros Fl H. change (l / 2)%R with (l * bpow radix2 (-1))%R. apply (@Mult_error.mult_bpow_exact_FLT radix2 (-1074) 53 l (-1) Fl).
  assert (-1021 < mag radix2 l)%Z; [|lia]. apply mag_gt_bpow. rewrite Rabs_pos_eq; [exact H|]. pose proof (bpow_gt_0 radix2 (-1021)). lra.
Qed.
Section D.
Variable lib : libm.
Notation D := (SF64 lib).

Lemma wrap_rep (L d : D) l x : rep L l -> rep d x -> bpow radix2 (-1021) <= l <= bpow radix2 1000 -> Rabs x <= 3 / 2 * l ->
  exists n : Z, rep (wrap1 (N := D) L d) (x + IZR n * l) /\ Rabs (x + IZR n * l) <= l / 2.
Proof.
  intros HL Hd [l1 l2] Hx. pose proof (bpow_gt_0 radix2 (-1021)) as l0.
  assert (Fl := rep_fmt HL). assert (Fx := rep_fmt Hd).
  assert (Hh : rep (sf_div L two) (l / 2)).
  { rewrite <- (rnd_fmt (half_fmt Fl l1)). apply (@div_rep L two l 2 1000); [exact HL|exact rep_2|lra|lia|]. rewrite Rabs_pos_eq; lra. }
  change (wrap1 (N := D) L d) with (let d1 := if SFltb (sf_div L two) d then sf_sub d L else d in if SFltb d1 (sf_div (SFopp L) two) then sf_add d1 L else d1).
  cbv zeta. rewrite div_opp. set (h := sf_div L two) in *. clearbody h. assert (Hn := opp_rep Hh). apply Rabs_le_inv in Hx.
  assert (B : forall y, Rabs y <= 2 * l -> Rabs y <= bpow radix2 1001).
  { intros y Hy. change 1001%Z with (1 + 1000)%Z. rewrite bpow_plus. change (bpow radix2 1) with 2. lra. }
  rewrite (ltb_rep Hh Hd). destruct (Rltb (l / 2) x) eqn:E1.
  - apply Rltb_true in E1.
    assert (Fs : fmt (x - l)) by (apply sterbenz; try typeclasses eauto; try assumption; lra).
    assert (Hs : rep (sf_sub d L) (x - l)).
    { rewrite <- (rnd_fmt Fs). apply (@sub_rep d L x l 1001); [exact Hd|exact HL|lia|]. apply B, Rabs_le. lra. }
    rewrite (ltb_rep Hs Hn). destruct (Rltb (x - l) (- (l / 2))) eqn:E2; [apply Rltb_true in E2; lra|].
    exists (-1)%Z. replace (x + IZR (-1) * l) with (x - l) by lra. split; [exact Hs|apply Rabs_le; lra].
  - apply Rltb_false in E1. rewrite (ltb_rep Hd Hn). destruct (Rltb x (- (l / 2))) eqn:E2.
    + apply Rltb_true in E2.
      assert (Fs : fmt (x + l)).
      { replace (x + l) with (l - - x) by ring. apply sterbenz; try typeclasses eauto; [assumption|apply generic_format_opp; assumption|lra]. }
      exists 1%Z. replace (x + 1 * l) with (x + l) by lra. split; [|apply Rabs_le; lra].
      rewrite <- (rnd_fmt Fs). apply (@add_rep d L x l 1001); [exact Hd|exact HL|lia|]. apply B, Rabs_le. lra.
    + apply Rltb_false in E2. exists 0%Z. replace (x + 0 * l) with x by lra. split; [exact Hd|apply Rabs_le; lra].
Qed.

(** The shifted rounded difference is closest to 0 up to the rounding. *)
Lemma wrap_near (P Q L : D) p q l : rep P p -> rep Q q -> rep L l -> bpow radix2 (-1021) <= l <= bpow radix2 1000 -> Rabs (p - q) <= l ->
  exists w, rep (wrap1 (N := D) L (sf_sub P Q)) w /\ Rabs w <= l / 2 /\
    (exists n, Rabs (w - (p - q + IZR n * l)) <= u * l + eta) /\ forall n, Rabs w <= Rabs (p - q + IZR n * l) + (u * l + eta).
Proof.
  intros HP HQ HL Hl Hd. pose proof (bpow_gt_0 radix2 (-1021)) as l0. assert (Fl := rep_fmt HL).
  assert (Hs : rep (sf_sub P Q) (rnd (p - q))) by (apply (@sub_rep P Q p q 1000); [assumption|assumption|lia|lra]).
  assert (Hr : Rabs (rnd (p - q)) <= l) by (apply (@abs_round_le_generic radix2 fe _ ZnearestE _); assumption).
  assert (He : Rabs (rnd (p - q) - (p - q)) <= u * l + eta).
  { eapply Rle_trans; [apply rnd_err|]. apply Rplus_le_compat_r. apply Rmult_le_compat_l; [unfold u; lra|exact Hd]. }
  destruct (wrap_rep HL Hs Hl) as (n & Hw & Hb); [lra|]. set (r := rnd (p - q)) in *. clearbody r.
  exists (r + IZR n * l). split; [exact Hw|]. split; [exact Hb|]. split.
  - exists n. replace (r + IZR n * l - (p - q + IZR n * l)) with (r - (p - q)) by ring. exact He.
  - intros m. assert (Rabs (r + IZR n * l) <= Rabs (r + IZR m * l)).
    { destruct (Z.eq_dec n m) as [->|Hn]; [lra|].
      assert (HH : Rabs (IZR (m - n) * l) <= Rabs (r + IZR m * l) + Rabs (r + IZR n * l)).
      { replace (IZR (m - n) * l) with (r + IZR m * l + - (r + IZR n * l)) by (rewrite minus_IZR; ring).
        eapply Rle_trans; [apply Rabs_triang|]. rewrite Rabs_Ropp. lra. }
      assert (l <= Rabs (IZR (m - n) * l)).
      { rewrite Rabs_mult, (Rabs_pos_eq l) by lra. rewrite <- abs_IZR. assert (1 <= IZR (Z.abs (m - n))) by (apply IZR_le; lia). nra. }
      lra. }
    eapply Rle_trans; [exact H|]. replace (r + IZR m * l) with ((p - q + IZR m * l) + (r - (p - q))) by ring.
    eapply Rle_trans; [apply Rabs_triang|]. lra.
Qed.

(** ** The square root of the sum of squares *)
Lemma root_up q X k W s : 0 <= q -> 0 <= X -> 0 < k -> q * q = s -> s <= W + k * k -> W <= X * X -> q <= X + k.
Proof. intros. apply Rnot_lt_le. intros H5. assert ((X + k) * (X + k) < q * q) by nra. nra. Qed.
Lemma root_down q X k W s : 0 <= q -> 0 < k -> q * q = s -> W - k * k <= s -> X * X <= W -> X - k <= q.
Proof. intros. apply Rnot_lt_le. intros H5. assert ((q + k) * (q + k) < X * X) by nra. nra. Qed.
Lemma norm_rep (v : v3 D) a b c : rep (vx v) a -> rep (vy v) b -> rep (vz v) c ->
  Rabs a <= bpow radix2 500 -> Rabs b <= bpow radix2 500 -> Rabs c <= bpow radix2 500 ->
  exists d, rep (norm v) d /\ Rabs (d - eucl a b c) <= 6 * u * eucl a b c + 3 * bpow radix2 (-536).
Proof.
  intros Ha Hb Hc Ba Bb Bc.
  assert (SQ : forall (x : D) t, rep x t -> Rabs t <= bpow radix2 500 -> rep (sf_mul x x) (rnd (t * t)) /\ 0 <= t * t <= bpow radix2 1000).
  { intros x t Hx Bx. assert (Rabs (t * t) <= bpow radix2 1000).
    { rewrite Rabs_mult. change 1000%Z with (500 + 500)%Z. rewrite bpow_plus. pose proof (Rabs_pos t). nra. }
    split; [apply (@mul_rep x x t t 1000); [exact Hx|exact Hx|lia|assumption]|]. rewrite Rabs_pos_eq in H; nra. }
  destruct (SQ _ _ Ha Ba) as [Sa Ga], (SQ _ _ Hb Bb) as [Sb Gb], (SQ _ _ Hc Bc) as [Sc Gc]. clear SQ.
  pose proof (rnd_bounds (proj1 Ga)) as Ra. pose proof (rnd_bounds (proj1 Gb)) as Rb. pose proof (rnd_bounds (proj1 Gc)) as Rc.
  pose proof (rnd_pos (proj1 Ga)) as Pa. pose proof (rnd_pos (proj1 Gb)) as Pb. pose proof (rnd_pos (proj1 Gc)) as Pc.
  assert (e1 : eta <= bpow radix2 1000) by (apply bpow_le; lia). pose proof eta_pos as e0.
  assert (T3 : bpow radix2 1003 = 8 * bpow radix2 1000) by (change 1003%Z with (3 + 1000)%Z; apply bpow_plus).
  assert (T6 : bpow radix2 1006 = 64 * bpow radix2 1000) by (change 1006%Z with (6 + 1000)%Z; apply bpow_plus).
  unfold u in Ra, Rb, Rc.
  set (A := a * a) in *. set (B := b * b) in *. set (C := c * c) in *. set (ra := rnd A) in *. set (rb := rnd B) in *. set (rc := rnd C) in *.
  assert (Sab : rep (sf_add (sf_mul (vx v) (vx v)) (sf_mul (vy v) (vy v))) (rnd (ra + rb))).
  { apply (@add_rep _ _ ra rb 1003); [exact Sa|exact Sb|lia|]. rewrite Rabs_pos_eq; lra. }
  assert (Gab : 0 <= ra + rb) by lra. pose proof (rnd_bounds Gab) as Rab. pose proof (rnd_pos Gab) as Pab. unfold u in Rab. set (rab := rnd (ra + rb)) in *.
  assert (Sabc : rep (sf_add (sf_add (sf_mul (vx v) (vx v)) (sf_mul (vy v) (vy v))) (sf_mul (vz v) (vz v))) (rnd (rab + rc))).
  { apply (@add_rep _ _ rab rc 1006); [exact Sab|exact Sc|lia|]. rewrite Rabs_pos_eq; lra. }
  assert (Gabc : 0 <= rab + rc) by lra. pose proof (rnd_bounds Gabc) as Rabc. pose proof (rnd_pos Gabc) as Pabc. unfold u in Rabc. set (s := rnd (rab + rc)) in *.
  exists (rnd (sqrt s)). split; [exact (sqrt_rep Sabc Pabc)|].
  set (E := eucl a b c). assert (E0 : 0 <= E) by apply eucl_nonneg.
  assert (EE : E * E = A + B + C) by (unfold E; rewrite eucl_sqr; unfold len2, A, B, C; ring).
  set (k := bpow radix2 (-536)). assert (k0 : 0 < k) by apply bpow_gt_0.
  assert (kk : k * k = 8 * eta).
  { unfold k, eta. rewrite <- bpow_plus. change (-536 + -536)%Z with (3 + -1075)%Z. rewrite bpow_plus. reflexivity. }
  assert (k1 : eta <= k) by (apply bpow_le; lia).
  assert (S1 : s <= (1 + 4 * u) * (E * E) + 8 * eta) by (rewrite EE; unfold u; lra).
  assert (S2 : (1 - 4 * u) * (E * E) - 8 * eta <= s) by (rewrite EE; unfold u; lra).
  pose proof (sqrt_pos s) as q0. pose proof (sqrt_sqrt s Pabc) as qq. set (q := sqrt s) in *.
  assert (U : 0 < u < / 1000) by (unfold u; lra).
  assert (EE0 : 0 <= E * E) by nra.
  assert (Q1 : q <= (1 + 4 * u) * E + k).
  { apply (@root_up q ((1 + 4 * u) * E) k ((1 + 4 * u) * (E * E)) s); [exact q0|apply Rmult_le_pos; lra|exact k0|exact qq|lra|].
    replace ((1 + 4 * u) * E * ((1 + 4 * u) * E)) with ((1 + 4 * u) * ((1 + 4 * u) * (E * E))) by ring.
    assert (0 <= (1 + 4 * u) * (E * E)) by (apply Rmult_le_pos; lra). assert (0 <= u * ((1 + 4 * u) * (E * E))) by (apply Rmult_le_pos; lra). lra. }
  assert (Q2 : (1 - 4 * u) * E - k <= q).
  { apply (@root_down q ((1 - 4 * u) * E) k ((1 - 4 * u) * (E * E)) s); [exact q0|exact k0|exact qq|lra|].
    replace ((1 - 4 * u) * E * ((1 - 4 * u) * E)) with ((1 - 4 * u) * ((1 - 4 * u) * (E * E))) by ring.
    assert (0 <= (1 - 4 * u) * (E * E)) by (apply Rmult_le_pos; lra). assert (0 <= u * ((1 - 4 * u) * (E * E))) by (apply Rmult_le_pos; lra). lra. }
  pose proof (rnd_bounds q0) as Rq. fold q. apply Rabs_le. unfold u in *. lra.
Qed.
End D.

(** ** Side lengths *)
Lemma ulp_mag x : bpow radix2 (-1021) <= x -> exists e : Z, (-1020 <= e)%Z /\
  bpow radix2 (e - 1) <= x < bpow radix2 e /\ ulp radix2 fe x = bpow radix2 (e - 53) /\ mag radix2 x = e :> Z.
Proof.
  intros H. pose proof (bpow_gt_0 radix2 (-1021)). exists (mag radix2 x). assert (-1021 < mag radix2 x)%Z by (apply mag_gt_bpow; rewrite Rabs_pos_eq by lra; exact H).
  split; [lia|]. split; [|split; [|reflexivity]].
  - destruct (mag radix2 x) as [e He]. cbn. assert (He' := He ltac:(lra)). rewrite Rabs_pos_eq in He' by lra. exact He'.
  - rewrite ulp_neq_0 by lra. unfold cexp, SpecFloat.fexp, SpecFloat.emin, prec64, emax64. f_equal. lia.
Qed.
(** The square root of the rounded square of a double is that double. *)
Lemma rnd_sqrt_square x : fmt x -> bpow radix2 (-480) <= x <= bpow radix2 500 -> rnd (sqrt (rnd (x * x))) = x.
Proof.
  intros Fx [x1 x2]. pose proof (bpow_gt_0 radix2 (-480)) as x0.
  assert (bpow radix2 (-1021) <= x) as xb by (eapply Rle_trans; [|exact x1]; apply bpow_le; lia).
  destruct (ulp_mag xb) as (e & He & [Hx1 Hx2] & Hu & Hm).
  set (P := bpow radix2 (e - 53)) in *. assert (P0 : 0 < P) by apply bpow_gt_0.
  assert (B1 : bpow radix2 (e - 1) = 4503599627370496 * P) by (unfold P; replace (e - 1)%Z with (52 + (e - 53))%Z by lia; rewrite bpow_plus; reflexivity).
  assert (B2 : bpow radix2 e = 9007199254740992 * P) by (unfold P; replace e with (53 + (e - 53))%Z at 1 by lia; rewrite bpow_plus; reflexivity).
  assert (HE : Rabs (rnd (x * x) - x * x) <= 4503599627370496 * (P * P)).
  { eapply Rle_trans; [apply (error_le_half_ulp radix2 fe (fun x => negb (Z.even x)) (x * x))|].
    assert (ulp radix2 fe (x * x) <= 9007199254740992 * (P * P)).
    { assert (Hxx : x * x <> 0) by nra. rewrite (ulp_neq_0 _ _ _ Hxx).
      replace (9007199254740992 * (P * P)) with (bpow radix2 (2 * e - 53)).
      - apply bpow_le. unfold cexp, SpecFloat.fexp, SpecFloat.emin, prec64, emax64.
        assert (mag radix2 (x * x) <= 2 * e)%Z.
        { apply mag_le_bpow; [nra|]. rewrite Rabs_pos_eq by nra. replace (2 * e)%Z with (e + e)%Z by lia. rewrite bpow_plus. nra. }
        assert (-480 < e)%Z.
        { assert (-480 < mag radix2 x)%Z by (apply mag_gt_bpow; rewrite Rabs_pos_eq by lra; exact x1). lia. }
        lia.
      - unfold P. rewrite <- bpow_plus. replace (2 * e - 53)%Z with (53 + (e - 53 + (e - 53)))%Z by lia. rewrite bpow_plus. reflexivity. }
    lra. }
  apply Rabs_le_inv in HE.
  assert (W0 : 0 <= rnd (x * x)) by (apply rnd_pos; nra).
  pose proof (sqrt_pos (rnd (x * x))) as y0. pose proof (sqrt_sqrt _ W0) as yy. 
  apply Rle_antisym.
  - apply round_N_le_midp; [typeclasses eauto|exact Fx|]. rewrite succ_eq_pos by lra. rewrite Hu.
    set (y := sqrt (rnd (x * x))) in *. apply Rnot_le_lt. intros C. assert ((x + P / 2) * (x + P / 2) <= y * y) by nra. nra.
  - destruct (Req_dec x (bpow radix2 (e - 1))) as [Hp|Hp].
    + assert (Fxx : fmt (x * x)).
      { rewrite Hp, <- bpow_plus. apply (@generic_format_bpow radix2 fe _). unfold SpecFloat.fexp, SpecFloat.emin, prec64, emax64.
        assert (-480 < e)%Z by (apply (lt_bpow radix2); lra). lia. }
      rewrite (rnd_fmt Fxx), sqrt_square by lra. rewrite (rnd_fmt Fx). lra.
    + assert (Hs : x >= bpow radix2 (e - 1) + P).
      { assert (Fb : fmt (bpow radix2 (e - 1))) by (apply (@generic_format_bpow radix2 fe _); unfold SpecFloat.fexp, SpecFloat.emin, prec64, emax64; lia).
        assert (S : succ radix2 fe (bpow radix2 (e - 1)) <= x) by (apply succ_le_lt; [typeclasses eauto|exact Fb|exact Fx|lra]).
        rewrite succ_eq_pos in S by apply bpow_ge_0. rewrite ulp_bpow in S.
        replace (fe (e - 1 + 1)) with (e - 53)%Z in S by (unfold SpecFloat.fexp, SpecFloat.emin, prec64, emax64; lia). fold P in S. lra. }
      apply round_N_ge_midp; [typeclasses eauto|exact Fx|]. rewrite pred_eq_pos by lra. unfold pred_pos. rewrite Hm.
      rewrite Req_bool_false by exact Hp. rewrite Hu.
      set (y := sqrt (rnd (x * x))) in *. apply Rnot_le_lt. intros C. assert (y * y <= (x - P / 2) * (x - P / 2)) by nra. nra.
Qed.

Section Box.
Variable lib : libm.
Notation D := (SF64 lib).
Definition reps (x : D) (r : R) : Prop := rep x r /\ bpow radix2 (-480) <= r <= bpow radix2 500.
Lemma side_reps (x : D) : side x -> reps x (val x).
Proof. intros [H1 H2]. rewrite !pow_bpow in H2. split; [apply rep_double; exact H1|exact H2]. Qed.

Lemma zero_rep x : rep x 0 -> exists s, x = S754_zero s.
Proof.
  intros (b & -> & F & H). destruct b as [s|s| |s m e Hm]; try discriminate F; [now exists s|]. exfalso. cbn [B2R] in H.
  apply eq_0_F2R in H. destruct s; discriminate H.
Qed.
Lemma rnd_0 : rnd 0 = 0. Proof. apply rnd_fmt, generic_format_0. Qed.
Lemma add_0_r x y a : rep x a -> rep y 0 -> rep (sf_add x y) a.
Proof.
  intros Hx Hy. destruct Hx as (b & E & Fb & <-). pose proof (abs_B2R_lt_emax prec64 emax64 b) as HB.
  destruct Hy as (c & -> & Fc & Hc). subst x. rewrite add_B. eexists. split; [reflexivity|].
  pose proof (Bplus_correct prec64 emax64 _ _ mode_NE b c Fb Fc) as Q. change (round radix2 fe (round_mode mode_NE)) with rnd in Q.
  rewrite Hc, Rplus_0_r, (rnd_fmt (generic_format_B2R prec64 emax64 b)) in Q. rewrite Rlt_bool_true in Q by exact HB. destruct Q as (Q1 & Q2 & _). auto.
Qed.
Lemma add_0_l x y a : rep x 0 -> rep y a -> rep (sf_add x y) a.
Proof.
  intros Hx Hy. destruct Hy as (b & E & Fb & <-). pose proof (abs_B2R_lt_emax prec64 emax64 b) as HB.
  destruct Hx as (c & -> & Fc & Hc). subst y. rewrite add_B. eexists. split; [reflexivity|].
  pose proof (Bplus_correct prec64 emax64 _ _ mode_NE c b Fc Fb) as Q. change (round radix2 fe (round_mode mode_NE)) with rnd in Q.
  rewrite Hc, Rplus_0_l, (rnd_fmt (generic_format_B2R prec64 emax64 b)) in Q. rewrite Rlt_bool_true in Q by exact HB. destruct Q as (Q1 & Q2 & _). auto.
Qed.
Lemma sub_0_r x y a : rep x a -> rep y 0 -> rep (sf_sub x y) a.
Proof. intros Hx Hy. rewrite sub_add. apply add_0_r; [exact Hx|]. rewrite <- Ropp_0. apply opp_rep. exact Hy. Qed.
Lemma mul_0 x y a b : rep x a -> rep y b -> a * b = 0 -> rep (sf_mul x y) 0.
Proof.
  intros Hx Hy E. rewrite <- rnd_0, <- E. apply (@mul_rep x y a b 0 Hx Hy); [lia|]. rewrite E, Rabs_R0. apply bpow_ge_0.
Qed.
Lemma square_rep x r : reps x r -> rep (sf_mul x x) (rnd (r * r)) /\ 0 < r * r.
Proof.
  intros [Hx [H1 H2]]. pose proof (bpow_gt_0 radix2 (-480)). split; [|nra]. apply (@mul_rep x x r r 1000 Hx Hx); [lia|].
  rewrite Rabs_pos_eq by nra. change 1000%Z with (500 + 500)%Z. rewrite bpow_plus. nra.
Qed.
Lemma root_rep q r : reps q r -> forall x, rep x (rnd (r * r)) -> rep (sf_sqrt x) r.
Proof.
  intros [Hq Hr] x Hx. rewrite <- (rnd_sqrt_square (rep_fmt Hq) Hr). apply sqrt_rep; [exact Hx|]. apply rnd_pos. nra.
Qed.

Notation z0 := (n0 (N := D)).
Lemma rep_n0 : rep (z0 : D) 0. Proof. exact rep_0. Qed.
Lemma zz : rep (sf_mul z0 z0) 0. Proof. apply (mul_0 rep_n0 rep_n0). ring. Qed.

Lemma diag_len_rep (x y z : D) a b c : reps x a -> reps y b -> reps z c ->
  rep (vx (sbox_len (diag (N := D) x y z))) a /\ rep (vy (sbox_len (diag (N := D) x y z))) b /\ rep (vz (sbox_len (diag (N := D) x y z))) c.
Proof.
  intros Hx Hy Hz. unfold sbox_len, diag. cbn [r0 r1 r2 vx vy vz]. destruct (square_rep Hx) as [Sx _], (square_rep Hy) as [Sy _], (square_rep Hz) as [Sz _].
  pose proof zz as Z. pose proof rep_n0 as Z0.
  repeat split; (apply sub_0_r; [|exact Z0]).
  - apply (root_rep Hx). apply add_0_r; [|exact Z]. apply add_0_r; [|exact Z]. apply add_0_l; [exact Z0|exact Sx].
  - apply (root_rep Hy). apply add_0_r; [|exact Z]. apply add_0_l; [|exact Sy]. apply add_0_l; [exact Z0|exact Z].
  - apply (root_rep Hz). apply add_0_l; [|exact Sz]. apply add_0_l; [|exact Z]. apply add_0_l; [exact Z0|exact Z].
Qed.
Lemma row_norms (x y z : D) a b c : reps x a -> reps y b -> reps z c ->
  rep (norm (mkV (N := D) x z0 z0)) a /\ rep (norm (mkV (N := D) z0 y z0)) b /\ rep (norm (mkV (N := D) z0 z0 z)) c.
Proof.
  intros Hx Hy Hz. unfold norm. cbn [vx vy vz]. destruct (square_rep Hx) as [Sx _], (square_rep Hy) as [Sy _], (square_rep Hz) as [Sz _].
  pose proof zz as Z. pose proof rep_n0 as Z0. repeat split.
  - apply (root_rep Hx). apply add_0_r; [|exact Z]. apply add_0_r; [exact Sx|exact Z].
  - apply (root_rep Hy). apply add_0_r; [|exact Z]. apply add_0_l; [exact Z|exact Sy].
  - apply (root_rep Hz). apply add_0_l; [|exact Sz]. apply add_0_l; [exact Z|exact Z].
Qed.
Lemma cos_0 (p q r : D) (m n : D) a b : rep p 0 -> rep q 0 -> rep r 0 -> rep m a -> rep n b ->
  bpow radix2 (-480) <= a <= bpow radix2 500 -> bpow radix2 (-480) <= b <= bpow radix2 500 ->
  rep (sf_div (sf_add (sf_add p q) r) (sf_mul m n)) 0.
Proof.
  intros Hp Hq Hr Hm Hn Ha Hb. pose proof (bpow_gt_0 radix2 (-480)) as h0.
  assert (HM : rep (sf_mul m n) (rnd (a * b))).
  { apply (@mul_rep m n a b 1000 Hm Hn); [lia|]. rewrite Rabs_pos_eq by nra. change 1000%Z with (500 + 500)%Z. rewrite bpow_plus. nra. }
  assert (HP : 0 < rnd (a * b)).
  { apply Rlt_le_trans with (bpow radix2 (-960)); [apply bpow_gt_0|].
    assert (F : fmt (bpow radix2 (-960))) by (apply (@generic_format_bpow radix2 fe _); unfold SpecFloat.fexp, SpecFloat.emin, prec64, emax64; lia).
    rewrite <- (rnd_fmt F). apply rnd_le. change (-960)%Z with (-480 + -480)%Z. rewrite bpow_plus. nra. }
  assert (HS : rep (sf_add (sf_add p q) r) 0) by (apply add_0_r; [apply add_0_r; assumption|assumption]).
  assert (E : 0 / rnd (a * b) = 0) by (unfold Rdiv; ring).
  rewrite <- rnd_0, <- E. apply (@div_rep _ _ 0 (rnd (a * b)) 0 HS HM); [lra|lia|]. rewrite E, Rabs_R0. apply bpow_ge_0.
Qed.
Lemma box_set_diag_double inv (s0 : sys D) (x y z : D) : side x -> side y -> side z ->
  box_set inv s0 (diag (N := D) x y z) = Ok (sbox s0 (diag (N := D) x y z)).
Proof.
  intros Hx Hy Hz. apply side_reps in Hx, Hy, Hz. pose proof (row_norms Hx Hy Hz) as (Nx & Ny & Nz).
  assert (HC : rep (cos_sum (diag (N := D) x y z)) 0).
  { unfold cos_sum, diag, vdot. cbn [r0 r1 r2 vx vy vz]. pose proof zz as Z. pose proof rep_n0 as Z0.
    assert (M : forall w r, reps w r -> rep (sf_mul w z0) 0 /\ rep (sf_mul z0 w) 0).
    { intros w r [Hw _]. split; [apply (mul_0 Hw rep_n0); ring|apply (mul_0 rep_n0 Hw); ring]. }
    destruct (M _ _ Hx), (M _ _ Hy), (M _ _ Hz), Hx as [_ Bx], Hy as [_ By], Hz as [_ Bz].
    apply add_0_r; [apply add_0_r; [apply add_0_r; [exact Z0|]|]|].
    - eapply cos_0; try eassumption.
    - eapply cos_0; try eassumption.
    - eapply cos_0; try eassumption. }
  destruct (zero_rep HC) as [s Hs]. unfold box_set.
  assert (E : nltb (n := D) (nlit (n := D) 1 1000000) (nabs (n := D) (cos_sum (diag (N := D) x y z))) = false).
  { change (SFltb (sf_lit 1 1000000) (SFabs (cos_sum (diag (N := D) x y z))) = false). rewrite Hs. vm_compute. reflexivity. }
  rewrite E. reflexivity.
Qed.

(** ** The distance *)
Lemma eucl_le x y z : eucl x y z <= Rabs x + Rabs y + Rabs z.
Proof.
  unfold eucl, len2. rewrite <- (pow2_abs x), <- (pow2_abs y), <- (pow2_abs z). pose proof (Rabs_pos x). pose proof (Rabs_pos y). pose proof (Rabs_pos z).
  rewrite <- (sqrt_Rsqr (Rabs x + Rabs y + Rabs z)) by lra. apply sqrt_le_1_alt. unfold Rsqr. nra.
Qed.
Lemma eucl_near x y z x' y' z' : eucl x y z <= eucl x' y' z' + (Rabs (x - x') + Rabs (y - y') + Rabs (z - z')).
Proof.
  pose proof (eucl_triangle x' y' z' (x - x') (y - y') (z - z')) as T. pose proof (eucl_le (x - x') (y - y') (z - z')).
  replace (x' + (x - x')) with x in T by ring. replace (y' + (y - y')) with y in T by ring. replace (z' + (z - z')) with z in T by ring. lra.
Qed.

Definition err (l : R) : R := u * l + eta.
Lemma distance_parts (s0 : sys D) (x y z : D) (p q : v3 D) : s_tri s0 = false -> side x -> side y -> side z -> double3 p -> double3 q ->
  within (mkV (N := Rnum) (val x) (val y) (val z)) (val3 p) (val3 q) ->
  let s := sbox s0 (diag (N := D) x y z) in
  exists a b c d, rep (vx (distance_vector s p q)) a /\ rep (vy (distance_vector s p q)) b /\ rep (vz (distance_vector s p q)) c /\
    rep (abs_distance s p q) d /\
    (Rabs a <= val x / 2 /\ Rabs b <= val y / 2 /\ Rabs c <= val z / 2) /\
    (exists i j k, Rabs (a - (val (vx p) - val (vx q) + IZR i * val x)) <= err (val x) /\
       Rabs (b - (val (vy p) - val (vy q) + IZR j * val y)) <= err (val y) /\ Rabs (c - (val (vz p) - val (vz q) + IZR k * val z)) <= err (val z)) /\
    (forall i, Rabs a <= Rabs (val (vx p) - val (vx q) + IZR i * val x) + err (val x)) /\
    (forall i, Rabs b <= Rabs (val (vy p) - val (vy q) + IZR i * val y) + err (val y)) /\
    (forall i, Rabs c <= Rabs (val (vz p) - val (vz q) + IZR i * val z) + err (val z)) /\
    Rabs (d - eucl a b c) <= 6 * u * eucl a b c + 3 * bpow radix2 (-536).
Proof.
  intros HT Sx Sy Sz (Px & Py & Pz) (Qx & Qy & Qz) (Wx & Wy & Wz) s. cbn [vx vy vz val3] in Wx, Wy, Wz.
  apply side_reps in Sx, Sy, Sz. apply rep_double in Px, Py, Pz, Qx, Qy, Qz.
  pose proof (diag_len_rep Sx Sy Sz) as (Lx & Ly & Lz). destruct Sx as [_ [x1 x2]], Sy as [_ [y1 y2]], Sz as [_ [z1 z2]].
  assert (b1 : bpow radix2 (-1021) <= bpow radix2 (-480)) by (apply bpow_le; lia).
  assert (b2 : bpow radix2 500 <= bpow radix2 1000) by (apply bpow_le; lia). pose proof (bpow_gt_0 radix2 (-480)) as b3.
  destruct (@wrap_near lib _ _ _ _ _ _ Px Qx Lx) as (a & Ra & Ba & Ea & Ma); [lra|exact Wx|].
  destruct (@wrap_near lib _ _ _ _ _ _ Py Qy Ly) as (b & Rb & Bb & Eb & Mb); [lra|exact Wy|].
  destruct (@wrap_near lib _ _ _ _ _ _ Pz Qz Lz) as (c & Rc & Bc & Ec & Mc); [lra|exact Wz|].
  assert (EV : pbc_diff s (vsub p q) = wrap (s_len s) (vsub p q)) by (unfold pbc_diff; change (s_tri s) with (s_tri s0); now rewrite HT).
  destruct (@norm_rep lib (wrap (s_len s) (vsub p q)) a b c) as (d & Rd & Ed); try assumption; try lra.
  exists a, b, c, d. unfold distance_vector, abs_distance. rewrite EV. repeat (split; [first [assumption|repeat split; assumption]|]).
  split; [|auto]. destruct Ea as [i Hi], Eb as [j Hj], Ec as [k Hk]. exists i, j, k. auto.
Qed.

Lemma distance_bounds (s0 : sys D) (x y z : D) (p q : v3 D) : s_tri s0 = false -> side x -> side y -> side z -> double3 p -> double3 q ->
  let L := mkV (N := Rnum) (val x) (val y) (val z) in within L (val3 p) (val3 q) ->
  let s := sbox s0 (diag (N := D) x y z) in let v := distance_vector s p q in let d := abs_distance s p q in
  double d /\ double3 v /\
  (Rabs (val (vx v)) <= val x / 2 /\ Rabs (val (vy v)) <= val y / 2 /\ Rabs (val (vz v)) <= val z / 2) /\
  (exists i j k, Rabs (val (vx v) - (val (vx p) - val (vx q) + IZR i * val x)) <= powerRZ 2 (-52) * val x /\
    Rabs (val (vy v) - (val (vy p) - val (vy q) + IZR j * val y)) <= powerRZ 2 (-52) * val y /\
    Rabs (val (vz v) - (val (vz p) - val (vz q) + IZR k * val z)) <= powerRZ 2 (-52) * val z) /\
  Rabs (val d - eucl (val (vx v)) (val (vy v)) (val (vz v))) <= tol L /\
  (exists i j k, Rabs (val d - image_distance L (val3 p) (val3 q) i j k) <= tol L) /\
  (forall i j k, val d <= image_distance L (val3 p) (val3 q) i j k + tol L).
Proof.
  intros HT Sx Sy Sz Hp Hq L HW s v d. destruct (@distance_parts s0 x y z p q HT Sx Sy Sz Hp Hq HW) as (a & b & c & e & Ra & Rb & Rc & Rd & (Ba & Bb & Bc) & (i & j & k & Ei & Ej & Ek) & Ma & Mb & Mc & Hd).
  fold s in Ra, Rb, Rc, Rd. fold v in Ra, Rb, Rc. fold d in Rd.
  apply double_rep in Ra, Rb, Rc, Rd. destruct Ra as [Da Va], Rb as [Db Vb], Rc as [Dc Vc], Rd as [Dd Vd]. rewrite Va, Vb, Vc, Vd.
  destruct Sx as [_ [x1 _]], Sy as [_ [y1 _]], Sz as [_ [z1 _]]. rewrite pow_bpow in x1, y1, z1.
  assert (K : bpow radix2 (-480) * / 9007199254740992 = 8 * bpow radix2 (-536)).
  { change (/ 9007199254740992) with (bpow radix2 (-53)). rewrite <- bpow_plus. change (-480 + -53)%Z with (3 + -536)%Z. apply bpow_plus. }
  assert (ke : eta <= bpow radix2 (-536)) by (apply bpow_le; lia). pose proof (bpow_gt_0 radix2 (-536)) as k0. pose proof eta_pos as e0.
  assert (EB : forall l, bpow radix2 (-480) <= l -> err l <= 2 * u * l) by (intros l Hl; unfold err, u; lra).
  assert (EU : eucl a b c <= val x / 2 + val y / 2 + val z / 2) by (pose proof (eucl_le a b c); lra). pose proof (eucl_nonneg a b c) as EN.
  assert (P52 : powerRZ 2 (-52) = 2 * u) by (rewrite pow_bpow; change (bpow radix2 (-52)) with (/ 4503599627370496); unfold u; lra).
  assert (TL : tol L = 8 * u * (val x + val y + val z)).
  { unfold tol. cbn [vx vy vz L]. rewrite pow_bpow. change (bpow radix2 (-50)) with (/ 1125899906842624). unfold u. lra. }
  assert (HD : Rabs (e - eucl a b c) <= 4 * u * (val x + val y + val z)) by (eapply Rle_trans; [exact Hd|]; unfold u in *; lra).
  pose proof (EB _ x1) as Ex. pose proof (EB _ y1) as Ey. pose proof (EB _ z1) as Ez.
  assert (er : 0 <= err (val x) /\ 0 <= err (val y) /\ 0 <= err (val z)) by (unfold err, u; lra).
  assert (IM : forall i j k, image_distance L (val3 p) (val3 q) (- i) (- j) (- k) =
    eucl (val (vx p) - val (vx q) + IZR i * val x) (val (vy p) - val (vy q) + IZR j * val y) (val (vz p) - val (vz q) + IZR k * val z)).
  { intros i' j' k'. unfold image_distance, val3, L. cbn [vx vy vz]. rewrite !opp_IZR. f_equal; ring. }
  split; [exact Dd|]. split; [split; [exact Da|split; [exact Db|exact Dc]]|]. split; [auto|]. split; [|split; [|split]].
  - exists i, j, k. rewrite P52. lra.
  - rewrite TL. unfold u in *. lra.
  - exists (- i)%Z, (- j)%Z, (- k)%Z. rewrite IM. set (X := _ + IZR i * _) in *. set (Y := _ + IZR j * _) in *. set (Z := _ + IZR k * _) in *.
    pose proof (eucl_near a b c X Y Z) as N1. pose proof (eucl_near X Y Z a b c) as N2.
    rewrite (Rabs_minus_sym X a), (Rabs_minus_sym Y b), (Rabs_minus_sym Z c) in N2. rewrite TL. apply Rabs_le_inv in HD. apply Rabs_le. unfold u in *. lra.
  - intros i' j' k'. replace i' with (- - i')%Z by lia. replace j' with (- - j')%Z by lia. replace k' with (- - k')%Z by lia. rewrite IM.
    specialize (Ma (- i')%Z). specialize (Mb (- j')%Z). specialize (Mc (- k')%Z). rewrite TL.
    set (X := _ + IZR (- i') * _) in *. set (Y := _ + IZR (- j') * _) in *. set (Z := _ + IZR (- k') * _) in *.
    assert (M : eucl a b c <= eucl (Rabs X + err (val x)) (Rabs Y + err (val y)) (Rabs Z + err (val z))).
    { pose proof (Rabs_pos X). pose proof (Rabs_pos Y). pose proof (Rabs_pos Z). apply eucl_mono; rewrite (Rabs_pos_eq (_ + _)) by lra; assumption. }
    assert (EA : eucl (Rabs X) (Rabs Y) (Rabs Z) = eucl X Y Z) by (unfold eucl, len2; now rewrite !pow2_abs).
    pose proof (eucl_near (Rabs X + err (val x)) (Rabs Y + err (val y)) (Rabs Z + err (val z)) (Rabs X) (Rabs Y) (Rabs Z)) as N1.
    replace (Rabs X + err (val x) - Rabs X) with (err (val x)) in N1 by ring. replace (Rabs Y + err (val y) - Rabs Y) with (err (val y)) in N1 by ring.
    replace (Rabs Z + err (val z) - Rabs Z) with (err (val z)) in N1 by ring. rewrite !(Rabs_pos_eq (err _)) in N1 by lra.
    apply Rabs_le_inv in HD. rewrite EA in N1. unfold u in *. lra.
Qed.

Lemma opp_val a b : opp a b -> val b = - val a.
Proof.
  intros [->|(s & t & -> & ->)]; [|cbn; lra]. destruct a as [s|s| |s m e]; cbn; try lra. destruct s; cbn; lra.
Qed.
Lemma distance_opposite (s0 : sys D) (x y z : D) (p q : v3 D) : s_tri s0 = false -> side x -> side y -> side z -> double3 p -> double3 q ->
  let s := sbox s0 (diag (N := D) x y z) in let v := distance_vector s p q in let w := pbc_diff s (vsub q p) in
  abs_distance_ij s p q = (abs_distance s p q, w) /\
  (val (vx w) = - val (vx v) /\ val (vy w) = - val (vy v) /\ val (vz w) = - val (vz v)).
Proof.
  intros HT Sx Sy Sz Hp Hq s v w.
  assert (HO : opp3 v w).
  { unfold v, w, distance_vector, pbc_diff. change (s_tri s) with (s_tri s0). rewrite HT.
    destruct (@sbox_len_double lib (diag (N := D) x y z)) as [G1 G2].
    { destruct Sx as [[Vx _] _], Sy as [[Vy _] _], Sz as [[Vz _] _]. assert (dbl z0) by reflexivity. repeat split; assumption. }
    destruct Hp as ([? _] & [? _] & [? _]), Hq as ([? _] & [? _] & [? _]).
    apply opp_wrap; [exact G1|exact G2| | |].
    - repeat split; apply dbl_sub; assumption.
    - repeat split; apply dbl_sub; assumption.
    - repeat split; apply opp_sub. }
  split; [|destruct HO as (H1 & H2 & H3); repeat split; apply opp_val; assumption].
  unfold abs_distance_ij. fold w. f_equal. symmetry. apply norm_opp. exact HO.
Qed.
End Box.
