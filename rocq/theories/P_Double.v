(** Doubles: distances of swapped atoms are equal bit by bit. *)
From Coq Require Import ZArith Reals Lia Lra Bool.
From Coq.Floats Require Import SpecFloat.
From Flocq Require Import Core BinarySingleNaN Mult_error.
From Verif Require Import Base Num NumF Types M_Geometry M_Container S_Double P_Order P_Round.
Open Scope Z_scope.
Set Implicit Arguments.

(** Opposite, up to the signs of zeros. *)
Definition opp (x y : spec_float) : Prop := y = SFopp x \/ exists s t, x = S754_zero s /\ y = S754_zero t.

Lemma opp_opp x : SFopp (SFopp x) = x. Proof. destruct x; cbn; rewrite ?negb_involutive; reflexivity. Qed.
Lemma opp_sym x y : opp x y -> opp y x.
Proof. intros [->|(s & t & -> & ->)]; [left; now rewrite opp_opp|right; eauto]. Qed.
Lemma opp_self x : opp x (SFopp x). Proof. now left. Qed.

Lemma round_aux_opp s m e l : SpecFloat.binary_round_aux prec64 emax64 (negb s) m e l = SFopp (SpecFloat.binary_round_aux prec64 emax64 s m e l).
Proof.
  unfold SpecFloat.binary_round_aux. destruct (shr_fexp prec64 emax64 m e l) as [r e'].
  destruct (shr_fexp prec64 emax64 _ e' loc_Exact) as [r' e'']. destruct (shr_m r'); try reflexivity. destruct (e'' <=? emax64 - prec64); reflexivity.
Qed.
Lemma round_opp s m e : SpecFloat.binary_round prec64 emax64 (negb s) m e = SFopp (SpecFloat.binary_round prec64 emax64 s m e).
Proof. unfold SpecFloat.binary_round. destruct (shl_align _ _ _). apply round_aux_opp. Qed.
Lemma normalize_opp z e b b' : opp (SpecFloat.binary_normalize prec64 emax64 z e b) (SpecFloat.binary_normalize prec64 emax64 (- z) e b').
Proof.
  destruct z as [|p|p]; cbn [SpecFloat.binary_normalize Z.opp]; [right; eauto| |]; left.
  - apply (round_opp false).
  - apply (round_opp true).
Qed.

Lemma sub_add x y : sf_sub x y = sf_add x (SFopp y).
Proof.
  destruct x as [s|s| |s m e], y as [t|t| |t n f]; cbn; try reflexivity; try (destruct s, t; reflexivity).
Qed.
Lemma opp_add x x' y y' : opp x x' -> opp y y' -> opp (sf_add x y) (sf_add x' y').
Proof.
  intros [->|(s & t & -> & ->)] [->|(u & v & -> & ->)].
  - destruct x as [s|s| |s m e], y as [t|t| |t n f]; unfold sf_add; cbn [SFadd SFopp]; try (now left); try (destruct s, t; cbn; first [now left|right; eauto]; fail).
    match goal with |- opp (SpecFloat.binary_normalize _ _ ?a _ _) (SpecFloat.binary_normalize _ _ ?b _ _) => replace b with (- a); [apply normalize_opp|] end.
    destruct s, t; cbn [negb cond_Zopp]; lia.
  - destruct x as [s|s| |s m e]; cbn; try (now left). destruct s, u, v; cbn; right; eauto.
  - destruct y as [w|w| |w m e]; cbn; try (now left). destruct s, t, w; cbn; right; eauto.
  - destruct s, t, u, v; cbn; right; eauto.
Qed.
Lemma opp_sub x y : opp (sf_sub x y) (sf_sub y x).
Proof.
  destruct x as [s|s| |s m e], y as [t|t| |t n f]; unfold sf_sub; cbn [SFsub SFopp]; try (now left); try (destruct s, t; cbn; first [now left|right; eauto]; fail); try (left; destruct s; reflexivity); try (left; destruct t; reflexivity).
  rewrite (Z.min_comm f e).
  match goal with |- opp (SpecFloat.binary_normalize _ _ ?a _ _) (SpecFloat.binary_normalize _ _ ?b _ _) => replace b with (- a); [apply normalize_opp|lia] end.
Qed.
Lemma opp_mul k x x' : opp x x' -> opp (sf_mul k x) (sf_mul k x').
Proof.
  intros [->|(s & t & -> & ->)].
  - left. destruct k as [s|s| |s m e], x as [t|t| |t n f]; cbn; try reflexivity; try (destruct s, t; reflexivity).
    rewrite <- negb_xorb_r. apply round_aux_opp.
  - destruct k as [u|u| |u m e]; cbn; [right; eauto|now left|now left|right; eauto].
Qed.
Lemma opp_mul_r k x x' : opp x x' -> opp (sf_mul x k) (sf_mul x' k).
Proof.
  intros [->|(s & t & -> & ->)].
  - left. destruct k as [s|s| |s m e], x as [t|t| |t n f]; cbn; try reflexivity; try (destruct s, t; reflexivity).
    rewrite <- negb_xorb_l. apply round_aux_opp.
  - destruct k as [u|u| |u m e]; cbn; [right; eauto|now left|now left|right; eauto].
Qed.
Lemma div_opp x k : sf_div (SFopp x) k = SFopp (sf_div x k).
Proof.
  destruct k as [s|s| |s m e], x as [t|t| |t n f]; cbn; try reflexivity; try (destruct s, t; reflexivity).
  unfold SFdiv. destruct (SFdiv_core_binary _ _ _ _ _ _) as [[a b] c]. rewrite <- negb_xorb_l. apply round_aux_opp.
Qed.
Lemma opp_div k x x' : opp x x' -> opp (sf_div x k) (sf_div x' k).
Proof.
  intros [->|(s & t & -> & ->)]; [left; apply div_opp|]. destruct k as [u|u| |u m e]; cbn; [now left|right; eauto|now left|right; eauto].
Qed.
Lemma opp_square x x' : opp x x' -> sf_mul x x = sf_mul x' x'.
Proof. intros [->|(s & t & -> & ->)]; [|destruct s, t; reflexivity]. destruct x as [s|s| |s m e]; cbn; try reflexivity; destruct s; reflexivity. Qed.

Lemma compare_opp x y : SFcompare (SFopp x) (SFopp y) = match SFcompare x y with Some c => Some (CompOpp c) | None => None end.
Proof.
  destruct x as [s|s| |s m e], y as [t|t| |t n f]; cbn; try reflexivity; try (destruct s, t; reflexivity); try (destruct s; reflexivity); try (destruct t; reflexivity).
  destruct s, t; cbn; try reflexivity; destruct (Z.compare e f); cbn; try reflexivity; change (Pos.compare_cont Eq m n) with (Pos.compare m n); rewrite ?CompOpp_involutive; reflexivity.
Qed.
Lemma compare_swap x y : SFcompare y x = match SFcompare x y with Some c => Some (CompOpp c) | None => None end.
Proof.
  destruct x as [s|s| |s m e], y as [t|t| |t n f]; cbn; try reflexivity; try (destruct s, t; reflexivity); try (destruct s; reflexivity); try (destruct t; reflexivity).
  rewrite (Z.compare_antisym e f). change (Pos.compare_cont Eq n m) with (Pos.compare n m). change (Pos.compare_cont Eq m n) with (Pos.compare m n). rewrite (Pos.compare_antisym m n).
  destruct s, t; cbn; try reflexivity; destruct (Z.compare e f); cbn; try reflexivity; rewrite ?CompOpp_involutive; reflexivity.
Qed.
Lemma ltb_opp x y : SFltb (SFopp x) (SFopp y) = SFltb y x.
Proof. unfold SFltb. rewrite compare_opp, (compare_swap x y). destruct (SFcompare x y) as [[]|]; reflexivity. Qed.
Lemma opp_ltb c x x' : opp x x' -> SFltb c x = SFltb x' (SFopp c).
Proof.
  intros [->|(s & t & -> & ->)]; [now rewrite ltb_opp|]. destruct c as [u|u| |u m e]; cbn; try reflexivity; destruct u; reflexivity.
Qed.

(** Operations on doubles give doubles. *)
Notation b64 := (binary_float prec64 emax64).
Lemma dbl_B (x : b64) : dbl (B2SF x). Proof. apply valid_binary_B2SF. Qed.
Lemma B_dbl x : dbl x -> exists b : b64, x = B2SF b.
Proof. intros H. exists (SF2B x H). symmetry. apply B2SF_SF2B. Qed.
#[local] Instance P53 : Prec_gt_0 prec64 := eq_refl.
#[local] Instance E53 : Prec_lt_emax prec64 emax64 := eq_refl.
Lemma round_NE s m e : binary_round prec64 emax64 mode_NE s m e = SpecFloat.binary_round prec64 emax64 s m e.
Proof. unfold binary_round, SpecFloat.binary_round, shl_align_fexp. destruct (shl_align _ _ _). apply round_aux_NE. Qed.
Lemma normalize_NE m e b : B2SF (binary_normalize prec64 emax64 _ _ mode_NE m e b) = SpecFloat.binary_normalize prec64 emax64 m e b.
Proof. destruct m as [|p|p]; cbn [binary_normalize SpecFloat.binary_normalize]; [reflexivity| |]; rewrite B2SF_SF2B; apply round_NE. Qed.
Lemma add_B (x y : b64) : sf_add (B2SF x) (B2SF y) = B2SF (Bplus mode_NE x y).
Proof.
  destruct x as [s|s| |s m e Hm], y as [t|t| |t n f Hn]; try reflexivity; try (destruct s, t; reflexivity).
  cbn [Bplus]. rewrite normalize_NE. reflexivity.
Qed.
Lemma mul_B (x y : b64) : sf_mul (B2SF x) (B2SF y) = B2SF (Bmult mode_NE x y).
Proof. destruct x as [s|s| |s m e Hm], y as [t|t| |t n f Hn]; try reflexivity. cbn [Bmult]. rewrite B2SF_SF2B. symmetry. apply round_aux_NE. Qed.
Lemma div_B (x y : b64) : sf_div (B2SF x) (B2SF y) = B2SF (Bdiv mode_NE x y).
Proof.
  destruct x as [s|s| |s m e Hm], y as [t|t| |t n f Hn]; try reflexivity. cbn [Bdiv]. rewrite B2SF_SF2B. cbn. unfold SFdiv.
  destruct (SFdiv_core_binary _ _ _ _ _ _) as [[a b] c]. symmetry. apply round_aux_NE.
Qed.
Lemma sqrt_B (x : b64) : sf_sqrt (B2SF x) = B2SF (Bsqrt mode_NE x).
Proof.
  destruct x as [s|s| |s m e Hm]; try (destruct s; reflexivity); try reflexivity. destruct s; [reflexivity|]. cbn [Bsqrt]. rewrite B2SF_SF2B. cbn. unfold SFsqrt.
  destruct (SFsqrt_core_binary _ _ _ _) as [[a b] c]. symmetry. apply round_aux_NE.
Qed.
Lemma dbl_opp x : dbl x -> dbl (SFopp x). Proof. destruct x; auto. Qed.
Lemma dbl_add x y : dbl x -> dbl y -> dbl (sf_add x y).
Proof. intros Hx Hy. destruct (B_dbl Hx) as [a ->], (B_dbl Hy) as [b ->]. rewrite add_B. apply dbl_B. Qed.
Lemma dbl_sub x y : dbl x -> dbl y -> dbl (sf_sub x y).
Proof. intros Hx Hy. rewrite sub_add. apply dbl_add; [|apply dbl_opp]; assumption. Qed.
Lemma dbl_mul x y : dbl x -> dbl y -> dbl (sf_mul x y).
Proof. intros Hx Hy. destruct (B_dbl Hx) as [a ->], (B_dbl Hy) as [b ->]. rewrite mul_B. apply dbl_B. Qed.
Lemma dbl_div x y : dbl x -> dbl y -> dbl (sf_div x y).
Proof. intros Hx Hy. destruct (B_dbl Hx) as [a ->], (B_dbl Hy) as [b ->]. rewrite div_B. apply dbl_B. Qed.
Lemma dbl_sqrt x : dbl x -> dbl (sf_sqrt x).
Proof. intros Hx. destruct (B_dbl Hx) as [a ->]. rewrite sqrt_B. apply dbl_B. Qed.

Definition two : spec_float := sf_ofZ 2.
Definition nonneg (x : spec_float) : Prop := SFltb x (S754_zero false) = false.
Notation fe := (SpecFloat.fexp prec64 emax64).
Notation fmt := (generic_format radix2 fe).
#[local] Instance V53 : Valid_exp fe := FLT_exp_valid (-1074) 53.
#[local] Instance M53 : Monotone_exp fe := FLT_exp_monotone (-1074) 53.

(** Half a length, rounded: at most half the smallest number away. *)
Lemma half_near l : fmt l -> (0 <= l)%R -> (l / 2 - rnd (l / 2) <= bpow radix2 (-1074) / 2)%R.
Proof.
  intros Fl Hl. destruct (Rlt_or_le l (bpow radix2 (-1021))) as [H|H].
  - assert (U : ulp radix2 fe (l / 2) = bpow radix2 (-1074)).
    { apply (@ulp_FLT_small radix2 (-1074) 53 eq_refl). rewrite Rabs_pos_eq by lra. change (-1074 + 53)%Z with (-1021). lra. }
    pose proof (error_le_half_ulp radix2 fe (fun x => negb (Z.even x)) (l / 2)) as E. fold (rnd (l / 2)) in E. rewrite U in E.
    apply Rabs_le_inv in E. lra.
  - assert (G : fmt (l / 2)).
    { change (l / 2)%R with (l * bpow radix2 (-1))%R. apply (@mult_bpow_exact_FLT radix2 (-1074) 53 l (-1) Fl).
      assert (-1021 < mag radix2 l)%Z; [|lia]. apply mag_gt_bpow. rewrite Rabs_pos_eq; assumption. }
    unfold rnd. rewrite (round_generic radix2 fe ZnearestE _ G). pose proof (bpow_gt_0 radix2 (-1074)). lra.
Qed.
Lemma rnd_le x y : (x <= y)%R -> (rnd x <= rnd y)%R. Proof. apply round_le; typeclasses eauto. Qed.
Lemma rnd_fmt x : fmt x -> rnd x = x. Proof. apply round_generic; typeclasses eauto. Qed.
(** A difference above half the length is shifted once. *)
Lemma shift_above l x : fmt l -> (0 <= l)%R -> fmt x -> (rnd (l / 2) < x)%R -> (- rnd (l / 2) <= rnd (x - l))%R.
Proof.
  intros Fl Hl Fx H. assert (Fh : fmt (rnd (l / 2))) by (apply generic_format_round; typeclasses eauto).
  assert (H0 : (0 <= rnd (l / 2))%R) by (rewrite <- (rnd_fmt (generic_format_0 radix2 fe)); apply rnd_le; lra).
  pose proof (succ_le_lt radix2 fe _ _ Fh Fx H) as S. rewrite succ_eq_pos in S by exact H0.
  pose proof (@ulp_ge_ulp_0 radix2 fe _ (@monotone_exp_not_FTZ fe _ _) (rnd (l / 2))) as U.
  change (ulp radix2 fe 0) with (ulp radix2 (FLT_exp (-1074) 53) 0) in U. rewrite (@ulp_FLT_0 radix2 (-1074) 53 eq_refl) in U.
  pose proof (half_near Fl Hl) as E. rewrite <- (rnd_fmt (generic_format_opp _ _ _ Fh)). apply rnd_le. lra.
Qed.
Lemma B_opp (x : b64) : SFopp (B2SF x) = B2SF (Bopp x). Proof. destruct x; reflexivity. Qed.
Lemma two_B : exists b : b64, two = B2SF b /\ B2R b = 2%R.
Proof.
  assert (V : valid_binary prec64 emax64 two = true) by (vm_compute; reflexivity). exists (SF2B two V). split; [symmetry; apply B2SF_SF2B|].
  rewrite B2R_SF2B. replace two with (S754_finite false (2 ^ 52) (-51)) by (vm_compute; reflexivity). unfold SF2R, F2R. cbn [cond_Zopp Fnum Fexp].
  change (4503599627370496 * bpow radix2 (-51) = 2)%R. change (bpow radix2 (-51)) with (/ 2251799813685248)%R. lra.
Qed.
Lemma wrap_once L d : dbl L -> dbl d -> nonneg L -> SFltb (sf_div L two) d = true -> SFltb (sf_sub d L) (SFopp (sf_div L two)) = false.
Proof.
  intros VL Vd HL H. destruct (B_dbl VL) as [l ->], (B_dbl Vd) as [x ->]. destruct two_B as (b & E2 & B2). rewrite E2 in *.
  destruct (is_finite l) eqn:Fl.
  2:{ destruct l as [s|s| |s m e Hm]; try discriminate Fl.
      - destruct s; [discriminate HL|]. rewrite div_B in H. destruct b as [u|u| |u n f Hn]; try discriminate E2. cbn in H. destruct u; [discriminate E2|]. destruct x as [v|[]| |[] ? ? ?]; discriminate H.
      - rewrite div_B in H. destruct b; discriminate H. }
  assert (l0 : (0 <= B2R l)%R).
  { apply Rnot_lt_le. intros C. pose proof (Bltb_correct prec64 emax64 l (B754_zero false) Fl eq_refl) as Q. unfold Bltb in Q. cbn [B2SF B2R] in Q. rewrite Rlt_bool_true in Q by exact C. unfold nonneg in HL. congruence. }
  assert (FL : fmt (B2R l)) by apply generic_format_B2R.
  assert (hB : B2R (Bdiv mode_NE l b) = rnd (B2R l / 2) /\ is_finite (Bdiv mode_NE l b) = true).
  { pose proof (Bdiv_correct prec64 emax64 _ _ mode_NE l b) as Q. rewrite B2 in Q. specialize (Q ltac:(lra)). change (round radix2 fe (round_mode mode_NE)) with rnd in Q.
    rewrite Rlt_bool_true in Q; [destruct Q as (Q1 & Q2 & _); split; congruence|].
    assert ((0 <= rnd (B2R l / 2) <= B2R l)%R).
    { split; [rewrite <- (rnd_fmt (generic_format_0 radix2 fe))|rewrite <- (rnd_fmt FL) at 2]; apply rnd_le; lra. }
    rewrite Rabs_pos_eq by lra. pose proof (abs_B2R_lt_emax prec64 emax64 l) as Q3. rewrite Rabs_pos_eq in Q3 by exact l0. lra. }
  destruct hB as [hR hF]. rewrite div_B in *. set (h := Bdiv mode_NE l b) in *. clearbody h.
  destruct (is_finite x) eqn:Fx.
  2:{ destruct x as [s|s| |s m e Hm]; try discriminate Fx.
      - destruct s; [destruct h as [u|u| |[] n f Hn]; discriminate|]. destruct l as [u|u| |u n f Hn]; try discriminate Fl; cbn; destruct h as [u'|u'| |u' n' f' Hn']; try discriminate hF; reflexivity.
      - destruct h as [u|u| |[] n f Hn]; discriminate. }
  pose proof (Bltb_correct prec64 emax64 h x hF Fx) as Q. unfold Bltb in Q. rewrite H in Q. symmetry in Q.
  assert (hx : (B2R h < B2R x)%R) by (destruct (Rlt_bool_spec (B2R h) (B2R x)); [assumption|discriminate]). clear Q. rewrite hR in hx.
  assert (FX : fmt (B2R x)) by apply generic_format_B2R.
  assert (S := shift_above FL l0 FX hx).
  assert (x0 : (0 <= B2R x)%R) by (assert (0 <= rnd (B2R l / 2))%R by (rewrite <- (rnd_fmt (generic_format_0 radix2 fe)); apply rnd_le; lra); lra).
  rewrite sub_add. rewrite !B_opp, add_B.
  pose proof (Bplus_correct prec64 emax64 _ _ mode_NE x (Bopp l) Fx) as P. rewrite is_finite_Bopp in P. specialize (P Fl). rewrite B2R_Bopp in P.
  change (round radix2 fe (round_mode mode_NE)) with rnd in P. change (B2R x + - B2R l)%R with (B2R x - B2R l)%R in P.
  rewrite Rlt_bool_true in P.
  2:{ assert ((rnd (- B2R l) <= rnd (B2R x - B2R l) <= rnd (B2R x))%R) as [Q1 Q2] by (split; apply rnd_le; lra).
      rewrite (rnd_fmt (generic_format_opp _ _ _ FL)) in Q1. rewrite (rnd_fmt FX) in Q2.
      pose proof (abs_B2R_lt_emax prec64 emax64 l) as Q3. pose proof (abs_B2R_lt_emax prec64 emax64 x) as Q4. rewrite Rabs_pos_eq in Q3, Q4 by assumption. apply Rabs_lt. lra. }
  destruct P as (P1 & P2 & _). assert (hF' : is_finite (Bopp h) = true) by (rewrite is_finite_Bopp; exact hF).
  pose proof (Bltb_correct prec64 emax64 _ (Bopp h) P2 hF') as Q. unfold Bltb in Q. rewrite Q. apply Rlt_bool_false. rewrite P1, B2R_Bopp, hR. exact S.
Qed.

Lemma half_nonneg L : dbl L -> nonneg L -> nonneg (sf_div L two).
Proof.
  intros VL HL. destruct (B_dbl VL) as [l ->]. destruct two_B as (b & E2 & B2). rewrite E2, div_B.
  destruct b as [u|u| |u n f Hn]; try discriminate E2. destruct u; [discriminate E2|].
  assert (SG : forall s m e g, s = false -> SFltb (SpecFloat.binary_round_aux prec64 emax64 s m e g) (S754_zero false) = false).
  { intros s m e g ->. unfold SpecFloat.binary_round_aux. destruct (shr_fexp prec64 emax64 m e g) as [r e'].
    destruct (shr_fexp prec64 emax64 _ e' loc_Exact) as [r' e'']. destruct (shr_m r'); try reflexivity. destruct (e'' <=? emax64 - prec64); reflexivity. }
  destruct l as [s|s| |s m e Hm]; cbn [Bdiv].
  - reflexivity.
  - destruct s; [discriminate HL|reflexivity].
  - reflexivity.
  - destruct s; [discriminate HL|]. unfold nonneg. rewrite B2SF_SF2B. destruct (SFdiv_core_binary _ _ _ _ _ _) as [[a c] g]. rewrite round_aux_NE. apply SG. reflexivity.
Qed.

Section Wrap.
Variable lib : libm.
Notation D := (SF64 lib).
Lemma neg_half (L : D) : sf_div (SFopp L) (n2 (N := D)) = SFopp (sf_div L two).
Proof. apply div_opp. Qed.
Lemma opp_wrap1 (L d d' : D) : dbl L -> nonneg L -> dbl d -> dbl d' -> opp d d' -> opp (wrap1 (N := D) L d) (wrap1 (N := D) L d').
Proof.
  intros VL HL Vd Vd' HO. change (opp (let d1 := if SFltb (sf_div L two) d then sf_sub d L else d in if SFltb d1 (sf_div (SFopp L) two) then sf_add d1 L else d1)
    (let d1 := if SFltb (sf_div L two) d' then sf_sub d' L else d' in if SFltb d1 (sf_div (SFopp L) two) then sf_add d1 L else d1)). cbv zeta.
  rewrite div_opp. pose proof (half_nonneg VL HL) as H0. pose proof (wrap_once VL Vd HL) as W. pose proof (wrap_once VL Vd' HL) as W'.
  set (h := sf_div L two) in *. clearbody h.
  assert (E1 := opp_ltb h HO). assert (E2 := opp_ltb h (opp_sym HO)).
  assert (EX : forall x, SFltb h x = true -> SFltb x (SFopp h) = true -> False).
  { intros x A B. unfold nonneg in H0. revert H0 A B. clear. destruct h as [s|s| |[] m e], x as [t|t| |[] n f]; cbn; try discriminate; try (destruct s; discriminate); try (destruct t; discriminate); try (destruct s, t; discriminate). }
  destruct (SFltb h d) eqn:A.
  - rewrite (W eq_refl). assert (SFltb h d' = false) as ->. { destruct (SFltb h d') eqn:C; [|reflexivity]. exfalso. exact (EX d A (eq_sym E2)). }
    rewrite <- E1. rewrite sub_add. apply opp_add; [exact HO|]. apply opp_sym, opp_self.
  - rewrite <- E2. destruct (SFltb h d') eqn:C.
    + rewrite (W' eq_refl). rewrite sub_add. apply opp_add; [exact HO|apply opp_self].
    + rewrite <- E1. exact HO.
Qed.

Notation dbl3 := (all3 dbl (lib := lib)).
Notation dbl33 := (all33 dbl (lib := lib)).
Definition opp3 (v w : v3 D) : Prop := opp (vx v) (vx w) /\ opp (vy v) (vy w) /\ opp (vz v) (vz w).
Definition nonneg3 (v : v3 D) : Prop := nonneg (vx v) /\ nonneg (vy v) /\ nonneg (vz v).
Lemma dbl_dot v w : dbl3 v -> dbl3 w -> dbl (vdot v w).
Proof. intros (A1 & A2 & A3) (B1 & B2 & B3). repeat apply dbl_add; apply dbl_mul; assumption. Qed.
Lemma dbl_mv m v : dbl33 m -> dbl3 v -> dbl3 (mvmul m v).
Proof. intros (A1 & A2 & A3) B. repeat split; apply dbl_dot; assumption. Qed.
Lemma opp_dot m v w : opp3 v w -> opp (vdot m v) (vdot m w).
Proof. intros (A1 & A2 & A3). repeat apply opp_add; apply opp_mul; assumption. Qed.
Lemma opp_mv m v w : opp3 v w -> opp3 (mvmul m v) (mvmul m w).
Proof. intros A. repeat split; apply opp_dot; exact A. Qed.
Lemma opp_wrap len v w : dbl3 len -> nonneg3 len -> dbl3 v -> dbl3 w -> opp3 v w -> opp3 (wrap len v) (wrap len w).
Proof. intros (L1 & L2 & L3) (N1 & N2 & N3) (V1 & V2 & V3) (W1 & W2 & W3) (O1 & O2 & O3). repeat split; apply opp_wrap1; assumption. Qed.
(** The box of the system consists of doubles, with lengths that are not negative. *)
Definition good_box (s : sys D) : Prop := dbl3 (s_len s) /\ nonneg3 (s_len s) /\ dbl33 (s_rot s) /\ dbl33 (s_rotinv s).
Lemma opp_pbc s v w : good_box s -> dbl3 v -> dbl3 w -> opp3 v w -> opp3 (pbc_diff s v) (pbc_diff s w).
Proof.
  intros (L & L0 & R1 & R2) V W O. unfold pbc_diff. destruct (s_tri s); [|apply opp_wrap; assumption]. cbv zeta.
  assert (SC : forall u, dbl3 u -> dbl3 (mkV (N := D) (nmul (vx u) (vx (s_len s))) (nmul (vy u) (vy (s_len s))) (nmul (vz u) (vz (s_len s))))).
  { intros u (U1 & U2 & U3). destruct L as (L1 & L2 & L3). repeat split; apply dbl_mul; assumption. }
  assert (V' := dbl_mv R2 V). assert (W' := dbl_mv R2 W). assert (O' := opp_mv (s_rotinv s) O). apply opp_mv.
  destruct (@opp_wrap (s_len s) _ _ L L0 (SC _ V') (SC _ W')) as (Q1 & Q2 & Q3).
  - destruct O' as (O1 & O2 & O3). repeat split; apply opp_mul_r; assumption.
  - repeat split; apply opp_div; assumption.
Qed.
Lemma norm_opp v w : opp3 v w -> norm v = norm w.
Proof.
  intros (O1 & O2 & O3). change (sf_sqrt (sf_add (sf_add (sf_mul (vx v) (vx v)) (sf_mul (vy v) (vy v))) (sf_mul (vz v) (vz v))) =
    sf_sqrt (sf_add (sf_add (sf_mul (vx w) (vx w)) (sf_mul (vy w) (vy w))) (sf_mul (vz w) (vz w)))).
  rewrite (opp_square O1), (opp_square O2), (opp_square O3). reflexivity.
Qed.
Theorem distance_sym s p q : good_box s -> dbl3 p -> dbl3 q -> abs_distance s p q = abs_distance s q p.
Proof.
  intros G (P1 & P2 & P3) (Q1 & Q2 & Q3). unfold abs_distance. apply norm_opp, opp_pbc; [exact G| | |]; repeat split; try (apply dbl_sub; assumption); apply opp_sub.
Qed.

(** Not negative. *)
Lemma round_sign m e l : nonneg (SpecFloat.binary_round_aux prec64 emax64 false m e l).
Proof.
  unfold nonneg, SpecFloat.binary_round_aux. destruct (shr_fexp prec64 emax64 m e l) as [r e'].
  destruct (shr_fexp prec64 emax64 _ e' loc_Exact) as [r' e'']. destruct (shr_m r'); try reflexivity. destruct (e'' <=? emax64 - prec64); reflexivity.
Qed.
Lemma norm_nonneg (v : v3 D) : nonneg (norm v).
Proof.
  unfold norm. cbn [nsqrt SF64]. generalize (nadd (n := D) (nadd (nmul (vx v) (vx v)) (nmul (vy v) (vy v))) (nmul (vz v) (vz v))).
  intros x. destruct x as [s|s| |s m e]; cbn; try reflexivity; destruct s; try reflexivity.
  unfold SFsqrt. destruct (SFsqrt_core_binary _ _ _ _) as [[a b] c]. apply round_sign.
Qed.

(** Zero from an atom to itself. *)
Notation fin3 := (all3 fin (lib := lib)).
Notation fin33 := (all33 fin (lib := lib)).
Notation zero3 := (all3 zero (lib := lib)).
Lemma fin_b x : fin x -> is_finite_SF x = true. Proof. intros (s & m & e & [->| ->]); reflexivity. Qed.
Lemma zero_sub x : fin x -> zero (sf_sub x x).
Proof.
  destruct x as [s|s| |s m e]; intros F; apply fin_b in F; try discriminate F; [destruct s; eexists; reflexivity|].
  unfold sf_sub. cbn [SFsub]. rewrite Z.sub_diag. eexists. reflexivity.
Qed.
Lemma zero_mul k x : fin k -> zero x -> zero (sf_mul k x).
Proof. intros F [s ->]. apply fin_b in F. destruct k; try discriminate F; eexists; reflexivity. Qed.
Lemma zero_mul_r k x : fin k -> zero x -> zero (sf_mul x k).
Proof. intros F [s ->]. apply fin_b in F. destruct k; try discriminate F; eexists; reflexivity. Qed.
Lemma zero_add x y : zero x -> zero y -> zero (sf_add x y).
Proof. intros [s ->] [t ->]. destruct s, t; eexists; reflexivity. Qed.
Lemma zero_div x k : zero x -> fin k -> ~ zero k -> zero (sf_div x k).
Proof. intros [s ->] F NZ. apply fin_b in F. destruct k as [u|u| |u m e]; try discriminate F; [exfalso; apply NZ; eexists; reflexivity|eexists; reflexivity]. Qed.
Lemma zero_dot m v : fin3 m -> zero3 v -> zero (vdot m v).
Proof. intros (A1 & A2 & A3) (B1 & B2 & B3). repeat apply zero_add; apply zero_mul; assumption. Qed.
Lemma zero_mv m v : fin33 m -> zero3 v -> zero3 (mvmul m v).
Proof. intros (A1 & A2 & A3) B. repeat split; apply zero_dot; assumption. Qed.
Lemma zero_wrap1 (L d : D) : dbl L -> nonneg L -> zero d -> zero (wrap1 (N := D) L d).
Proof.
  intros VL HL [s ->]. pose proof (half_nonneg VL HL) as H0. unfold wrap1. cbn [nltb ndiv nopp nsub nadd SF64]. change (n2 (N := D)) with two. rewrite div_opp.
  set (h := sf_div L two) in *. clearbody h. unfold nonneg in H0.
  assert (SFltb h (S754_zero s) = false) as -> by (destruct h as [u|[]| |[] m e]; try reflexivity; discriminate H0).
  assert (SFltb (S754_zero s) (SFopp h) = false) as -> by (destruct h as [u|[]| |[] m e]; try reflexivity; discriminate H0). eexists. reflexivity.
Qed.
Lemma zero_norm v : zero3 v -> norm v = S754_zero false.
Proof. destruct v as [x y z]. intros ([a A] & [b B] & [c C]). cbn in A, B, C. subst. destruct a, b, c; reflexivity. Qed.
Theorem distance_self s p : good_box s -> fin3 p -> (s_tri s = true -> fin33 (s_rot s) /\ fin33 (s_rotinv s) /\ fin3 (s_len s) /\ ~ zero (vx (s_len s)) /\ ~ zero (vy (s_len s)) /\ ~ zero (vz (s_len s))) ->
  abs_distance s p p = S754_zero false.
Proof.
  intros ((L1 & L2 & L3) & (N1 & N2 & N3) & _) (F1 & F2 & F3) HT. unfold abs_distance. apply zero_norm.
  assert (Z : zero3 (vsub p p)) by (repeat split; apply zero_sub; assumption). unfold pbc_diff. destruct (s_tri s).
  - destruct (HT eq_refl) as (R1 & R2 & (l1 & l2 & l3) & z1 & z2 & z3). cbv zeta. apply zero_mv; [exact R1|]. destruct (zero_mv R2 Z) as (A & B & C).
    repeat split; apply zero_div; try assumption; apply zero_wrap1; try assumption; apply zero_mul_r; assumption.
  - destruct Z as (A & B & C). repeat split; apply zero_wrap1; assumption.
Qed.

(** Not NaN in an orthogonal box. *)
Definition nan (x : spec_float) : Prop := x = S754_nan.
Lemma round_not_nan (x : b64) : B2SF x = S754_nan -> is_nan x = true. Proof. destruct x; try discriminate; reflexivity. Qed.
Lemma normalize_not_nan z e b : SpecFloat.binary_normalize prec64 emax64 z e b <> S754_nan.
Proof.
  rewrite <- normalize_NE. intros C. apply round_not_nan in C. revert C.
  destruct z as [|p|p]; cbn [binary_normalize]; [discriminate| |]; rewrite is_nan_SF2B.
  - pose proof (is_nan_binary_round prec64 emax64 _ _ mode_NE false p e) as Q. congruence.
  - pose proof (is_nan_binary_round prec64 emax64 _ _ mode_NE true p e) as Q. congruence.
Qed.
Lemma sub_not_nan x y : fin x -> fin y -> ~ nan (sf_sub x y).
Proof.
  intros Fx Fy. apply fin_b in Fx, Fy. destruct x as [s|s| |s m e], y as [t|t| |t n f]; try discriminate; unfold nan, sf_sub; cbn [SFsub]; try (destruct s, t; discriminate).
  apply normalize_not_nan.
Qed.
Lemma sub_not_nan' x y : ~ nan x -> fin y -> ~ nan (sf_sub x y).
Proof.
  intros Fx Fy. apply fin_b in Fy. destruct x as [s|s| |s m e]; [| |now elim Fx|]; destruct y as [t|t| |t n f]; try discriminate; unfold nan, sf_sub; cbn [SFsub]; try (destruct s, t; discriminate); try (destruct s; discriminate).
  apply normalize_not_nan.
Qed.
Lemma add_not_nan' x y : ~ nan x -> fin y -> ~ nan (sf_add x y).
Proof.
  intros Fx Fy. rewrite <- (opp_opp y), <- sub_add. apply sub_not_nan'; [exact Fx|]. destruct Fy as (s & m & e & [->| ->]); exists (negb s), m, e; [now left|now right].
Qed.
Lemma wrap_not_nan (L d : D) : dbl L -> nonneg L -> ~ nan d -> ~ nan (wrap1 (N := D) L d).
Proof.
  intros VL HL Hd. unfold wrap1. cbn [nltb ndiv nopp nsub nadd SF64]. change (n2 (N := D)) with two. rewrite div_opp.
  assert (FL : fin L \/ sf_div L two = S754_infinity false \/ sf_div L two = S754_nan).
  { destruct L as [s|s| |s m e]; [left; exists s, xH, 0%Z; now left| | |left; exists s, m, e; now right].
    - destruct s; [discriminate HL|right; left; reflexivity].
    - right; right; reflexivity. }
  destruct FL as [FL|[E|E]].
  - cbv zeta. assert (H1 : ~ nan (if SFltb (sf_div L two) d then sf_sub d L else d)) by (destruct (SFltb _ d); [apply sub_not_nan'|]; assumption).
    destruct (SFltb _ (SFopp _)); [apply add_not_nan'|]; assumption.
  - rewrite E. destruct d as [s|s| |s m e]; [| |now elim Hd|]; destruct s; cbn; discriminate.
  - rewrite E. destruct d as [s|s| |s m e]; [| |now elim Hd|]; destruct s; cbn; discriminate.
Qed.
Definition pos (x : spec_float) : Prop := match x with S754_zero _ => True | S754_infinity s | S754_finite s _ _ => s = false | S754_nan => False end.
Lemma pos_of x : nonneg x -> ~ nan x -> pos x.
Proof. destruct x as [s|[]| |[] m e]; cbn; intros H C; try exact I; try reflexivity; try discriminate H. now elim C. Qed.
Lemma pos_round m e l : dbl (SpecFloat.binary_round_aux prec64 emax64 false m e l) -> SpecFloat.binary_round_aux prec64 emax64 false m e l <> S754_nan -> pos (SpecFloat.binary_round_aux prec64 emax64 false m e l).
Proof. intros _ H. apply pos_of; [apply round_sign|exact H]. Qed.
Lemma pos_square x : dbl x -> ~ nan x -> pos (sf_mul x x).
Proof.
  intros Vx Hx. destruct x as [s|s| |s m e]; [destruct s; exact I|destruct s; reflexivity|now elim Hx|].
  apply pos_of.
  - unfold sf_mul. cbn [SFmul]. rewrite xorb_nilpotent. apply round_sign.
  - destruct (B_dbl Vx) as [b Eb]. rewrite Eb, mul_B. intros C. apply round_not_nan in C.
    destruct b as [t|t| |t n f Hn]; try discriminate Eb. cbn [Bmult] in C. rewrite is_nan_SF2B in C.
    pose proof (@Bmult_correct_aux prec64 emax64 _ _ mode_NE t n f Hn t n f Hn) as Q. cbv zeta in Q. destruct Q as [_ Q].
    destruct (Rlt_bool _ _); [destruct Q as (_ & Q & _)|]; destruct (BinarySingleNaN.binary_round_aux _ _ _ _ _ _ _); try discriminate.
Qed.
Lemma pos_add x y : pos x -> pos y -> pos (sf_add x y).
Proof.
  destruct x as [s|s| |s m e], y as [t|t| |t n f]; cbn [pos]; intros Hx Hy; try contradiction; subst; try exact I; try reflexivity; try (destruct s, t; exact I).
  unfold sf_add. cbn [SFadd cond_Zopp]. apply pos_of; [|apply normalize_not_nan].
  match goal with |- nonneg (SpecFloat.binary_normalize _ _ (Zpos ?a + Zpos ?b) _ _) => change (Zpos a + Zpos b) with (Zpos (a + b)) end.
  cbn [SpecFloat.binary_normalize]. unfold SpecFloat.binary_round. destruct (shl_align _ _ _). apply round_sign.
Qed.
Lemma pos_sqrt x : dbl x -> pos x -> ~ nan (sf_sqrt x).
Proof.
  intros Vx Hx. destruct (B_dbl Vx) as [b Eb]. rewrite Eb, sqrt_B. intros C. apply round_not_nan in C.
  pose proof (Bsqrt_correct prec64 emax64 _ _ mode_NE b) as (_ & Q & _). destruct b as [t|t| |t n f Hn]; subst x; cbn in Hx; subst; try contradiction; try discriminate C.
  destruct (Bsqrt mode_NE (B754_finite false n f Hn)); try discriminate.
Qed.
Lemma fin_not_nan x : fin x -> ~ nan x. Proof. intros (s & m & e & [->| ->]); discriminate. Qed.
Theorem distance_not_nan s p q : good_box s -> s_tri s = false -> dbl3 p -> dbl3 q -> fin3 p -> fin3 q -> SFeqb (abs_distance s p q) (abs_distance s p q) = true.
Proof.
  intros ((L1 & L2 & L3) & (N1 & N2 & N3) & _) HT (P1 & P2 & P3) (Q1 & Q2 & Q3) (p1 & p2 & p3) (q1 & q2 & q3).
  assert (H : ~ nan (abs_distance s p q)).
  { unfold abs_distance, pbc_diff. rewrite HT. unfold norm. cbn [wrap vx vy vz vsub nsqrt SF64].
    assert (G : forall L d : D, dbl L -> nonneg L -> dbl d -> ~ nan d -> dbl (wrap1 (N := D) L d) /\ ~ nan (wrap1 (N := D) L d)).
    { intros L d A B C E. split; [|apply wrap_not_nan; assumption]. unfold wrap1. cbn [nltb ndiv nopp nsub nadd SF64]. cbv zeta.
      destruct (SFltb _ d); destruct (SFltb _ (sf_div (SFopp L) _)); try (apply dbl_add); try (apply dbl_sub); assumption. }
    destruct (G _ _ L1 N1 (dbl_sub P1 Q1) (sub_not_nan p1 q1)) as [A1 B1]. destruct (G _ _ L2 N2 (dbl_sub P2 Q2) (sub_not_nan p2 q2)) as [A2 B2].
    destruct (G _ _ L3 N3 (dbl_sub P3 Q3) (sub_not_nan p3 q3)) as [A3 B3].
    apply pos_sqrt; [repeat apply dbl_add; apply dbl_mul; assumption|]. apply pos_add; [apply pos_add|]; apply pos_square; assumption. }
  revert H. generalize (abs_distance s p q). intros x Hx. destruct x as [t|t| |t m e]; [reflexivity|destruct t; reflexivity|now elim Hx|].
  unfold SFeqb, SFcompare. rewrite Z.compare_refl. change (Pos.compare_cont Eq m m) with (Pos.compare m m). rewrite Pos.compare_refl. destruct t; reflexivity.
Qed.

(** The box setter. *)
Lemma dbl_0 : dbl (n0 (N := D)). Proof. reflexivity. Qed.
Lemma nonneg_sqrt_0 (x : D) : nonneg (sf_sub (sf_sqrt x) (n0 (N := D))).
Proof.
  assert (H : nonneg (sf_sqrt x)).
  { destruct x as [s|s| |s m e]; cbn; try reflexivity; destruct s; try reflexivity. unfold sf_sqrt, SFsqrt. destruct (SFsqrt_core_binary _ _ _ _) as [[a b] c]. apply round_sign. }
  change (n0 (N := D)) with (S754_zero false). destruct (sf_sqrt x) as [s|s| |s m e]; try exact H; try reflexivity. destruct s; reflexivity.
Qed.
Lemma sbox_len_double (B : m3 D) : dbl33 B -> dbl3 (sbox_len B) /\ nonneg3 (sbox_len B).
Proof.
  intros (A0 & A1 & A2). assert (G : forall v : v3 D, dbl3 v -> dbl (nsub (n := D) (nsqrt (nadd (nadd (nadd n0 (nmul (vx v) (vx v))) (nmul (vy v) (vy v))) (nmul (vz v) (vz v)))) n0)).
  { intros v (V1 & V2 & V3). apply dbl_sub; [|apply dbl_0]. apply dbl_sqrt. repeat apply dbl_add; try apply dbl_0; apply dbl_mul; assumption. }
  split; (split; [|split]); try (apply G; assumption); apply nonneg_sqrt_0.
Qed.
Lemma box_set_good inv (s0 s : sys D) B : box_set inv s0 B = Ok s -> dbl33 B -> dbl33 (s_rot s0) -> dbl33 (s_rotinv s0) ->
  (forall m m', inv m = Some m' -> dbl33 m') -> good_box s.
Proof.
  intros H HB HR HI Hinv. unfold box_set in H. destruct (sbox_len_double HB) as [A1 A2].
  assert (T : dbl33 (mtrans B)) by (destruct HB as ((B1 & B2 & B3) & (B4 & B5 & B6) & (B7 & B8 & B9)); repeat split; assumption).
  destruct (nltb _ _); [destruct (inv (mtrans B)) as [ri|] eqn:E; [|discriminate]|]; injection H as <-; (split; [exact A1|split; [exact A2|]]).
  - split; [exact T|exact (Hinv _ _ E)].
  - split; assumption.
Qed.
End Wrap.
