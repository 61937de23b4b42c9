(** Rounding to decimals: exact reals and IEEE doubles. *)
From Coq Require Import ZArith List Bool Lia Reals Lra.
From Coq.Floats Require Import SpecFloat.
From Flocq Require Import Core BinarySingleNaN.
From Verif Require Import Base Num NumR NumF NumP M_Text S_Lammps P_Text.
Close Scope R_scope.
Open Scope Z_scope.

Lemma R_round_near y : (Rabs (IZR (R_round y) - y) <= 1 / 2)%R.
Proof.
  unfold R_round, half_even. destruct (base_Int_part y) as [L U]. set (q := Int_part y) in *.
  destruct (Rltb (y - IZR q) (1/2)) eqn:E1.
  - apply Rltb_true in E1. apply Rabs_le. lra.
  - apply Rltb_false in E1. destruct (Rltb (1/2) (y - IZR q)) eqn:E2.
    + rewrite plus_IZR. apply Rabs_le. lra.
    + apply Rltb_false in E2. destruct (Z.even q); [|rewrite plus_IZR]; apply Rabs_le; lra.
Qed.
Lemma R_round_pos y : (0 <= y)%R -> 0 <= R_round y.
Proof.
  intros H. assert (Q : 0 <= Int_part y).
  { destruct (base_Int_part y) as [_ U]. apply le_IZR. apply Z.lt_succ_r in U || idtac. assert (-1 < IZR (Int_part y))%R by lra. apply lt_IZR in H0. apply IZR_le. lia. }
  unfold R_round, half_even. destruct (Rltb _ _); [lia|]. destruct (Rltb _ _); [lia|]. destruct (Z.even _); lia.
Qed.

Lemma R_dec_ok k x : dec_ok k (tn_fix R_text k x).
Proof.
  cbn. split; [|reflexivity]. apply R_round_pos. apply Rmult_le_pos; [apply Rabs_pos|]. apply IZR_le. apply Z.pow_nonneg. lia.
Qed.
Lemma R_six x : six_decimals x (tn_dec R_text (tn_fix R_text 6 x)).
Proof.
  cbn [R_text tn_fix tn_dec]. change (0 <=? - Z.of_nat 6) with false. cbn iota. change (IZR (10 ^ (- - Z.of_nat 6))) with 1000000%R.
  change (IZR (10 ^ Z.of_nat 6)) with 1000000%R. pose proof (R_round_near (Rabs x * 1000000)) as H. set (m := R_round (Rabs x * 1000000)) in *.
  apply Rabs_le_inv in H. destruct (Rltb x 0) eqn:E.
  - apply Rltb_true in E. rewrite Rabs_left in H by exact E. split; [apply Rabs_le; lra|]. exists (- m)%Z. rewrite opp_IZR. lra.
  - apply Rltb_false in E. rewrite Rabs_pos_eq in H by exact E. split; [apply Rabs_le; lra|]. exists m. reflexivity.
Qed.

(** ** Doubles *)
Lemma sf_dec_ok k x : dec_ok k (sf_fix k x).
Proof.
  destruct x as [s|s| |s m e]; cbn [sf_fix dec_ok]; [lia|exact I|exact I|]. split; [|reflexivity].
  assert (A : 0 <= Zpos m * 10 ^ Z.of_nat k) by (apply Z.mul_nonneg_nonneg; [lia|apply Z.pow_nonneg; lia]).
  destruct (0 <=? e); [apply Z.mul_nonneg_nonneg; [exact A|apply Z.pow_nonneg; lia]|].
  assert (D : 0 <= Zpos m * 10 ^ Z.of_nat k / 2 ^ (- e)).
  { destruct (Z.eq_dec (2 ^ (- e)) 0) as [->|N]; [rewrite Zdiv_0_r; lia|]. apply Z.div_pos; [exact A|]. pose proof (Z.pow_nonneg 2 (- e)). lia. }
  unfold half_even. destruct (_ ?= _); [destruct (Z.even _)|..]; lia.
Qed.

(** The integer nearest to [10^k * x], ties to even. *)
Lemma half_even_near q c d r (z := half_even q (2 * r ?= d)) : 0 < d -> 0 <= r < d -> c = (IZR q + IZR r / IZR d)%R ->
  z = ZnearestE c.
Proof.
  intros Hd Hr ->. assert (P : (0 < IZR d)%R) by (apply IZR_lt; exact Hd).
  assert (F : Zfloor (IZR q + IZR r / IZR d) = q).
  { apply Zfloor_imp. rewrite plus_IZR. split.
    - assert (0 <= IZR r / IZR d)%R; [|lra]. apply Rmult_le_pos; [apply IZR_le; lia|]. apply Rlt_le, Rinv_0_lt_compat, P.
    - assert (IZR r / IZR d < 1)%R; [|lra]. apply Rmult_lt_reg_r with (IZR d); [exact P|]. unfold Rdiv. rewrite Rmult_assoc, Rinv_l by lra.
      assert (IZR r < IZR d)%R by (apply IZR_lt; lia). lra. }
  unfold z, Znearest. rewrite F. replace (IZR q + IZR r / IZR d - IZR q)%R with (IZR r / IZR d)%R by ring.
  assert (C : Rcompare (IZR r / IZR d) (/ 2) = (2 * r ?= d)).
  { rewrite <- (Rcompare_mult_r (2 * IZR d)) by lra.
    replace (IZR r / IZR d * (2 * IZR d))%R with (IZR (2 * r)) by (rewrite mult_IZR; field; lra).
    replace (/ 2 * (2 * IZR d))%R with (IZR d) by field. apply Rcompare_IZR. }
  rewrite C. unfold half_even. destruct (Z.compare_spec (2 * r) d) as [E|E|E].
  - assert (CE : Zceil (IZR q + IZR r / IZR d) = q + 1).
    { rewrite Zceil_floor_neq; [rewrite F; reflexivity|]. rewrite F. intros K. assert (0 < IZR r / IZR d)%R; [|lra].
      apply Rmult_lt_0_compat; [apply IZR_lt; lia|apply Rinv_0_lt_compat, P]. }
    rewrite CE. destruct (Z.even q); reflexivity.
  - reflexivity.
  - assert (CE : Zceil (IZR q + IZR r / IZR d) = q + 1).
    { rewrite Zceil_floor_neq; [rewrite F; reflexivity|]. rewrite F. intros K. assert (0 < IZR r / IZR d)%R; [|lra].
      apply Rmult_lt_0_compat; [apply IZR_lt; lia|apply Rinv_0_lt_compat, P]. }
    rewrite CE. reflexivity.
Qed.
Lemma sf_fix_near k s m e : exists v, sf_fix k (S754_finite s m e) = DFin s v (- Z.of_nat k) /\
  v = ZnearestE (Rabs (SF2R radix2 (S754_finite s m e)) * IZR (10 ^ Z.of_nat k)).
Proof.
  cbn [sf_fix]. eexists. split; [reflexivity|].
  assert (A : Rabs (SF2R radix2 (S754_finite s m e)) = (IZR (Zpos m) * bpow radix2 e)%R).
  { cbn [SF2R]. rewrite F2R_cond_Zopp, abs_cond_Ropp. unfold F2R. cbn [Fnum Fexp]. apply Rabs_pos_eq. apply Rmult_le_pos; [apply IZR_le; lia|apply bpow_ge_0]. }
  rewrite A. destruct (Z.leb_spec 0 e) as [L|L].
  - replace (IZR (Zpos m) * bpow radix2 e * IZR (10 ^ Z.of_nat k))%R with (IZR (Zpos m * 10 ^ Z.of_nat k * 2 ^ e)).
    + symmetry. apply (Znearest_imp _ _ _). rewrite Rminus_eq_0, Rabs_R0. lra.
    + rewrite !mult_IZR. rewrite (IZR_Zpower radix2) by exact L. ring.
  - set (a := Zpos m * 10 ^ Z.of_nat k). set (d := 2 ^ (- e)). assert (D : 0 < d) by (apply Z.pow_pos_nonneg; lia).
    apply half_even_near; [exact D|apply Z.mod_pos_bound; exact D|].
    assert (E : (IZR (Zpos m) * bpow radix2 e * IZR (10 ^ Z.of_nat k))%R = (IZR a / IZR d)%R).
    { unfold a, d. rewrite mult_IZR. rewrite (IZR_Zpower radix2) by lia. rewrite (bpow_opp radix2 e). field. apply Rgt_not_eq, bpow_gt_0. }
    rewrite E. rewrite (Z.div_mod a d) at 1 by lia. rewrite plus_IZR, mult_IZR. field. apply IZR_neq. lia.
Qed.

(** float(): the double nearest to the decimal. *)
Definition rnd (x : R) : R := round radix2 (SpecFloat.fexp prec64 emax64) ZnearestE x.
Lemma round_aux_NE s m e l : binary_round_aux prec64 emax64 mode_NE s m e l = SpecFloat.binary_round_aux prec64 emax64 s m e l.
Proof.
  unfold binary_round_aux, SpecFloat.binary_round_aux. destruct (shr_fexp prec64 emax64 m e l) as [r e']. set (m' := shr_m r). set (l' := loc_of_shr_record r).
  assert (E : choice_mode mode_NE s m' l' = round_nearest_even m' l').
  { cbn [choice_mode]. unfold round_nearest_even. destruct l' as [|[| |]]; unfold Round.cond_incr, Round.round_N; try reflexivity. destruct (Z.even m'); reflexivity. }
  rewrite E. destruct (shr_fexp prec64 emax64 _ e' loc_Exact) as [r' e'']. destruct (shr_m r'); reflexivity.
Qed.
Lemma sf_dec_near s p k : 0 < k -> (Rabs (rnd (IZR (Zpos p) / IZR (10 ^ k))) < bpow radix2 1024)%R ->
  SF2R radix2 (sf_dec (DFin s (Zpos p) (- k))) = rnd (cond_Ropp s (IZR (Zpos p) / IZR (10 ^ k))) /\
  is_finite_SF (sf_dec (DFin s (Zpos p) (- k))) = true.
Proof.
  intros Hk Hb. cbn [sf_dec]. destruct (Z.leb_spec 0 (- k)) as [L|_]; [lia|]. rewrite Z.opp_involutive.
  assert (P : 0 < 10 ^ k) by (apply Z.pow_pos_nonneg; lia). destruct (10 ^ k) as [|q|q] eqn:Eq; [lia| |lia].
  pose proof (@Bdiv_correct_aux prec64 emax64 eq_refl eq_refl mode_NE s p 0 false q 0) as H. cbv zeta in H.
  unfold sf_div, SFdiv. destruct (SFdiv_core_binary prec64 emax64 (Zpos p) 0 (Zpos q) 0) as [[mz ez] lz].
  destruct H as [_ H]. cbn [cond_Zopp] in H. unfold F2R in H. cbn [Fnum Fexp bpow] in H. rewrite !Rmult_1_r in H.
  assert (EX : (IZR (cond_Zopp s (Zpos p)) / IZR (Zpos q))%R = cond_Ropp s (IZR (Zpos p) / IZR (Zpos q))).
  { destruct s; cbn [cond_Zopp cond_Ropp]; [|reflexivity]. change (Zneg p) with (- Zpos p). rewrite opp_IZR. field. apply IZR_neq. discriminate. }
  rewrite EX in H. change (round radix2 (SpecFloat.fexp prec64 emax64) (round_mode mode_NE)) with rnd in H.
  rewrite Rlt_bool_true in H.
  2:{ change emax64 with 1024. destruct s; cbn [cond_Ropp]; [|exact Hb]. unfold rnd. rewrite round_NE_opp, Rabs_Ropp. exact Hb. }
  rewrite <- round_aux_NE. destruct H as (H1 & H2 & _). split; [exact H1|exact H2].
Qed.
Lemma sf_six s m e (x := S754_finite s m e) (y := sf_dec (sf_fix 6 x)) :
  (Rabs (SF2R radix2 x) <= bpow radix2 1000)%R ->
  is_finite_SF y = true /\ SF2R radix2 y = rnd (IZR (ZnearestE (SF2R radix2 x * 1000000)) / 1000000).
Proof.
  intros Hb. destruct (sf_fix_near 6 s m e) as (v & Ef & Ev). fold x in Ef, Ev. unfold y. rewrite Ef. change (IZR (10 ^ Z.of_nat 6)) with 1000000%R in Ev.
  assert (Hs : SF2R radix2 x = cond_Ropp s (Rabs (SF2R radix2 x))).
  { unfold x. cbn [SF2R]. rewrite F2R_cond_Zopp, abs_cond_Ropp. rewrite (Rabs_pos_eq (F2R _)); [reflexivity|]. apply F2R_ge_0. discriminate. }
  assert (V : ZnearestE (SF2R radix2 x * 1000000) = cond_Zopp s v).
  { rewrite Hs. destruct s; cbn [cond_Ropp cond_Zopp]; [|symmetry; exact Ev]. rewrite Ropp_mult_distr_l_reverse, Znearest_opp, Ev.
    f_equal. unfold Znearest. destruct (Rcompare _ _); try reflexivity. rewrite Z.even_opp, Z.even_add. destruct (Z.even _); reflexivity. }
  assert (V0 : 0 <= v). { rewrite Ev. assert (H0 : (0 <= Rabs (SF2R radix2 x) * 1000000)%R) by (apply Rmult_le_pos; [apply Rabs_pos|lra]). assert (H1 := Znearest_ge_floor (fun t => negb (Z.even t)) (Rabs (SF2R radix2 x) * 1000000)). assert (H2 := Zfloor_lub 0 _ H0). lia. }
  rewrite V. destruct v as [|p|p]; [| |lia].
  - split; [reflexivity|]. cbn [sf_dec]. rewrite cond_Zopp_0. unfold Rdiv. rewrite Rmult_0_l. unfold rnd. rewrite round_0 by typeclasses eauto. reflexivity.
  - destruct (sf_dec_near s p 6) as [H1 H2]; [lia| |].
    + change (IZR (10 ^ 6)) with 1000000%R.
      apply Rle_lt_trans with (bpow radix2 1001); [|apply bpow_lt; lia].
      apply abs_round_le_generic.
      * apply fexp_correct. reflexivity.
      * typeclasses eauto.
      * apply generic_format_bpow. unfold SpecFloat.fexp. apply Z.leb_le. reflexivity.
      * rewrite Ev. assert (Hn := Znearest_half (fun t => negb (Z.even t)) (Rabs (SF2R radix2 x) * 1000000)). cbv beta in Hn.
        set (w := IZR (ZnearestE _)) in *. assert (Hx := Rabs_pos (SF2R radix2 x)). apply Rabs_le_inv in Hn.
        assert (W : (0 <= w)%R). { unfold w. apply IZR_le. rewrite Ev in V0. exact V0. }
        rewrite Rabs_pos_eq by (apply Rmult_le_pos; lra).
        assert (B1 : (1 <= bpow radix2 1000)%R) by (apply (bpow_le radix2 0); lia).
        change 1001%Z with (1000 + 1). rewrite bpow_plus_1. change (IZR radix2) with 2%R. lra.
    + split; [exact H2|]. change (- Z.of_nat 6) with (- (6)). rewrite H1. f_equal. destruct s; cbn [cond_Ropp cond_Zopp]; [|reflexivity].
      change (Zneg p) with (- Zpos p). rewrite opp_IZR. change (IZR (10 ^ 6)) with 1000000%R. lra.
Qed.
