(** Facts about the box setter over the reals. *)
From Coq Require Import Reals Lra.
From Verif Require Import Base Num NumR Types M_Geometry M_Container S_Geometry P_Geometry Ex.
Open Scope R_scope.

Lemma sbox_len_nonneg (b : m3 Rnum) : nonneg3 (sbox_len b).
Proof.
  unfold nonneg3, sbox_len; cbn [vx vy vz]; rnum.
  repeat split; rewrite Rminus_0_r; apply sqrt_pos.
Qed.

Lemma box_set_len (inv : m3 Rnum -> option (m3 Rnum)) s b s' :
  box_set inv s b = Ok s' -> s_len s' = sbox_len b /\ s_box s' = b.
Proof.
  unfold box_set. destruct (nltb _ _); [destruct (inv _)|]; intros H; inversion H; subst;
    split; reflexivity.
Qed.

Lemma box_set_nonneg (inv : m3 Rnum -> option (m3 Rnum)) s b s' :
  box_set inv s b = Ok s' -> nonneg3 (s_len s').
Proof. intros H. destruct (box_set_len _ _ _ _ H) as [-> _]. apply sbox_len_nonneg. Qed.

Lemma sqrt_sq_pos (x : R) : 0 <= x -> sqrt (x * x) = x.
Proof. intros. apply sqrt_square. assumption. Qed.

Lemma diag_len (x y z : R) : 0 <= x -> 0 <= y -> 0 <= z ->
  sbox_len (diag (N:=Rnum) x y z) = mkV (N:=Rnum) x y z.
Proof.
  intros. unfold sbox_len, diag; cbn [vx vy vz r0 r1 r2]; rnum.
  rewrite !Rmult_0_l, !Rplus_0_l, !Rplus_0_r, !Rminus_0_r, !sqrt_sq_pos by assumption. reflexivity.
Qed.

Lemma diag_cos_sum (x y z : R) : cos_sum (diag (N:=Rnum) x y z) = 0.
Proof.
  unfold cos_sum, vdot, diag; cbn [vx vy vz r0 r1 r2]; rnum.
  rewrite !Rmult_0_l, !Rmult_0_r, !Rplus_0_r. unfold Rdiv. rewrite !Rmult_0_l. ring.
Qed.

Lemma box_set_diag (inv : m3 Rnum -> option (m3 Rnum)) s (x y z : R) :
  box_set inv s (diag (N:=Rnum) x y z) = Ok (sbox s (diag (N:=Rnum) x y z)).
Proof.
  unfold box_set. rewrite diag_cos_sum.
  replace (nltb _ _) with false; [reflexivity|]. rnum. symmetry. apply Rltb_false.
  rewrite Rabs_R0. lra.
Qed.

Lemma sbox_diag_ortho s (x y z : R) :
  s_tri s = false -> 0 < x -> 0 < y -> 0 < z -> ortho (sbox s (diag (N:=Rnum) x y z)).
Proof.
  intros. split; [assumption|]. unfold sbox. cbn. change (pos3 (sbox_len (diag (N:=Rnum) x y z))).
  rewrite diag_len by lra. repeat split; assumption.
Qed.

Lemma box_set_tric (inv : m3 Rnum -> option (m3 Rnum)) s (b ri : m3 Rnum) :
  1 / 1000000 < Rabs (cos_sum b) ->
  inv (transpose b) = Some ri -> inverse_of (transpose b) ri ->
  exists s', box_set inv s b = Ok s' /\ tric s' b.
Proof.
  intros Hc Hi HI. exists (sbox (assign_triclinic_params s (transpose b) ri) b). split.
  - unfold box_set. replace (nltb _ _) with true.
    + change (mtrans b) with (transpose b). rewrite Hi. reflexivity.
    + symmetry. rnum. apply Rltb_true. exact Hc.
  - split; [reflexivity|]. split; [|split; [reflexivity|exact HI]].
    change (pos3 (sbox_len b)).
    assert (P : forall v : v3 Rnum, ~ (vx v = 0 /\ vy v = 0 /\ vz v = 0) ->
                0 < sqrt (0 + vx v * vx v + vy v * vy v + vz v * vz v)).
    { intros v H. apply sqrt_lt_R0.
      assert (0 <= vx v * vx v + vy v * vy v + vz v * vz v) by nra.
      destruct (Req_dec (vx v) 0), (Req_dec (vy v) 0), (Req_dec (vz v) 0); first [nra | tauto]. }
    destruct b as [[a1 a2 a3] [b1 b2 b3] [c1 c2 c3]].
    unfold inverse_of, dot3, transpose, col0, col1, col2 in HI; cbn [vx vy vz r0 r1 r2] in HI.
    unfold pos3, sbox_len; cbn [vx vy vz r0 r1 r2]; rnum. rewrite !Rminus_0_r.
    pose proof (inverse_injective (transpose (mkM (mkV a1 a2 a3) (mkV b1 b2 b3) (mkV c1 c2 c3))) ri) as Inj.
    unfold transpose, col0, col1, col2 in Inj; cbn [vx vy vz r0 r1 r2] in Inj.
    assert (Z : forall x y z : R, (a1 * x + b1 * y + c1 * z = 0) -> (a2 * x + b2 * y + c2 * z = 0) ->
              (a3 * x + b3 * y + c3 * z = 0) -> mkV (N:=Rnum) x y z = mkV (N:=Rnum) 0 0 0).
    { intros x y z E1 E2 E3. apply Inj; [exact HI|].
      unfold mvmul, vdot; cbn [vx vy vz r0 r1 r2]; rnum. f_equal; lra. }
    repeat split.
    + apply (P (mkV (N:=Rnum) a1 a2 a3)). cbn [vx vy vz]. intros [-> [-> ->]].
      assert (E : mkV (N:=Rnum) 1 0 0 = mkV (N:=Rnum) 0 0 0) by (apply Z; lra). injection E as E. lra.
    + apply (P (mkV (N:=Rnum) b1 b2 b3)). cbn [vx vy vz]. intros [-> [-> ->]].
      assert (E : mkV (N:=Rnum) 0 1 0 = mkV (N:=Rnum) 0 0 0) by (apply Z; lra). injection E as E. lra.
    + apply (P (mkV (N:=Rnum) c1 c2 c3)). cbn [vx vy vz]. intros [-> [-> ->]].
      assert (E : mkV (N:=Rnum) 0 0 1 = mkV (N:=Rnum) 0 0 0) by (apply Z; lra). injection E as E. lra.
Qed.
