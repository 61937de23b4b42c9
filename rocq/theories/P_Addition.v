(** The addition theorem of spherical harmonics for l = 2..12, by computation
    with polynomials in three variables. *)
From Coq Require Import Reals ZArith List Lia Lra.
From Verif Require Import Base S_Steinhardt.
Import ListNotations.
Set Implicit Arguments.
Unset Strict Implicit.
Local Open Scope R_scope.

(** ** Lists of coefficients over any ring of coefficients *)
Section Poly.
Variables (C : Type) (add mul : C -> C -> C) (isz : C -> bool) (ev : C -> R).
Hypothesis ev_add : forall a b, ev (add a b) = ev a + ev b.
Hypothesis ev_mul : forall a b, ev (mul a b) = ev a * ev b.
Hypothesis ev_isz : forall a, isz a = true -> ev a = 0.

Fixpoint ladd (p q : list C) : list C :=
  match p, q with
  | [], _ => q
  | _, [] => p
  | a :: p, b :: q => add a b :: ladd p q
  end.
Definition lscale (k : C) (p : list C) : list C := map (mul k) p.
Variable zero : C.
Hypothesis ev_zero : ev zero = 0.
Fixpoint lmul (p q : list C) : list C :=
  match p with [] => [] | a :: p => ladd (lscale a q) (zero :: lmul p q) end.
Definition lisz (p : list C) : bool := forallb isz p.
Fixpoint lev (x : R) (p : list C) : R :=
  match p with [] => 0 | a :: p => ev a + x * lev x p end.

Lemma lev_add x p q : lev x (ladd p q) = lev x p + lev x q.
Proof. revert q; induction p; intros [|b q]; simpl; try lra. rewrite ev_add, IHp. ring. Qed.
Lemma lev_scale x k p : lev x (lscale k p) = ev k * lev x p.
Proof. induction p; simpl; [ring|]. rewrite ev_mul, IHp. ring. Qed.
Lemma lev_mul x p q : lev x (lmul p q) = lev x p * lev x q.
Proof. induction p; simpl; [ring|]. rewrite lev_add, lev_scale. simpl. rewrite ev_zero, IHp. ring. Qed.
Lemma lev_isz x p : lisz p = true -> lev x p = 0.
Proof.
  induction p; simpl; intros H; auto. apply andb_prop in H as [H1 H2].
  rewrite (ev_isz H1), IHp; auto. ring.
Qed.
End Poly.

(** ** Z[c][c'][k] *)
Definition P1 := list Z.
Definition add1 : P1 -> P1 -> P1 := ladd Z.add.
Definition mul1 : P1 -> P1 -> P1 := lmul Z.add Z.mul 0%Z.
Definition isz1 : P1 -> bool := lisz (Z.eqb 0).
Definition P2 := list P1.
Definition add2 : P2 -> P2 -> P2 := ladd add1.
Definition mul2 : P2 -> P2 -> P2 := lmul add1 mul1 [].
Definition isz2 : P2 -> bool := lisz isz1.
Definition P3 := list P2.
Definition add3 : P3 -> P3 -> P3 := ladd add2.
Definition mul3 : P3 -> P3 -> P3 := lmul add2 mul2 [].
Definition isz3 : P3 -> bool := lisz isz2.

(** Elements e + B o with B^2 = (1-c^2)(1-c'^2). *)
Definition P4 := (P3 * P3)%type.
Definition in_c (p : list Z) : P3 := [[p]].
Definition in_d (p : list Z) : P3 := [map (fun a => [a]) p].
Definition in_k (p : list Z) : P3 := map (fun a => [[a]]) p.
Definition disc : P3 := mul3 (in_c [1; 0; -1]%Z) (in_d [1; 0; -1]%Z).
Definition add4 (a b : P4) : P4 := (add3 (fst a) (fst b), add3 (snd a) (snd b)).
Definition mul4 (a b : P4) : P4 :=
  (add3 (mul3 (fst a) (fst b)) (mul3 disc (mul3 (snd a) (snd b))),
   add3 (mul3 (fst a) (snd b)) (mul3 (snd a) (fst b))).
Definition const4 (z : Z) : P4 := ([[[z]]], []).
Definition lift (p : P3) : P4 := (p, []).
Definition isz4 (a : P4) : bool := isz3 (fst a) && isz3 (snd a).

Section Ev.
Variables c d k B : R.
Hypothesis HB : B * B = (1 - c ^ 2) * (1 - d ^ 2).
Definition ev1 : P1 -> R := lev IZR c.
Definition ev2 : P2 -> R := lev ev1 d.
Definition ev3 : P3 -> R := lev ev2 k.
Definition ev4 (a : P4) : R := ev3 (fst a) + B * ev3 (snd a).

Lemma iszZ a : Z.eqb 0 a = true -> IZR a = 0.
Proof. intros H. apply Z.eqb_eq in H. now subst. Qed.
Lemma ev1_add a b : ev1 (add1 a b) = ev1 a + ev1 b.
Proof. apply lev_add. apply plus_IZR. Qed.
Lemma ev1_mul a b : ev1 (mul1 a b) = ev1 a * ev1 b.
Proof. apply lev_mul; auto. apply plus_IZR. apply mult_IZR. Qed.
Lemma ev1_isz a : isz1 a = true -> ev1 a = 0.
Proof. apply lev_isz. apply iszZ. Qed.
Lemma ev2_add a b : ev2 (add2 a b) = ev2 a + ev2 b.
Proof. apply lev_add. apply ev1_add. Qed.
Lemma ev2_mul a b : ev2 (mul2 a b) = ev2 a * ev2 b.
Proof. apply lev_mul; auto. apply ev1_add. apply ev1_mul. Qed.
Lemma ev2_isz a : isz2 a = true -> ev2 a = 0.
Proof. apply lev_isz. apply ev1_isz. Qed.
Lemma ev3_add a b : ev3 (add3 a b) = ev3 a + ev3 b.
Proof. apply lev_add. apply ev2_add. Qed.
Lemma ev3_mul a b : ev3 (mul3 a b) = ev3 a * ev3 b.
Proof. apply lev_mul; auto. apply ev2_add. apply ev2_mul. Qed.
Lemma ev3_isz a : isz3 a = true -> ev3 a = 0.
Proof. apply lev_isz. apply ev2_isz. Qed.
Lemma lev_peval x p : lev IZR x p = peval p x.
Proof. induction p; simpl; auto. now rewrite IHp. Qed.
Lemma ev3_c p : ev3 (in_c p) = peval p c.
Proof. unfold ev3, ev2, ev1, in_c. simpl. rewrite lev_peval. ring. Qed.
Lemma ev3_d p : ev3 (in_d p) = peval p d.
Proof.
  unfold ev3, in_d. simpl. rewrite Rmult_0_r, Rplus_0_r. unfold ev2.
  induction p; simpl; auto. rewrite IHp. unfold ev1. simpl. ring.
Qed.
Lemma ev3_k p : ev3 (in_k p) = peval p k.
Proof.
  unfold ev3, in_k. induction p; simpl; auto. rewrite IHp. unfold ev2, ev1. simpl. ring.
Qed.
Lemma ev3_disc : ev3 disc = (1 - c ^ 2) * (1 - d ^ 2).
Proof. unfold disc. rewrite ev3_mul, ev3_c, ev3_d. simpl. ring. Qed.
Lemma ev4_add a b : ev4 (add4 a b) = ev4 a + ev4 b.
Proof. unfold ev4, add4. cbn [fst snd]. rewrite !ev3_add. ring. Qed.
Lemma ev4_mul a b : ev4 (mul4 a b) = ev4 a * ev4 b.
Proof.
  unfold ev4, mul4. cbn [fst snd]. rewrite !ev3_add, !ev3_mul, ev3_disc, <- HB. ring.
Qed.
Lemma ev4_isz a : isz4 a = true -> ev4 a = 0.
Proof.
  unfold isz4, ev4. intros H. apply andb_prop in H as [H1 H2].
  rewrite (ev3_isz H1), (ev3_isz H2). ring.
Qed.
Lemma ev4_lift p : ev4 (lift p) = ev3 p.
Proof. unfold ev4, lift. cbn [fst snd]. change (ev3 []) with 0. ring. Qed.
Lemma ev4_const z : ev4 (const4 z) = IZR z.
Proof. unfold ev4, const4, ev3, ev2, ev1. simpl. ring. Qed.
End Ev.

(** Horner evaluation of an integer polynomial in the ring. *)
Fixpoint horner (p : list Z) (x : P4) : P4 :=
  match p with [] => const4 0 | a :: p => add4 (const4 a) (mul4 x (horner p x)) end.
Lemma ev4_horner c d k B (HB : B * B = (1 - c ^ 2) * (1 - d ^ 2)) p x :
  ev4 c d k B (horner p x) = peval p (ev4 c d k B x).
Proof.
  induction p; cbn [horner peval]; [apply ev4_const|].
  rewrite ev4_add, ev4_mul, ev4_const, IHp; auto.
Qed.
Fixpoint pow4 (x : P4) (n : nat) : P4 :=
  match n with O => const4 1 | S n => mul4 x (pow4 x n) end.
Lemma ev4_pow c d k B (HB : B * B = (1 - c ^ 2) * (1 - d ^ 2)) x n :
  ev4 c d k B (pow4 x n) = ev4 c d k B x ^ n.
Proof. induction n; simpl; [apply ev4_const|]. rewrite ev4_mul, IHn; auto. Qed.

(** Chebyshev polynomials: (T_n, T_n+1). *)
Fixpoint cheb2 (n : nat) : list Z * list Z :=
  match n with
  | O => ([1]%Z, [0; 1]%Z)
  | S n => let '(t0, t1) := cheb2 n in
           (t1, padd (pmul [0; 2]%Z t1) (pscale (-1) t0))
  end.
Definition cheb (n : nat) : list Z := fst (cheb2 n).

Lemma peval_add p q x : peval (padd p q) x = peval p x + peval q x.
Proof. revert q; induction p; intros [|b q]; simpl; try lra. rewrite plus_IZR, IHp. ring. Qed.
Lemma peval_scale z p x : peval (pscale z p) x = IZR z * peval p x.
Proof. unfold pscale. induction p; cbn [map peval]; [ring|]. rewrite mult_IZR, IHp. ring. Qed.
Lemma peval_mul p q x : peval (pmul p q) x = peval p x * peval q x.
Proof.
  induction p; cbn [pmul peval]; [ring|]. rewrite peval_add, peval_scale. cbn [peval]. rewrite IHp. ring.
Qed.
Lemma cheb2_cos n t : peval (fst (cheb2 n)) (cos t) = cos (INR n * t) /\
  peval (snd (cheb2 n)) (cos t) = cos (INR (S n) * t).
Proof.
  induction n as [|n [IH1 IH2]].
  - cbn [cheb2 fst snd peval]. split; [|cbn [INR]].
    + rewrite Rmult_0_l, cos_0. ring.
    + rewrite Rmult_1_l. ring.
  - cbn [cheb2]. destruct (cheb2 n) as [t0 t1]. cbn [fst snd] in *. split; auto.
    rewrite peval_add, peval_scale, peval_mul, IH1, IH2. cbn [peval].
    replace (INR (S (S n)) * t) with (INR (S n) * t + t) by (rewrite (S_INR (S n)); ring).
    replace (INR n * t) with (INR (S n) * t - t) by (rewrite (S_INR n); ring).
    rewrite cos_plus, cos_minus. ring.
Qed.
Lemma cheb_cos n t : peval (cheb n) (cos t) = cos (INR n * t).
Proof. apply cheb2_cos. Qed.

(** ** The identity *)
Definition rod (l m : nat) : list Z := Nat.iter m pderiv (rodrigues l).
Definition mult2 (m : nat) : Z := if Nat.eqb m 0 then 1 else 2.
Definition term4 (l m : nat) : P4 :=
  mul4 (const4 (mult2 m * (zfact (2 * l) / zfact (l + m)) * zfact (l - m)))
    (mul4 (pow4 ([], [[[1%Z]]]) m)
      (mul4 (lift (in_c (rod l m))) (mul4 (lift (in_d (rod l m))) (lift (in_k (cheb m)))))).
Definition lhs4 (l : nat) : P4 :=
  mul4 (const4 (2 ^ Z.of_nat l * zfact l * zfact (2 * l)))
    (horner (rodrigues l) ([[[]; [0; 1]%Z]], [[]; [[1]]]%Z)).
Definition rhs4 (l : nat) : P4 :=
  fold_right (fun m t => add4 (term4 l m) t) (const4 0) (seq 0 (S l)).
Definition identity_ok (l : nat) : bool :=
  isz4 (add4 (lhs4 l) (mul4 (const4 (-1)) (rhs4 l)))
  && forallb (fun m => Z.eqb (zfact (2 * l) / zfact (l + m) * zfact (l + m)) (zfact (2 * l)))
       (seq 0 (S l)).

Lemma zfact_pos n : (0 < zfact n)%Z.
Proof. induction n; [reflexivity|]. cbn [zfact]. apply Z.mul_pos_pos; auto. lia. Qed.

Definition Kl (l : nat) : R := IZR (2 ^ Z.of_nat l * zfact l).
Lemma Kl_pos l : 0 < Kl l.
Proof.
  unfold Kl. apply IZR_lt. apply Z.mul_pos_pos; [|apply zfact_pos]. apply Z.pow_pos_nonneg; lia.
Qed.

Lemma addition_alg l c d k B : identity_ok l = true -> B * B = (1 - c ^ 2) * (1 - d ^ 2) ->
  legendre l (c * d + B * k) =
  Rsum (map (fun m => IZR (mult2 m) * (IZR (zfact (l - m)) / IZR (zfact (l + m))) * B ^ m *
                      (peval (rod l m) c / Kl l) * (peval (rod l m) d / Kl l) * peval (cheb m) k)
            (seq 0 (S l))).
Proof.
  intros H HB. unfold identity_ok in H. apply andb_prop in H as [H Hf].
  pose proof (ev4_isz c d k B H) as E. clear H.
  rewrite ev4_add, ev4_mul, ev4_const in E by auto.
  unfold lhs4 in E. rewrite ev4_mul, ev4_const, ev4_horner in E by auto.
  assert (ev4 c d k B ([[[]; [0; 1]%Z]], [[]; [[1]]]%Z) = c * d + B * k) as Ex.
  { unfold ev4, ev3, ev2, ev1. simpl. ring. }
  rewrite Ex in E. clear Ex.
  assert (0 < IZR (zfact (2 * l))) as HF by (apply IZR_lt, zfact_pos).
  pose proof (Kl_pos l) as HK.
  assert (ev4 c d k B (rhs4 l) = IZR (zfact (2 * l)) * Kl l ^ 2 *
    Rsum (map (fun m => IZR (mult2 m) * (IZR (zfact (l - m)) / IZR (zfact (l + m))) * B ^ m *
                      (peval (rod l m) c / Kl l) * (peval (rod l m) d / Kl l) * peval (cheb m) k)
            (seq 0 (S l)))) as Er.
  { unfold rhs4. clear E. rewrite forallb_forall in Hf. revert Hf. generalize (seq 0 (S l)). intros ms Hf.
    induction ms as [|m ms IH]; cbn [fold_right map Rsum].
    - rewrite ev4_const. ring.
    - rewrite ev4_add, IH by (intros; apply Hf; simpl; auto). fold (Rsum (map (fun m => IZR (mult2 m) * (IZR (zfact (l - m)) / IZR (zfact (l + m))) * B ^ m *
                      (peval (rod l m) c / Kl l) * (peval (rod l m) d / Kl l) * peval (cheb m) k) ms)).
      rewrite Rmult_plus_distr_l. f_equal. unfold term4.
      rewrite !ev4_mul, !ev4_const, !ev4_lift, ev4_pow, ev3_c, ev3_d, ev3_k by auto.
      replace (ev4 c d k B ([], [[[1%Z]]])) with B by (unfold ev4, ev3, ev2, ev1; simpl; ring).
      assert (zfact (2 * l) / zfact (l + m) * zfact (l + m) = zfact (2 * l))%Z as Hd.
      { apply Z.eqb_eq, Hf. simpl; auto. }
      apply (f_equal IZR) in Hd. rewrite mult_IZR in Hd. rewrite !mult_IZR.
      assert (0 < IZR (zfact (l + m))) by (apply IZR_lt, zfact_pos).
      rewrite <- Hd. field. split; lra. }
  rewrite Er in E. unfold legendre. rewrite mult_IZR in E. fold (Kl l) in E |- *.
  set (S := Rsum _) in *. set (X := peval (rodrigues l) _) in *.
  assert (Kl l * IZR (zfact (2 * l)) * (X - Kl l * S) = 0) as E' by lra.
  apply Rmult_integral in E' as [E'|E'].
  - exfalso. apply Rmult_integral in E' as [E'|E']; lra.
  - apply Rmult_eq_reg_l with (Kl l); [|lra]. field_simplify; lra.
Qed.

Lemma identity_ok_all l : (2 <= l <= 12)%nat -> identity_ok l = true.
Proof.
  intros H. do 13 (destruct l as [|l]; [try lia; vm_compute; reflexivity|]). lia.
Qed.
