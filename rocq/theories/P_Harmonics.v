(** Sums of spherical harmonics over directions: by the addition theorem they
    depend only on the angles between the directions. *)
From Coq Require Import Reals ZArith List Lia Lra Permutation.
From Verif Require Import Base Num NumR Types M_Geometry M_Steinhardt S_Steinhardt
  P_Container P_Addition.
Import ListNotations.
Set Implicit Arguments.
Unset Strict Implicit.
Local Open Scope R_scope.

(** ** Finite sums *)
Lemma Rsum_app l l' : Rsum (l ++ l') = Rsum l + Rsum l'.
Proof. induction l; simpl; [ring|]. unfold Rsum in *. simpl. rewrite IHl. ring. Qed.
Lemma Rsum_cons a l : Rsum (a :: l) = a + Rsum l.
Proof. reflexivity. Qed.
Lemma Rsum_map_add {A} (f g : A -> R) l :
  Rsum (map (fun x => f x + g x) l) = Rsum (map f l) + Rsum (map g l).
Proof. induction l; cbn [map]; rewrite ?Rsum_cons; [cbn; ring|]. rewrite IHl. ring. Qed.
Lemma Rsum_map_scale {A} (k : R) (f : A -> R) l :
  Rsum (map (fun x => k * f x) l) = k * Rsum (map f l).
Proof. induction l; cbn [map]; rewrite ?Rsum_cons; [cbn; ring|]. rewrite IHl. ring. Qed.
Lemma Rsum_map_ext {A} (f g : A -> R) l : (forall x, In x l -> f x = g x) ->
  Rsum (map f l) = Rsum (map g l).
Proof. intros H. f_equal. now apply map_ext_in. Qed.
Lemma Rsum_map_zero {A} (l : list A) : Rsum (map (fun _ => 0) l) = 0.
Proof. induction l; cbn [map]; rewrite ?Rsum_cons; [reflexivity|]. rewrite IHl. ring. Qed.
Lemma Rsum_swap {A B} (f : A -> B -> R) l l' :
  Rsum (map (fun x => Rsum (map (f x) l')) l) = Rsum (map (fun y => Rsum (map (fun x => f x y) l)) l').
Proof.
  induction l as [|x l IH]; cbn [map].
  - cbn. symmetry. apply Rsum_map_zero.
  - rewrite Rsum_cons, IH, <- Rsum_map_add. apply Rsum_map_ext. intros; now rewrite Rsum_cons.
Qed.
Lemma Rsum_perm l l' : Permutation l l' -> Rsum l = Rsum l'.
Proof. induction 1; rewrite ?Rsum_cons; try lra. Qed.
Lemma Rsum_map_nonneg {A} (f : A -> R) l : (forall x, In x l -> 0 <= f x) -> 0 <= Rsum (map f l).
Proof.
  induction l; intros H; cbn [map]; [cbn; lra|]. rewrite Rsum_cons.
  apply Rplus_le_le_0_compat; [apply H; simpl; auto|apply IHl; intros; apply H; simpl; auto].
Qed.
Lemma Rsum_map_le {A} (f g : A -> R) l : (forall x, In x l -> f x <= g x) ->
  Rsum (map f l) <= Rsum (map g l).
Proof.
  induction l; intros H; cbn [map]; [cbn; lra|]. rewrite !Rsum_cons.
  apply Rplus_le_compat; [apply H; simpl; auto|apply IHl; intros; apply H; simpl; auto].
Qed.
(** (sum f)(sum g) as a double sum *)
Lemma Rsum_prod {A B} (f : A -> R) (g : B -> R) l l' :
  Rsum (map f l) * Rsum (map g l') = Rsum (map (fun x => Rsum (map (fun y => f x * g y) l')) l).
Proof.
  induction l; cbn [map]; rewrite ?Rsum_cons; [cbn; ring|]. rewrite Rsum_map_scale, <- IHl. ring.
Qed.

Lemma zrange_grow l : zrange (- Z.of_nat (S l)) (Z.of_nat (S l) + 1) =
  (- Z.of_nat (S l))%Z :: zrange (- Z.of_nat l) (Z.of_nat l + 1) ++ [Z.of_nat (S l)].
Proof.
  unfold zrange. replace (Z.to_nat (Z.of_nat (S l) + 1 - - Z.of_nat (S l))) with (S (S (2 * l + 1))) by lia.
  replace (Z.to_nat (Z.of_nat l + 1 - - Z.of_nat l)) with (2 * l + 1)%nat by lia.
  rewrite seq_S. cbn [seq map app].
  apply f_equal2; [lia|]. rewrite map_app. cbn [map]. apply f_equal2; [|apply f_equal2; [lia|reflexivity]].
  rewrite <- seq_shift, map_map. apply map_ext. intros; lia.
Qed.
Lemma sum_even (f : Z -> R) l : (forall m, f (- m)%Z = f m) ->
  Rsum (map f (zrange (- Z.of_nat l) (Z.of_nat l + 1))) =
  Rsum (map (fun m => IZR (mult2 m) * f (Z.of_nat m)) (seq 0 (S l))).
Proof.
  intros H. induction l as [|l IH].
  - unfold zrange. cbn [map seq Z.to_nat]. simpl. change (mult2 0) with 1%Z. ring.
  - rewrite zrange_grow, seq_S. cbn [map]. rewrite Rsum_cons, map_app, Rsum_app, IH, map_app, Rsum_app.
    cbn [map]. rewrite H. change (0 + S l)%nat with (S l). change (mult2 (S l)) with 2%Z. cbn [Rsum fold_right]. ring.
Qed.

(** ** Two directions *)
Definition inner (z z' : R * R) : R := fst z * fst z' + snd z * snd z'.
Definition cos_between (th ph th' ph' : R) : R :=
  cos th * cos th' + sin th * sin th' * cos (ph - ph').

Lemma sq_sign m : (-1) ^ m * (-1) ^ m = 1.
Proof. rewrite <- Rpow_mult_distr. replace (-1 * -1) with 1 by ring. apply pow1. Qed.

Lemma inner_Y_neg l m th ph th' ph' :
  inner (Y l (- m) th ph) (Y l (- m) th' ph') = inner (Y l m th ph) (Y l m th' ph').
Proof.
  unfold Y. destruct (Z.leb_spec 0 m), (Z.leb_spec 0 (- m)).
  - now replace m with 0%Z by lia.
  - rewrite Z.opp_involutive. destruct (Y_pos l (Z.to_nat m) th ph), (Y_pos l (Z.to_nat m) th' ph').
    unfold inner. cbn [fst snd]. pose proof (sq_sign (Z.to_nat m)) as E.
    transitivity ((-1) ^ Z.to_nat m * (-1) ^ Z.to_nat m * (r * r1 + r0 * r2)); [ring|]. rewrite E. ring.
  - destruct (Y_pos l (Z.to_nat (- m)) th ph), (Y_pos l (Z.to_nat (- m)) th' ph').
    unfold inner. cbn [fst snd]. pose proof (sq_sign (Z.to_nat (- m))) as E.
    symmetry.
    transitivity ((-1) ^ Z.to_nat (- m) * (-1) ^ Z.to_nat (- m) * (r * r1 + r0 * r2)); [ring|]. rewrite E. ring.
  - lia.
Qed.

Lemma two_l_pos l : 0 < 2 * INR l + 1.
Proof. pose proof (pos_INR l). lra. Qed.

Lemma Y_norm_sq l m : Y_norm l m * Y_norm l m =
  (2 * INR l + 1) / (4 * PI) * (IZR (zfact (l - m)) / IZR (zfact (l + m))).
Proof.
  unfold Y_norm. apply sqrt_sqrt.
  assert (0 < IZR (zfact (l - m))) by (apply IZR_lt, zfact_pos).
  assert (0 < IZR (zfact (l + m))) by (apply IZR_lt, zfact_pos).
  pose proof (two_l_pos l). pose proof PI_RGT_0.
  apply Rmult_le_pos; apply Rlt_le; apply Rdiv_lt_0_compat; lra.
Qed.

Lemma sqrt_sin th : 0 <= th <= PI -> sqrt (1 - cos th ^ 2) = sin th.
Proof.
  intros [H1 H2]. pose proof (sin_ge_0 th H1 H2). pose proof (sin2_cos2 th) as E. unfold Rsqr in E.
  replace (1 - cos th ^ 2) with (sin th * sin th) by lra. now apply sqrt_square.
Qed.

Theorem addition l th ph th' ph' : (2 <= l <= 12)%nat -> 0 <= th <= PI -> 0 <= th' <= PI ->
  Rsum (map (fun m => inner (Y l m th ph) (Y l m th' ph')) (zrange (- Z.of_nat l) (Z.of_nat l + 1))) =
  (2 * INR l + 1) / (4 * PI) * legendre l (cos_between th ph th' ph').
Proof.
  intros Hl Hth Hth'. rewrite (@sum_even (fun m => inner (Y l m th ph) (Y l m th' ph')) l)
    by (intros; apply inner_Y_neg).
  unfold cos_between.
  rewrite (@addition_alg l (cos th) (cos th') (cos (ph - ph')) (sin th * sin th') (identity_ok_all Hl)).
  2:{ pose proof (sin2_cos2 th) as E. pose proof (sin2_cos2 th') as E'. unfold Rsqr in *.
      replace (1 - cos th ^ 2) with (sin th * sin th) by lra.
      replace (1 - cos th' ^ 2) with (sin th' * sin th') by lra. ring. }
  rewrite <- Rsum_map_scale. apply Rsum_map_ext. intros m Hm.
  rewrite cheb_cos. unfold Y. replace (Z.leb 0 (Z.of_nat m)) with true by (symmetry; apply Z.leb_le; lia).
  rewrite Nat2Z.id. unfold Y_pos, inner. cbn [fst snd].
  unfold assoc_legendre. rewrite !sqrt_sin by auto. fold (Kl l). fold (rod l m).
  pose proof (Y_norm_sq l m) as EN. pose proof (sq_sign m) as ES. pose proof (Kl_pos l) as HK.
  replace (INR m * (ph - ph')) with (INR m * ph - INR m * ph') by ring. rewrite cos_minus.
  rewrite (Rpow_mult_distr (sin th) (sin th') m).
  transitivity (IZR (mult2 m) * ((Y_norm l m * Y_norm l m) * (((-1) ^ m * (-1) ^ m) *
     (sin th ^ m * sin th' ^ m * (peval (rod l m) (cos th) / Kl l) * (peval (rod l m) (cos th') / Kl l) *
      (cos (INR m * ph) * cos (INR m * ph') + sin (INR m * ph) * sin (INR m * ph')))))); [field; lra|].
  rewrite EN, ES. ring.
Qed.

(** ** Sums over directions *)
Definition wgt (t : R * R * R) : R := fst (fst t).
Definition Yt (l : nat) (m : Z) (t : R * R * R) : R * R := Y l m (snd (fst t)) (snd t).
Definition sum_lm (l : nat) (m : Z) (E : dirs) : R * R :=
  (Rsum (map (fun t => wgt t * fst (Yt l m t)) E), Rsum (map (fun t => wgt t * snd (Yt l m t)) E)).
Definition dir_ok (t : R * R * R) : Prop := 0 <= snd (fst t) <= PI.
Definition cos_dirs (t t' : R * R * R) : R :=
  cos_between (snd (fst t)) (snd t) (snd (fst t')) (snd t').
(** sum_t sum_t' w w' P_l(cos of the angle between t and t') *)
Definition pair_sum (l : nat) (E : dirs) : R :=
  Rsum (map (fun t => Rsum (map (fun t' => wgt t * wgt t' * legendre l (cos_dirs t t')) E)) E).

Theorem sum_lm_pairs l E : (2 <= l <= 12)%nat -> Forall dir_ok E ->
  Rsum (map (fun m => abs2 (sum_lm l m E)) (zrange (- Z.of_nat l) (Z.of_nat l + 1))) =
  (2 * INR l + 1) / (4 * PI) * pair_sum l E.
Proof.
  intros Hl HE. rewrite Forall_forall in HE.
  transitivity (Rsum (map (fun m => Rsum (map (fun t => Rsum (map (fun t' =>
     wgt t * wgt t' * inner (Yt l m t) (Yt l m t')) E)) E)) (zrange (- Z.of_nat l) (Z.of_nat l + 1)))).
  { apply Rsum_map_ext. intros m _. unfold abs2, sum_lm. cbn [fst snd].
    rewrite !(fun x => eq_trans (eq_refl : x ^ 2 = x * (x * 1)) (f_equal (Rmult x) (Rmult_1_r x))).
    rewrite !Rsum_prod, <- Rsum_map_add. apply Rsum_map_ext. intros t _.
    rewrite <- Rsum_map_add. apply Rsum_map_ext. intros t' _. unfold inner. ring. }
  rewrite Rsum_swap. unfold pair_sum. rewrite <- Rsum_map_scale. apply Rsum_map_ext. intros t Ht.
  rewrite Rsum_swap. rewrite <- Rsum_map_scale. apply Rsum_map_ext. intros t' Ht'.
  rewrite Rsum_map_scale. unfold Yt.
  rewrite addition by (try apply Hl; apply HE; auto). unfold cos_dirs. ring.
Qed.

(** ** Norms: every Y_l vector has the same length *)
Lemma legendre_1 l : (2 <= l <= 12)%nat -> legendre l 1 = 1.
Proof.
  intros H. unfold legendre. fold (Kl l).
  assert (peval (rodrigues l) 1 = Kl l) as ->; [|field; pose proof (Kl_pos l); lra].
  assert (forall p, peval p 1 = IZR (fold_right Z.add 0%Z p)) as E.
  { induction p; simpl; auto. rewrite IHp, plus_IZR. ring. }
  rewrite E. unfold Kl. f_equal.
  do 13 (destruct l as [|l]; [try lia; vm_compute; reflexivity|]). lia.
Qed.
Lemma cos_between_self th ph : cos_between th ph th ph = 1.
Proof.
  unfold cos_between. replace (ph - ph) with 0 by ring. rewrite cos_0.
  pose proof (sin2_cos2 th) as E. unfold Rsqr in E. lra.
Qed.

(** Cauchy-Schwarz and the triangle inequality for lists of pairs. *)
Section CS.
Variable A : Type.
Implicit Types (ms : list A) (f g : A -> R * R).
Definition ip f g ms : R := Rsum (map (fun m => inner (f m) (g m)) ms).
Lemma ip_nonneg f ms : 0 <= ip f f ms.
Proof. apply Rsum_map_nonneg. intros m _. unfold inner. nra. Qed.
Lemma ip_sym f g ms : ip f g ms = ip g f ms.
Proof. apply Rsum_map_ext. intros; unfold inner; ring. Qed.
Lemma cauchy_schwarz f g ms : ip f g ms ^ 2 <= ip f f ms * ip g g ms.
Proof.
  assert (forall t : R, 0 <= ip f f ms - 2 * t * ip f g ms + t ^ 2 * ip g g ms) as H.
  { intros t. set (h := fun m => (fst (f m) - t * fst (g m), snd (f m) - t * snd (g m))).
    pose proof (ip_nonneg h ms) as H. replace (ip h h ms) with
      (ip f f ms - 2 * t * ip f g ms + t ^ 2 * ip g g ms) in H; auto.
    unfold ip.
    transitivity (Rsum (map (fun m => inner (f m) (f m)) ms)
       + Rsum (map (fun m => (- (2 * t)) * inner (f m) (g m)) ms)
       + Rsum (map (fun m => t ^ 2 * inner (g m) (g m)) ms)).
    - rewrite !Rsum_map_scale. ring.
    - rewrite <- !Rsum_map_add. apply Rsum_map_ext. intros m _. unfold inner, h. cbn [fst snd]. ring. }
  pose proof (ip_nonneg g ms) as Hg. pose proof (ip_nonneg f ms) as Hf.
  destruct (Rle_lt_or_eq_dec _ _ Hg) as [Hp|Hz].
  - specialize (H (ip f g ms / ip g g ms)).
    assert (ip g g ms * (ip f f ms - 2 * (ip f g ms / ip g g ms) * ip f g ms + (ip f g ms / ip g g ms) ^ 2 * ip g g ms)
            = ip f f ms * ip g g ms - ip f g ms ^ 2) as E by (field; lra).
    assert (0 <= ip f f ms * ip g g ms - ip f g ms ^ 2); [|lra].
    rewrite <- E. apply Rmult_le_pos; lra.
  - rewrite <- Hz in *. assert (ip f g ms = 0) as ->; [|lra].
    destruct (Req_dec (ip f g ms) 0) as [|Hn]; auto. exfalso.
    specialize (H ((ip f f ms + 1) / (2 * ip f g ms))).
    replace (ip f f ms - 2 * ((ip f f ms + 1) / (2 * ip f g ms)) * ip f g ms + ((ip f f ms + 1) / (2 * ip f g ms)) ^ 2 * 0)
      with (-1) in H by (field; auto). lra.
Qed.
End CS.
