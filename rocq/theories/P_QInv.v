(** Steinhardt's parameters as sums over pairs of neighbour vectors: rotation,
    scale and permutation invariance, bounds. *)
From Coq Require Import Reals ZArith List Lia Lra Permutation.
From Verif Require Import Base Num NumR Types M_Geometry M_Neighbors M_Steinhardt S_Steinhardt
  P_Container P_Neighbors P_QRun P_Addition P_Legendre P_Harmonics P_Steinhardt.
Import ListNotations.
Set Implicit Arguments.
Unset Strict Implicit.
Local Open Scope R_scope.

(** Weighted vectors. *)
Definition wv := list (R * v3 Rnum).
Definition wsum (V : wv) : R := Rsum (map fst V).
Definition gram (l : nat) (V : wv) : R :=
  Rsum (map (fun p => Rsum (map (fun p' => fst p * fst p' * legendre l (cosine (snd p) (snd p'))) V)) V).
Definition of_nbrs (es : list (nbr Rnum)) : wv := map (fun e => (nb_weight e : R, nb_vec e)) es.

Definition seen (p : R * v3 Rnum) (t : R * R * R) : Prop :=
  wgt t = fst p /\ angles (snd p) (snd (fst t)) (snd t).
Lemma seen_dir_ok p t : seen p t -> dir_ok t.
Proof. intros [_ H]. apply H. Qed.

Lemma Rsum_Forall2 {A B} (P : A -> B -> Prop) (f : A -> R) (g : B -> R) l l' :
  Forall2 P l l' -> (forall x y, P x y -> f x = g y) -> Rsum (map f l) = Rsum (map g l').
Proof.
  induction 1 as [|x y l l' Hxy _ IH]; intros H; cbn [map]; auto. rewrite !Rsum_cons, IH; auto.
  now rewrite (H x y Hxy).
Qed.

Lemma pair_sum_gram l V E : Forall2 seen V E -> pair_sum l E = gram l V.
Proof.
  intros H. unfold pair_sum, gram. symmetry. apply (Rsum_Forall2 H). intros p t [Hw Ha].
  apply (Rsum_Forall2 H). intros p' t' [Hw' Ha']. rewrite <- Hw, <- Hw'. f_equal. f_equal.
  symmetry. unfold cos_dirs. now apply cosine_angles.
Qed.
Lemma weights_wsum V E : Forall2 seen V E -> weights E = wsum V.
Proof. intros H. unfold weights, wsum. symmetry. apply (Rsum_Forall2 H). intros p t [Hw _]. now rewrite <- Hw. Qed.

Definition all_nonzero (es : list (nbr Rnum)) : Prop := forall e, In e es -> nonzero (nb_vec e).
Lemma seen_env es : all_nonzero es -> Forall2 seen (of_nbrs es) (env_of es).
Proof.
  unfold of_nbrs, env_of. induction es as [|e es IH]; intros H; cbn [map]; constructor.
  - pose proof (spherical_angles (H e (or_introl eq_refl))) as Ha.
    destruct (spherical (nb_vec e)) as [phi theta]. split; auto.
  - apply IH. intros x Hx. apply H; simpl; auto.
Qed.
Lemma Forall2_seen_ok V E : Forall2 seen V E -> Forall dir_ok E.
Proof. induction 1; constructor; auto. eapply seen_dir_ok; eauto. Qed.

(** The unnormalised parameter of a list of directions. *)
Definition raw_q (l : nat) (E : dirs) : R :=
  sqrt (4 * PI / (2 * INR l + 1) *
        Rsum (map (fun m => abs2 (sum_lm l m E)) (zrange (- Z.of_nat l) (Z.of_nat l + 1)))).
Theorem raw_q_gram l V E : (2 <= l <= 12)%nat -> Forall2 seen V E -> raw_q l E = sqrt (gram l V).
Proof.
  intros Hl H. unfold raw_q. rewrite sum_lm_pairs by (eauto using Forall2_seen_ok).
  rewrite (pair_sum_gram l H). f_equal. pose proof (two_l_pos l). pose proof PI_RGT_0. field. lra.
Qed.

(** Rescaling weights. *)
Definition resc (k : R) (E : dirs) : dirs := map (fun t => (k * wgt t, snd (fst t), snd t)) E.
Definition rescV (k : R) (V : wv) : wv := map (fun p => (k * fst p, snd p)) V.
Lemma seen_resc k V E : Forall2 seen V E -> Forall2 seen (rescV k V) (resc k E).
Proof.
  unfold rescV, resc. induction 1 as [|p t V E [Hw Ha] _ IH]; cbn [map]; constructor; auto.
  split; auto. unfold wgt. cbn [fst]. rewrite <- Hw. reflexivity.
Qed.
Lemma sum_lm_resc l m k E : sum_lm l m (resc k E) = (k * fst (sum_lm l m E), k * snd (sum_lm l m E)).
Proof.
  unfold sum_lm, resc. cbn [fst snd]. rewrite !map_map, <- !Rsum_map_scale.
  f_equal; apply Rsum_map_ext; intros t _; unfold wgt, Yt; cbn [fst snd]; ring.
Qed.
Lemma sum_lm_flat l m Es : sum_lm l m (concat Es) =
  (Rsum (map (fun E => fst (sum_lm l m E)) Es), Rsum (map (fun E => snd (sum_lm l m E)) Es)).
Proof.
  unfold sum_lm. cbn [fst snd]. induction Es as [|E Es IH]; cbn [concat map]; [reflexivity|].
  rewrite !map_app, !Rsum_app, !Rsum_cons. inversion IH as [[H1 H2]]. now rewrite H1, H2.
Qed.

Lemma q_lm_resc l m E : q_lm l m E = sum_lm l m (resc (/ weights E) E).
Proof. rewrite sum_lm_resc. unfold q_lm, sum_lm, Rdiv, wgt, Yt. cbn [fst snd]. f_equal; ring. Qed.

Theorem steinhardt_raw l E : steinhardt l E = raw_q l (resc (/ weights E) E).
Proof. unfold steinhardt, raw_q. do 3 f_equal. apply map_ext. intros m. now rewrite q_lm_resc. Qed.

Definition avg_dirs (E : dirs) (Es : list dirs) : dirs :=
  let n := INR (S (length Es)) in
  concat (map (fun E => resc (/ weights E / n) E) (E :: Es)).
Lemma mean_lm_dirs l m E Es : mean_lm l m E Es = sum_lm l m (avg_dirs E Es).
Proof.
  unfold mean_lm, avg_dirs. rewrite map_length. cbn [length]. rewrite sum_lm_flat, !map_map.
  set (n := INR (S (length Es))). generalize (E :: Es). intros L.
  f_equal; (rewrite Rmult_comm || idtac); unfold Rdiv at 1; rewrite Rmult_comm, <- Rsum_map_scale;
    apply Rsum_map_ext; intros E' _; rewrite q_lm_resc, !sum_lm_resc; cbn [fst snd]; unfold Rdiv; ring.
Qed.
Theorem steinhardt_avg_raw l E Es : steinhardt_avg l E Es = raw_q l (avg_dirs E Es).
Proof. unfold steinhardt_avg, raw_q. do 3 f_equal. apply map_ext. intros m. now rewrite mean_lm_dirs. Qed.

(** The same with vectors; [vor]: the weights are taken as they are. *)
Definition nfac (vor : bool) (V : wv) : R := if vor then 1 else / wsum V.
Definition avgV (vor : bool) (V : wv) (Vs : list wv) : wv :=
  let n := INR (S (length Vs)) in
  concat (map (fun V => rescV (nfac vor V / n) V) (V :: Vs)).

Theorem qval_gram vor l es : (2 <= l <= 12)%nat -> all_nonzero es ->
  qval (N := Rnum) vor (Z.of_nat l) es =
  sqrt (gram l (rescV (nfac vor (of_nbrs es)) (of_nbrs es))).
Proof.
  intros Hl Hz. pose proof (seen_env Hz) as Hs. destruct vor; cbn [nfac].
  - rewrite qval_voronoi by auto. fold (raw_q l (env_of es)). rewrite (raw_q_gram Hl Hs).
    f_equal. f_equal. unfold rescV. rewrite <- (map_id (of_nbrs es)) at 1. apply map_ext. intros [w v].
    cbn. f_equal. ring.
  - rewrite qval_steinhardt, steinhardt_raw by auto. rewrite <- (weights_wsum Hs).
    apply raw_q_gram; auto. now apply seen_resc.
Qed.
Theorem steinhardt_gram l V E : (2 <= l <= 12)%nat -> Forall2 seen V E ->
  steinhardt l E = sqrt (gram l (rescV (/ wsum V) V)).
Proof.
  intros Hl Hs. rewrite steinhardt_raw. rewrite (weights_wsum Hs). apply raw_q_gram; auto. now apply seen_resc.
Qed.
Lemma Forall2_concat {A B} (P : A -> B -> Prop) L L' :
  Forall2 (Forall2 P) L L' -> Forall2 P (concat L) (concat L').
Proof. induction 1; simpl; auto. now apply Forall2_app. Qed.
Theorem steinhardt_avg_gram l (V : wv) (Vs : list wv) (E : dirs) (Es : list dirs) : (2 <= l <= 12)%nat -> Forall2 seen V E ->
  Forall2 (Forall2 seen) Vs Es ->
  steinhardt_avg l E Es = sqrt (gram l (avgV false V Vs)).
Proof.
  intros Hl HE HEs. rewrite steinhardt_avg_raw. apply raw_q_gram; auto. unfold avgV, avg_dirs.
  assert (length Vs = length Es) as -> by (clear -HEs; induction HEs; simpl; auto).
  set (n := INR (S (length Es))). apply Forall2_concat.
  assert (Forall2 (Forall2 seen) (V :: Vs) (E :: Es)) as H by (constructor; auto).
  clearbody n. revert H. generalize (V :: Vs) (E :: Es). clear. induction 1 as [|V E Vs Es HE _ IH]; cbn [map]; constructor; auto.
  cbn [nfac]. rewrite (weights_wsum HE). now apply seen_resc.
Qed.

(** ** Averaged values of the code *)
Lemma acomp_eq vor l k a (es : list (nbr Rnum)) (bs : list (atom Rnum * list (nbr Rnum))) :
  (2 <= l <= 12)%nat -> (0 <= k <= 2 * Z.of_nat l)%Z ->
  (forall k, (0 <= k <= 2 * Z.of_nat l)%Z -> zcomp a (Z.of_nat l) k = comp vor (Z.of_nat l) (k - Z.of_nat l) es) ->
  (forall b eb, In (b, eb) bs -> forall k, (0 <= k <= 2 * Z.of_nat l)%Z ->
      zcomp b (Z.of_nat l) k = comp vor (Z.of_nat l) (k - Z.of_nat l) eb) ->
  let m := (k - Z.of_nat l)%Z in
  let n := INR (S (length bs)) in
  let f := fun E => (if vor then 1 else / weights E) / n in
  let T := concat (map (fun E => resc (f E) E) (map env_of (es :: map snd bs))) in
  acomp (N := Rnum) (Z.of_nat l) k a (map fst bs) =
  (kappa * fst (sum_lm l m T), conj_sign m * (kappa * snd (sum_lm l m T))).
Proof.
  intros Hl Hk Ha Hb m n f T. unfold acomp. rewrite Ha by auto. fold m.
  assert ((- Z.of_nat l <= m <= Z.of_nat l)%Z) as Hm by lia.
  assert (forall es, comp (N := Rnum) vor (Z.of_nat l) m es =
     (kappa * (fst (sum_lm l m (env_of es)) * (if vor then 1 else / weights (env_of es))),
      conj_sign m * (kappa * (snd (sum_lm l m (env_of es)) * (if vor then 1 else / weights (env_of es)))))) as Ec.
  { intros x. rewrite (comp_eq vor x Hl Hm). unfold Rdiv. destruct vor; rewrite ?Rinv_1; reflexivity. }
  assert (forall x y : R, fold_left (fun (z : R * R) b => (fst z + fst (zcomp b (Z.of_nat l) k), snd z + snd (zcomp b (Z.of_nat l) k)))
     (map fst bs) (x, y) =
     (x + Rsum (map (fun eb => fst (comp (N := Rnum) vor (Z.of_nat l) m eb) : R) (map snd bs)),
      y + Rsum (map (fun eb => snd (comp (N := Rnum) vor (Z.of_nat l) m eb) : R) (map snd bs)))) as Ef.
  { clear Ha Ec T. clear n f. induction bs as [|[b eb] bs IH]; intros x y; cbn [map fold_left].
    - cbn. f_equal; ring.
    - cbn [fst snd]. rewrite IH by (intros; eapply Hb; simpl; eauto).
      rewrite (Hb b eb (or_introl eq_refl) k Hk). fold m. rewrite !Rsum_cons. f_equal; ring. }
  rewrite (Ec es). rnum. set (z := fold_left _ _ _). assert (z = _) as -> by exact (Ef _ _). clear z.
  rewrite map_length. replace (IZR (Z.of_nat (length bs) + 1)) with n.
  2:{ unfold n. rewrite INR_IZR_INZ. f_equal. lia. }
  assert (0 < n) as Hn by (unfold n; apply lt_0_INR; lia).
  unfold T. rewrite sum_lm_flat. rewrite !map_map. cbn [map]. rewrite !Rsum_cons, !map_map.
  cbn [fst snd].
  assert (forall g h : list (nbr Rnum) -> R, (forall x, g x = h x * n) -> Rsum (map (fun x => g (snd x)) bs) = n * Rsum (map (fun x => h (snd x)) bs)) as Hgh.
  { intros g h Hg. rewrite <- Rsum_map_scale. apply Rsum_map_ext. intros x _. rewrite Hg. ring. }
  match goal with |- ((_ + ?x) / n, (_ + ?y) / n) = _ => set (S1 := x); set (S2 := y) end.
  assert (S1 = n * Rsum (map (fun x => kappa * fst (sum_lm l m (resc (f (env_of (snd x))) (env_of (snd x))))) bs)) as ->.
  { apply (Hgh (fun eb => fst (comp vor (Z.of_nat l) m eb)) (fun eb => kappa * fst (sum_lm l m (resc (f (env_of eb)) (env_of eb))))).
    intros x. rewrite Ec, sum_lm_resc. cbn [fst snd]. unfold f. field. lra. }
  assert (S2 = n * Rsum (map (fun x => conj_sign m * kappa * snd (sum_lm l m (resc (f (env_of (snd x))) (env_of (snd x))))) bs)) as ->.
  { apply (Hgh (fun eb => snd (comp vor (Z.of_nat l) m eb)) (fun eb => conj_sign m * kappa * snd (sum_lm l m (resc (f (env_of eb)) (env_of eb))))).
    intros x. rewrite Ec, sum_lm_resc. cbn [fst snd]. unfold f. field. lra. }
  rewrite !Rsum_map_scale, !(sum_lm_resc l m (f (env_of es))). cbn [fst snd].
  match goal with |- ((_ + n * (kappa * ?x)) / n, (_ + n * (_ * ?y)) / n) = _ => set (T1 := x); set (T2 := y) end.
  clearbody T1 T2. unfold f. set (w := if vor then _ else _). clearbody w.
  f_equal; field; lra.
Qed.

Theorem aqval_gram vor l a (es : list (nbr Rnum)) (bs : list (atom Rnum * list (nbr Rnum))) :
  (2 <= l <= 12)%nat -> 
  (forall k, (0 <= k <= 2 * Z.of_nat l)%Z -> zcomp a (Z.of_nat l) k = comp vor (Z.of_nat l) (k - Z.of_nat l) es) ->
  (forall b eb, In (b, eb) bs -> forall k, (0 <= k <= 2 * Z.of_nat l)%Z ->
      zcomp b (Z.of_nat l) k = comp vor (Z.of_nat l) (k - Z.of_nat l) eb) ->
  all_nonzero es -> (forall eb, In eb (map snd bs) -> all_nonzero eb) ->
  aqval (N := Rnum) (Z.of_nat l) a (map fst bs) =
  sqrt (gram l (avgV vor (of_nbrs es) (map of_nbrs (map snd bs)))).
Proof.
  intros Hl Ha Hb Hz Hzb. unfold aqval, acomps. rnum. rewrite sumsq_eq.
  set (n := INR (S (length bs))).
  set (f := fun E => (if vor then 1 else / weights E) / n).
  set (T := concat (map (fun E => resc (f E) E) (map env_of (es :: map snd bs)))).
  assert (Rsum (map (fun k => abs2 (acomp (N := Rnum) (Z.of_nat l) k a (map fst bs))) (zrange 0 (2 * Z.of_nat l + 1)))
     = kappa * kappa * Rsum (map (fun m => abs2 (sum_lm l m T)) (zrange (- Z.of_nat l) (Z.of_nat l + 1)))) as ->.
  { rewrite <- Rsum_map_scale.
    assert (zrange (- Z.of_nat l) (Z.of_nat l + 1) = map (fun k => (k - Z.of_nat l)%Z) (zrange 0 (2 * Z.of_nat l + 1))) as ->.
    { unfold zrange. rewrite map_map. replace (Z.to_nat (Z.of_nat l + 1 - - Z.of_nat l)) with (Z.to_nat (2 * Z.of_nat l + 1 - 0)) by lia.
      apply map_ext. intros; lia. }
    rewrite map_map. apply Rsum_map_ext. intros k Hk. apply In_zrange in Hk.
    rewrite (@acomp_eq vor l k a es bs Hl) by (auto; lia). cbv zeta. fold n. fold f. fold T.
    unfold abs2. cbn [fst snd]. pose proof (conj_sign_sq (k - Z.of_nat l)) as E.
    set (x := fst _). set (y := snd _).
    transitivity (kappa * kappa * x ^ 2 + conj_sign (k - Z.of_nat l) * conj_sign (k - Z.of_nat l) * (kappa * kappa * y ^ 2)); [ring|].
    rewrite E. ring. }
  rewrite four_pi. fold (raw_q l T). apply raw_q_gram; auto.
  unfold T, avgV. rewrite !map_length. fold n. apply Forall2_concat.
  change (of_nbrs es :: map of_nbrs (map snd bs)) with (map of_nbrs (es :: map snd bs)).
  assert (forall eb, In eb (es :: map snd bs) -> all_nonzero eb) as H by (intros eb [<-|]; auto).
  revert H. generalize (es :: map snd bs). intros L H. induction L as [|e L IH]; cbn [map]; constructor.
  - unfold f, nfac. assert (all_nonzero e) as He by (apply H; simpl; auto).
    rewrite (weights_wsum (seen_env He)). apply seen_resc. now apply seen_env.
  - apply IH. intros; apply H; simpl; auto.
Qed.

(** ** Invariance *)
(** [y] is the vector [x] moved by [g] and made longer or shorter; its weight
    is multiplied by [c]. *)
Definition movedV (g : v3 Rnum -> v3 Rnum) (c : R) (x y : R * v3 Rnum) : Prop :=
  fst y = c * fst x /\ exists k, 0 < k /\ snd y = vscale (k : Rnum) (g (snd x)).
Definition keeps_dot (g : v3 Rnum -> v3 Rnum) : Prop := forall v w, vdot (g v) (g w) = vdot v w.

Lemma vdot_scale (k k' : R) (v w : v3 Rnum) :
  vdot (vscale (k : Rnum) v) (vscale (k' : Rnum) w) = k * k' * vdot v w.
Proof. destruct v, w. unfold vdot, vscale. cbn. ring. Qed.
Lemma norm_dot (v : v3 Rnum) : norm v = sqrt (vdot v v).
Proof. reflexivity. Qed.
Lemma norm_scale (k : R) (v : v3 Rnum) : 0 < k -> norm (vscale (k : Rnum) v) = k * norm v.
Proof.
  intros H. rewrite !norm_dot, vdot_scale. rewrite sqrt_mult_alt by nra. rewrite sqrt_square; lra.
Qed.
Lemma cosine_moved g (k k' : R) v w : keeps_dot g -> 0 < k -> 0 < k' -> nonzero v -> nonzero w ->
  cosine (vscale (k : Rnum) (g v)) (vscale (k' : Rnum) (g w)) = cosine v w.
Proof.
  intros Hg Hk Hk' Hv Hw. unfold cosine. rewrite vdot_scale, !norm_scale by auto.
  rewrite !(norm_dot (g _)), !Hg, <- !norm_dot. pose proof (norm_pos Hv). pose proof (norm_pos Hw).
  assert (forall a b x : R, a <> 0 -> b <> 0 -> k * k' * x / (k * a * (k' * b)) = x / (a * b)) as E.
  { intros. field. repeat split; auto; lra. }
  apply E; lra.
Qed.

Definition nzV (V : wv) : Prop := forall p, In p V -> nonzero (snd p).
Definition simV (g : v3 Rnum -> v3 Rnum) (c : R) (V V' : wv) : Prop :=
  exists V'', Permutation V'' V' /\ Forall2 (movedV g c) V V''.

Lemma Forall2_In_weaken {A B} (P Q : A -> B -> Prop) l l' :
  Forall2 P l l' -> (forall x y, In x l -> P x y -> Q x y) -> Forall2 Q l l'.
Proof.
  induction 1 as [|x y l l' H _ IH]; intros HQ; constructor.
  - apply HQ; simpl; auto.
  - apply IH. intros; apply HQ; simpl; auto.
Qed.
Lemma gram_perm l V V' : Permutation V V' -> gram l V = gram l V'.
Proof.
  intros H. unfold gram. rewrite (Rsum_perm (Permutation_map _ H)). apply Rsum_map_ext. intros p _.
  apply Rsum_perm. now apply Permutation_map.
Qed.
Theorem gram_sim g l V V' : keeps_dot g -> nzV V -> simV g 1 V V' -> gram l V = gram l V'.
Proof.
  intros Hg Hz (V'' & HP & HF). rewrite <- (gram_perm l HP). unfold gram.
  assert (Forall2 (fun x y => nonzero (snd x) /\ movedV g 1 x y) V V'') as HF'.
  { apply (Forall2_In_weaken HF). intros; split; auto. }
  apply (Rsum_Forall2 HF'). intros p q (Hp & Hw & k & Hk & E).
  apply (Rsum_Forall2 HF'). intros p' q' (Hp' & Hw' & k' & Hk' & E').
  rewrite Hw, Hw', E, E', (cosine_moved Hg Hk Hk' Hp Hp'). ring.
Qed.

Lemma wsum_sim g c V V' : simV g c V V' -> wsum V' = c * wsum V.
Proof.
  intros (V'' & HP & HF). unfold wsum. rewrite <- (Rsum_perm (Permutation_map fst HP)), <- Rsum_map_scale.
  symmetry. apply (Rsum_Forall2 HF). intros x y [H _]. now rewrite H.
Qed.
Lemma sim_norm g c vor n V V' : simV g c V V' ->
  (c = 1 \/ (vor = false /\ c <> 0 /\ wsum V <> 0)) ->
  simV g 1 (rescV (nfac vor V / n) V) (rescV (nfac vor V' / n) V').
Proof.
  intros H Hc. pose proof (wsum_sim H) as HW. destruct H as (V'' & HP & HF).
  exists (rescV (nfac vor V' / n) V''). split; [now apply Permutation_map|].
  assert (nfac vor V' / n * c = nfac vor V / n) as E.
  { unfold nfac. destruct vor.
    - destruct Hc as [->|[? _]]; [ring|discriminate].
    - rewrite HW. destruct Hc as [->|(_ & Hc & Hw)]; [rewrite Rmult_1_l; ring|].
      unfold Rdiv. rewrite Rinv_mult_distr by auto.
      transitivity (c * / c * (/ wsum V * / n)); [ring|]. rewrite Rinv_r by auto. ring. }
  revert E. generalize (nfac vor V' / n) (nfac vor V / n). intros f' f E. clear HW Hc HP.
  unfold rescV. induction HF as [|x y V1 V2 [Hw Hk] _ IH]; cbn [map]; constructor; auto.
  split; auto. cbn [fst snd]. rewrite Hw, Rmult_1_l, <- Rmult_assoc, E. reflexivity.
Qed.
Lemma simV_app g c A A' B B' : simV g c A A' -> simV g c B B' -> simV g c (A ++ B) (A' ++ B').
Proof.
  intros (A2 & HPA & HFA) (B2 & HPB & HFB). exists (A2 ++ B2). split.
  - now apply Permutation_app.
  - now apply Forall2_app.
Qed.
Lemma simV_concat g c L L' : Forall2 (simV g c) L L' -> simV g c (concat L) (concat L').
Proof.
  induction 1; simpl.
  - exists []. split; auto.
  - now apply simV_app.
Qed.
Lemma simV_perm g c V V' V2 : simV g c V V' -> Permutation V' V2 -> simV g c V V2.
Proof. intros (V'' & HP & HF) H. exists V''. split; auto. now transitivity V'. Qed.
Lemma Permutation_concat {A} (L L' : list (list A)) : Permutation L L' -> Permutation (concat L) (concat L').
Proof.
  induction 1; simpl; auto.
  - now apply Permutation_app_head.
  - rewrite !app_assoc. apply Permutation_app_tail, Permutation_app_comm.
  - etransitivity; eauto.
Qed.

(** ** Bounds *)
Lemma legendre_bound l v w : (2 <= l <= 12)%nat -> nonzero v -> nonzero w ->
  -1 <= legendre l (cosine v w) <= 1.
Proof.
  intros Hl Hv Hw.
  pose proof (spherical_angles Hv) as Av. pose proof (spherical_angles Hw) as Aw.
  set (th := snd (spherical v)) in *. set (ph := fst (spherical v)) in *.
  set (th' := snd (spherical w)) in *. set (ph' := fst (spherical w)) in *.
  rewrite <- (cosine_angles Av Aw).
  assert (0 <= th <= PI) as H1 by apply Av. assert (0 <= th' <= PI) as H2 by apply Aw.
  pose proof (@addition l th ph th' ph' Hl H1 H2) as E.
  pose proof (@addition l th ph th ph Hl H1 H1) as E1.
  pose proof (@addition l th' ph' th' ph' Hl H2 H2) as E2.
  rewrite cos_between_self, legendre_1 in E1, E2 by auto.
  pose proof (cauchy_schwarz (fun m => Y l m th ph) (fun m => Y l m th' ph') (zrange (- Z.of_nat l) (Z.of_nat l + 1))) as CS.
  unfold ip in CS. rewrite E, E1, E2 in CS.
  set (K := (2 * INR l + 1) / (4 * PI)) in *. set (P := legendre l _) in *.
  assert (0 < K) as HK. { apply Rdiv_lt_0_compat; [apply two_l_pos|]. pose proof PI_RGT_0; lra. }
  assert (P * P <= 1) as HP.
  { apply Rmult_le_reg_l with (K * K); [nra|]. nra. }
  split; nra.
Qed.
Lemma gram_le l V : (2 <= l <= 12)%nat -> nzV V -> (forall p, In p V -> 0 <= fst p) ->
  gram l V <= wsum V * wsum V.
Proof.
  intros Hl Hz Hw. unfold gram, wsum. rewrite Rsum_prod. apply Rsum_map_le. intros p Hp.
  apply Rsum_map_le. intros p' Hp'.
  pose proof (legendre_bound Hl (Hz p Hp) (Hz p' Hp')) as [_ H].
  pose proof (Hw p Hp). pose proof (Hw p' Hp').
  assert (0 <= fst p * fst p') by (now apply Rmult_le_pos). nra.
Qed.
Lemma wsum_resc k V : wsum (rescV k V) = k * wsum V.
Proof. unfold wsum, rescV. rewrite map_map. cbn [fst]. apply Rsum_map_scale. Qed.
Lemma nzV_resc k V : nzV V -> nzV (rescV k V).
Proof. intros H p Hp. apply in_map_iff in Hp as (q & <- & Hq). exact (H q Hq). Qed.
Lemma nonneg_resc k V : 0 <= k -> (forall p, In p V -> 0 <= fst p) -> forall p, In p (rescV k V) -> 0 <= fst p.
Proof. intros Hk H p Hp. apply in_map_iff in Hp as (q & <- & Hq). cbn. apply Rmult_le_pos; auto. Qed.
Lemma wsum_concat L : wsum (concat L) = Rsum (map wsum L).
Proof. unfold wsum. induction L; simpl; auto. rewrite map_app, Rsum_app, IHL. reflexivity. Qed.

(** Weights that make a mean: non-negative with positive sum; used as they are
    only when they sum to 1. *)
Definition mean_weights (vor : bool) (V : wv) : Prop :=
  (forall p, In p V -> 0 <= fst p) /\ 0 < wsum V /\ (vor = true -> wsum V = 1).
Lemma nfac_pos vor V : mean_weights vor V -> 0 < nfac vor V.
Proof.
  intros (_ & H & _). unfold nfac. destruct vor; [lra|]. now apply Rinv_0_lt_compat.
Qed.
Lemma nfac_wsum vor V : mean_weights vor V -> nfac vor V * wsum V = 1.
Proof.
  intros (_ & H & H1). unfold nfac. destruct vor; [rewrite H1; auto; ring|]. apply Rinv_l. lra.
Qed.
Theorem avg_bound l vor V Vs : (2 <= l <= 12)%nat ->
  (forall U, In U (V :: Vs) -> nzV U /\ mean_weights vor U) ->
  0 <= sqrt (gram l (avgV vor V Vs)) <= 1.
Proof.
  intros Hl H. split; [apply sqrt_pos|]. rewrite <- sqrt_1. apply sqrt_le_1_alt.
  set (n := INR (S (length Vs))). assert (0 < n) as Hn by (apply lt_0_INR; lia).
  assert (wsum (avgV vor V Vs) = 1) as HW.
  { unfold avgV. rewrite wsum_concat, map_map. fold n.
    rewrite (Rsum_map_ext (g := fun _ => / n)).
    - assert (forall (L : list wv) (x : R), Rsum (map (fun _ => x) L) = INR (length L) * x) as E.
      { intros L x. induction L; cbn [map length]; [cbn; ring|]. rewrite Rsum_cons, IHL, S_INR. ring. }
      rewrite E. cbn [length]. fold n. apply Rinv_r. lra.
    - intros U HU. rewrite wsum_resc. unfold Rdiv.
      transitivity (nfac vor U * wsum U * / n); [ring|]. rewrite nfac_wsum by (apply H; auto). ring. }
  replace 1 with (wsum (avgV vor V Vs) * wsum (avgV vor V Vs)) by (rewrite HW; ring).
  apply gram_le; auto.
  - intros p Hp. unfold avgV in Hp. apply in_concat in Hp as (U' & HU' & Hp).
    apply in_map_iff in HU' as (U & <- & HU). revert p Hp. apply nzV_resc. now apply H.
  - intros p Hp. unfold avgV in Hp. apply in_concat in Hp as (U' & HU' & Hp).
    apply in_map_iff in HU' as (U & <- & HU). revert p Hp. apply nonneg_resc.
    + fold n. apply Rlt_le, Rdiv_lt_0_compat; auto. apply nfac_pos, H; auto.
    + apply (H U HU).
Qed.
Lemma resc_avg l vor V : gram l (rescV (nfac vor V) V) = gram l (avgV vor V []).
Proof.
  unfold avgV. cbn [length map concat]. rewrite app_nil_r. f_equal. f_equal. cbn [INR]. field.
Qed.
Lemma single_one l vor p : (2 <= l <= 12)%nat -> nonzero (snd p) -> mean_weights vor [p] ->
  sqrt (gram l (rescV (nfac vor [p]) [p])) = 1.
Proof.
  intros Hl Hz Hm. pose proof (nfac_wsum Hm) as E. rewrite <- sqrt_1. f_equal.
  unfold gram, rescV, wsum in *. cbn in *. unfold cosine. rewrite !norm_dot, sqrt_sqrt.
  - assert (0 < vdot (snd p) (snd p)) as Hp.
    { pose proof (norm_pos Hz) as Hn. pose proof (norm_sq (snd p)) as Hs. unfold vdot. rnum. nra. }
    unfold Rdiv. rewrite Rinv_r by lra. rewrite legendre_1 by auto. rewrite Rplus_0_r in E. rewrite E. ring.
  - unfold vdot. rnum. nra.
Qed.
