(** Proofs about the entropy parameter. *)
From Coq Require Import Reals ZArith List Lia Lra.
From Verif Require Import Base Num NumR Types M_Geometry M_Container M_Neighbors M_Steinhardt
  S_Neighbors S_Steinhardt P_Container P_Neighbors P_QRun P_Cells P_Harmonics P_Steinhardt P_Solids M_Local S_Local P_Centro.
Import ListNotations.
Set Implicit Arguments.
Unset Strict Implicit.
Local Open Scope R_scope.

Lemma trunc_steps rstart rstop h n : 0 < h -> steps rstart rstop h n -> Rtrunc ((rstop - rstart) / h) = Z.of_nat n.
Proof.
  intros Hh [H1 H2]. rewrite INR_IZR_INZ in *. set (k := Z.of_nat n) in *.
  assert (E : (rstop - rstart) / h * h = rstop - rstart) by (field; lra).
  set (x := (rstop - rstart) / h) in *.
  assert (IZR k <= x) by (apply Rmult_le_reg_r with h; lra).
  assert (x < IZR k + 1) by (apply Rmult_lt_reg_r with h; lra).
  assert (0 <= IZR k) by (apply IZR_le; lia).
  destruct (@Rtrunc_nonneg x) as [-> _]; [lra|].
  destruct (base_Int_part x) as [I1 I2]. 
  assert (J1 : IZR (Int_part x) < IZR (k + 1)) by (rewrite plus_IZR; lra).
  assert (J2 : IZR k < IZR (Int_part x + 1)) by (rewrite plus_IZR; lra).
  apply lt_IZR in J1, J2. lia.
Qed.

Lemma zrange_seq n : (1 <= n)%nat -> zrange 1 (Z.of_nat n - 1) = map Z.of_nat (seq 1 (n - 2)).
Proof.
  intros H. unfold zrange. replace (Z.to_nat (Z.of_nat n - 1 - 1)) with (n - 2)%nat by lia.
  rewrite <- (seq_shift (n - 2) 0), map_map. apply map_ext. intros k. lia.
Qed.

Theorem trapezoid_value (f : R -> R) rstart rstop h n : 0 < h -> steps rstart rstop h n -> (1 <= n)%nat ->
  trapezoid (N := Rnum) f rstart rstop h =
  trapezoidal_rule f rstart h n - (if (2 <=? n)%nat then h * f (rstart + INR (n - 1) * h) else 0).
Proof.
  intros Hh Hs Hn. unfold trapezoid. change (@ntrunc Rnum) with Rtrunc. change (ndiv (nsub rstop rstart) h) with ((rstop - rstart) / h).
  rewrite (trunc_steps Hh Hs). cbv zeta. rewrite zrange_seq by auto.
  assert (E : fold_left (fun (summ : Rnum) j => nadd summ (f (nadd rstart (nmul (nofZ j) h)))) (map Z.of_nat (seq 1 (n - 2))) (@n0 Rnum)
    = Rsum (map (fun j => f (rstart + INR j * h)) (seq 1 (n - 2)))).
  { etransitivity; [exact (@fold_sum Z (fun j => f (rstart + IZR j * h)) _ 0)|].
    rewrite Rplus_0_l, map_map. apply Rsum_map_ext. intros j _. now rewrite INR_IZR_INZ. }
  rewrite E. unfold trapezoidal_rule. rnum. rewrite <- INR_IZR_INZ.
  destruct (Nat.leb_spec 2 n).
  - replace (seq 1 (n - 1)) with (seq 1 (n - 2) ++ [n - 1]%nat).
    2:{ replace (n - 1)%nat with (n - 2 + 1)%nat at 2 by lia. rewrite seq_app. simpl. repeat f_equal. lia. }
    rewrite map_app, Rsum_app. cbn [map]. rewrite Rsum_cons. cbn [Rsum fold_right].
    match goal with |- @eq _ ?a ?b => change (@eq R a b) end. field.
  - replace (n - 1)%nat with 0%nat by lia. replace (n - 2)%nat with 0%nat by lia. cbn. 
    match goal with |- @eq _ ?a ?b => change (@eq R a b) end. field.
Qed.

Lemma gmr_smooth (sigma rho : R) (ds : list R) (r : R) : gmr (N := Rnum) sigma rho ds r = smooth_g code_pi sigma rho ds r.
Proof.
  unfold gmr, smooth_g. cbv zeta. change (pi_lit Rnum) with code_pi.
  assert (E : fold_left (fun (g : Rnum) (rij : Rnum) => nadd g (nexp (ndiv (nmul (nopp n1) (nmul (nsub r rij) (nsub r rij))) (nmul n2 (nmul sigma sigma))))) ds (@n0 Rnum)
     = Rsum (map (fun d => exp (- (r - d) ^ 2 / (2 * sigma ^ 2))) ds)).
  { etransitivity; [exact (@fold_sum R (fun d => exp (-(1) * ((r - d) * (r - d)) / (2 * (sigma * sigma)))) ds 0)|].
    rewrite Rplus_0_l. apply Rsum_map_ext. intros d _. f_equal.
    replace (sigma ^ 2) with (sigma * sigma) by ring. replace (- (r - d) ^ 2) with (- (1) * ((r - d) * (r - d))) by ring. reflexivity. }
  rewrite E. rnum. set (S := Rsum _).
  replace (4 * code_pi * rho * r ^ 2) with (4 * code_pi * rho * r * r) by ring.
  replace (2 * code_pi * sigma ^ 2) with (2 * code_pi * (sigma * sigma)) by ring.
  set (A := 4 * code_pi * rho * r * r). set (B := sqrt _). unfold Rdiv. rewrite (Rinv_mult A B). match goal with |- @eq _ ?a ?b => change (@eq R a b) end. ring.
Qed.
Lemma integrand_eq (sigma rho : R) (ds : list R) (r : R) :
  entropy_integrand (N := Rnum) sigma rho ds r = integrand code_pi sigma rho ds r.
Proof. unfold entropy_integrand, integrand. cbv zeta. rewrite gmr_smooth. rnum. ring. Qed.

(** x ln x - x + 1 is positive except at 1. *)
Lemma xlnx x : 0 < x -> x <> 1 -> 0 < x * ln x - x + 1.
Proof.
  intros Hx H1. assert (HL : - ln x <> 0).
  { intros E. apply H1. apply ln_inv; [auto|lra|]. rewrite ln_1. lra. }
  pose proof (exp_ineq1 (- ln x) HL) as H. rewrite exp_Ropp, exp_ln in H by auto.
  assert (x * (1 + - ln x) < x * / x) by (apply Rmult_lt_compat_l; auto). rewrite Rinv_r in H0 by lra. lra.
Qed.

(** ** Densities *)
Section Density.
Variable N : num.
Variables sigma rstart rstop h kb : N.
Open Scope num_scope.
Notation step := (entropy_step sigma rstart rstop h kb).
Definition out_at (rho : N) (a : atom N) : N * N := (rho, atom_entropy sigma rho rstart rstop h kb a).
Lemma entropy_const l rho out : (rho =? n0) = false ->
  fold_left step l (rho, out) = (rho, out ++ map (out_at rho) l).
Proof.
  intros H. revert out. induction l as [|a l IH]; intros out; cbn [fold_left map]; [now rewrite app_nil_r|].
  unfold entropy_step at 2. rewrite H. rewrite IH, <- app_assoc. reflexivity.
Qed.
Lemma entropy_first a l rho : (rho =? n0) = true -> (local_density a =? n0) = false ->
  snd (fold_left step (a :: l) (rho, [])) = map (out_at (local_density a)) (a :: l).
Proof.
  intros H1 H2. cbn [fold_left]. unfold entropy_step at 2. rewrite H1. rewrite entropy_const by auto. reflexivity.
Qed.
End Density.

(** ** Averages *)
Lemma mapM_seq {B} (f : nat -> res B) (g : nat -> B) n : (forall i, (i < n)%nat -> f i = Ok (g i)) ->
  mapM f (seq 0 n) = Ok (map g (seq 0 n)).
Proof.
  intros H. assert (Q : forall m k, (k + m <= n)%nat -> mapM f (seq k m) = Ok (map g (seq k m))).
  { induction m as [|m IH]; intros k Hk; [reflexivity|]. cbn [seq mapM map]. rewrite H by lia. cbn [bind].
    now rewrite IH by lia. }
  apply Q. lia.
Qed.
Lemma get_nth (l : list Rnum) i : (i < length l)%nat -> get l i = Ok (value_at l i : Rnum).
Proof.
  intros H. destruct (@nth_error_some _ l i H) as [x E]. rewrite (get_Ok E). f_equal. symmetry. now apply nth_error_nth.
Qed.
Definition atom_nbrs (l : list (atom Rnum)) (i : nat) : list (nbr Rnum) :=
  match nth_error l i with Some a => a_nbrs a | None => [] end.
Lemma npow_pow (x : R) k : npow (N := Rnum) x k = x ^ k.
Proof. induction k as [|k IH]; cbn [npow pow]; [reflexivity|]. rewrite IH. rnum. ring. Qed.

Section Avg.
Variables (s : sys Rnum) (ents : list Rnum).
Hypothesis Hst : stored s.
Hypothesis Hr : forall a e, In a (s_atoms s) -> In e (a_nbrs a) -> (nb_idx e < length (s_atoms s))%nat.
Hypothesis HL : length ents = length (s_atoms s).

Lemma average_entropy_run : average_entropy (N := Rnum) s ents =
  Ok (map (fun i => plain_avg ents i (atom_nbrs (s_atoms s) i)) (seq 0 (length (s_atoms s)))).
Proof.
  unfold average_entropy. rewrite Hst, Nat2Z.id. apply mapM_seq. intros i Hi.
  destruct (@nth_error_some _ (s_atoms s) i Hi) as [a Ea]. rewrite (get_Ok Ea). cbn [bind].
  rewrite (@get_nth ents i) by (rewrite HL; auto). cbn [bind].
  assert (Q : forall es (x : Rnum), (forall e, In e es -> (nb_idx e < length ents)%nat) ->
    foldM (fun x (e : nbr Rnum) => v <- get ents (nb_idx e);; Ok (nadd (n := Rnum) x v)) es x =
    Ok ((x + Rsum (map (fun e => value_at ents (nb_idx e)) es) : Rnum))).
  { induction es as [|e es IH]; intros x H; cbn [foldM map].
    - cbn. now rewrite Rplus_0_r.
    - rewrite get_nth by (apply H; now left). cbn [bind]. rewrite IH by (intros; apply H; now right).
      rewrite Rsum_cons. f_equal. rnum. ring. }
  rewrite Q by (intros e He; rewrite HL; eapply Hr; eauto; eapply nth_error_In; eauto). cbn [bind].
  f_equal. unfold plain_avg, atom_nbrs. rewrite Ea, INR_IZR_INZ. rnum. rewrite plus_IZR. reflexivity.
Qed.
Lemma average_switch_run ra M K : average_entropy_switch (N := Rnum) s ents ra M K =
  Ok (map (fun i => switch_avg ra M K ents i (atom_nbrs (s_atoms s) i)) (seq 0 (length (s_atoms s)))).
Proof.
  unfold average_entropy_switch. rewrite Hst, Nat2Z.id. apply mapM_seq. intros i Hi.
  destruct (@nth_error_some _ (s_atoms s) i Hi) as [a Ea]. rewrite (get_Ok Ea). cbn [bind].
  rewrite (@get_nth ents i) by (rewrite HL; auto). cbn [bind].
  assert (EF : forall r : R, switching_fn (N := Rnum) r ra M K = switch_fn r ra M K).
  { intros r. unfold switching_fn, switch_fn. rewrite !npow_pow. reflexivity. }
  assert (Q : forall es (x y : Rnum), (forall e, In e es -> (nb_idx e < length ents)%nat) ->
    foldM (fun st (e : nbr Rnum) => v <- get ents (nb_idx e);;
       (let f := switching_fn (N := Rnum) (nb_dist e) ra M K in Ok (nadd (n := Rnum) (fst st) f, nadd (n := Rnum) (snd st) (nmul v f)))) es (x, y) =
    Ok ((x + Rsum (map (fun e => switch_fn (nb_dist e) ra M K) es) : Rnum),
        (y + Rsum (map (fun e => value_at ents (nb_idx e) * switch_fn (nb_dist e) ra M K) es) : Rnum))).
  { induction es as [|e es IH]; intros x y H; cbn [foldM map].
    - cbn. now rewrite !Rplus_0_r.
    - rewrite get_nth by (apply H; now left). cbn [bind fst snd]. cbv zeta. rewrite EF. rewrite IH by (intros; apply H; now right).
      rewrite !Rsum_cons. f_equal. rnum. f_equal; ring. }
  match goal with |- bind ?x _ = _ => let T := type of (Q (a_nbrs a) n0 n0) in
    match T with _ -> _ = ?y => assert (x = y) as -> end end.
  { apply (Q (a_nbrs a) n0 n0). intros e He; rewrite HL; eapply Hr; eauto; eapply nth_error_In; eauto. }
  cbn [bind].
  f_equal. unfold switch_avg, atom_nbrs. rewrite Ea. rnum. rewrite !Rplus_0_l. reflexivity.
Qed.
End Avg.

(** ** The whole call *)
Lemma get_all_stored {N : num} (s : sys N) : stored s -> get_all_atoms s = Ok (s_atoms s).
Proof.
  intros H. unfold get_all_atoms. rewrite H, Nat2Z.id.
  assert (Q : forall l0 l1 : list (atom N), mapM (fun i => get (l0 ++ l1) i) (seq (length l0) (length l1)) = Ok l1).
  { intros l0 l1. revert l0. induction l1 as [|a l1 IH]; intros l0; [reflexivity|]. cbn [length seq mapM].
    assert (E : get (l0 ++ a :: l1) (length l0) = Ok a).
    { apply get_Ok. rewrite nth_error_app2, Nat.sub_diag by lia. reflexivity. }
    rewrite E. cbn [bind]. specialize (IH (l0 ++ [a])). rewrite app_length in IH. cbn [length] in IH.
    rewrite Nat.add_1_r, <- app_assoc in IH. cbn [app] in IH. rewrite IH. reflexivity. }
  exact (Q [] (s_atoms s)).
Qed.
Lemma own_density_eq a : local_density (N := Rnum) a = own_density a.
Proof.
  unfold local_density, own_density. cbv zeta. rnum. rewrite <- INR_IZR_INZ. 
  replace (a_cutoff a ^ 3) with (a_cutoff a * a_cutoff a * a_cutoff a) by (simpl; rnum; ring). reflexivity.
Qed.
Lemma entropy_split (sigma rho rstart rstop h : R) n (a : atom Rnum) : 0 < h -> steps rstart rstop h n -> (1 <= n)%nat ->
  let ds := map (fun e => nb_dist e : R) (a_nbrs a) in
  atom_entropy (N := Rnum) sigma rho rstart rstop h n1 a =
  entropy_parameter code_pi sigma rho rstart h n ds +
  (if (2 <=? n)%nat then rho * h * integrand code_pi sigma rho ds (rstart + INR (n - 1) * h) else 0).
Proof.
  intros Hh Hs Hn ds. unfold atom_entropy, entropy_parameter.
  assert (E : trapezoid (N := Rnum) (entropy_integrand (N := Rnum) sigma rho (map (@nb_dist Rnum) (a_nbrs a))) rstart rstop h =
    trapezoid (N := Rnum) (integrand code_pi sigma rho ds) rstart rstop h).
  { unfold trapezoid. cbv zeta. rewrite !integrand_eq. f_equal. f_equal. f_equal. f_equal. 
    generalize (@n0 Rnum). generalize (zrange 1 (ntrunc (ndiv (nsub (n := Rnum) rstop rstart) h) - 1)). intros l. induction l as [|j l IH]; intros x; [reflexivity|].
    cbn [fold_left]. rewrite integrand_eq. apply IH. }
  rewrite E, (trapezoid_value _ Hh Hs Hn). rnum. change (carrier Rnum) with R. destruct (2 <=? n)%nat; ring.
Qed.
