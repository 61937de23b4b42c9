(** Properties C43, C47, C48: centrosymmetry, entropy and disorder. *)
From Coq Require Import Reals Lra ZArith List Lia Permutation.
From Verif Require Import Base Num NumR NumF NumP Types Ex M_Geometry M_Container M_Neighbors M_Steinhardt M_Local
  S_Geometry P_Geometry P_Box S_Container S_Neighbors S_Steinhardt S_CNA S_Local P_Container P_Neighbors P_Temp P_FindN P_QRun P_CNA P_CNARun P_Order
  P_Harmonics P_Solids P_Centro P_Disorder P_Entropy
  C_Neighbors C_Cluster C_CNA C_Steinhardt.
Import ListNotations.
Close Scope R_scope. Close Scope Z_scope.
#[local] Open Scope nat_scope.

(** ** C43 *)
(** Every call: the values are the smallest sums of |u + v|^2 over nmax/2 pairs
    of the nmax nearest atoms; the other outcomes. *)
Theorem C43_value :
  forall srt, sorts srt -> forall (s : sys Rnum) (nmax : Z) (get_vals : bool),
  stored s -> nonneg3 (s_len s) -> (0 <= s_real s <= s_nop s)%Z ->
  (s_usecells s = true -> cells_ok s (guess_distance s (nofZ 3))) ->
  match py_calculate_centrosymmetry srt s nmax get_vals with
  | Ok (t, vals) => (0 < nmax)%Z /\ (nmax mod 2 = 0)%Z /\ same_geometry s t /\
      vals = (if get_vals then Some (map (@a_centro Rnum) (firstn (Z.to_nat (s_real s)) (s_atoms t))) else None) /\
      forall i a, nth_error (s_atoms s) i = Some a -> exists a', nth_error (s_atoms t) i = Some a' /\
        nearest s i (Z.to_nat nmax) (a_nbrs a') /\
        smallest_sum (Z.to_nat (nmax / 2)) (pair_values (map (@nb_vec Rnum) (a_nbrs a'))) (a_centro a')
  | Err ValueError => (nmax <= 0)%Z \/ (nmax mod 2 <> 0)%Z
  | Err UB => (300 < nmax)%Z \/ exists i, i < length (s_atoms s) /\ few_within s (guess_distance s (nofZ 3)) i nmax
  | Err _ => False
  end.
Proof.
  intros srt Hs s nmax gv St HL Hr Hc. unfold py_calculate_centrosymmetry.
  destruct (Z.ltb_spec 0 nmax) as [H0|H0]; cbn [negb]; [|now left].
  destruct (Z.eqb_spec (nmax mod 2) 0) as [H1|H1]; cbn [negb]; [|now right].
  pose proof (@centro_run srt Hs s nmax St HL H0 H1 Hc) as R.
  destruct (calculate_centrosymmetry srt s nmax) as [t|e]; cbn [bind]; [|destruct R as [-> R]; exact R].
  destruct R as [G R].
  assert (Er : s_real t = s_real s) by (symmetry; apply ce_real, G).
  assert (EV : get_centrosymmetry t = Ok (map (@a_centro Rnum) (firstn (Z.to_nat (s_real s)) (s_atoms t)))).
  { unfold get_centrosymmetry. rewrite Er.
    assert (HLt : Z.to_nat (s_real s) <= length (s_atoms t)).
    { rewrite (geo_length G). red in St. lia. }
    clear -HLt. revert HLt. generalize (Z.to_nat (s_real s)). generalize (s_atoms t). intros l n Hn.
    assert (Q : forall k m, k + m <= length l -> mapM (fun i => a <- get l i;; Ok (a_centro a)) (seq k m) = Ok (map (@a_centro Rnum) (firstn m (skipn k l)))).
    { intros k m; revert k. induction m as [|m IH]; intros k Hk; [reflexivity|].
      destruct (nth_error l k) as [d|] eqn:E; [|apply nth_error_None in E; lia].
      cbn [seq mapM]. rewrite (get_Ok E). cbn [bind]. rewrite IH by lia. cbn [bind].
      assert (Q : skipn k l = d :: skipn (S k) l).
      { clear -E. revert k E. induction l as [|y l IHl]; intros [|k]; simpl; try discriminate; [now intros [= ->]|]. intros E. exact (IHl _ E). }
      rewrite Q. reflexivity. }
    exact (Q 0 n Hn). }
  destruct gv; [rewrite EV; cbn [bind]|]; repeat split; auto; try apply G.
Qed.
Print Assumptions C43_value.

(** Never negative, 0 for opposite pairs, at most the value of any pairing. *)
Theorem C43_bounds :
  forall srt, sorts srt -> forall (s : sys Rnum) (nmax : Z) (get_vals : bool) t vals,
  stored s -> nonneg3 (s_len s) ->
  (s_usecells s = true -> cells_ok s (guess_distance s (nofZ 3))) ->
  py_calculate_centrosymmetry srt s nmax get_vals = Ok (t, vals) ->
  forall i a, nth_error (s_atoms t) i = Some a -> let vs := map (@nb_vec Rnum) (a_nbrs a) in
    (0 <= a_centro a)%R /\
    (forall ps, pairing vs ps -> (a_centro a <= pairing_value ps)%R) /\
    (forall ps, pairing vs ps -> opposites ps -> (a_centro a : R) = 0%R).
Proof.
  intros srt Hs s nmax gv t vals St HL Hc. unfold py_calculate_centrosymmetry.
  destruct (Z.ltb_spec 0 nmax) as [H0|H0]; cbn [negb]; [|discriminate].
  destruct (Z.eqb_spec (nmax mod 2) 0) as [H1|H1]; cbn [negb]; [|discriminate].
  pose proof (@centro_run srt Hs s nmax St HL H0 H1 Hc) as R.
  destruct (calculate_centrosymmetry srt s nmax) as [u|e]; cbn [bind]; [|discriminate].
  assert (X : (if gv then vals <- get_centrosymmetry u;; Ok (u, Some vals) else Ok (u, None)) = Ok (t, vals) -> u = t).
  { destruct gv; [destruct (get_centrosymmetry u); cbn [bind]|]; congruence. }
  intros E. assert (u = t) as -> by (apply X; exact E). clear X E. destruct R as [G R]. intros i a Ha. set (vs := map (@nb_vec Rnum) (a_nbrs a)). cbv zeta.
  destruct (nth_error_some (l := s_atoms s) (i := i)) as [a0 Ha0].
  { rewrite <- (geo_length G). apply nth_error_Some. congruence. }
  destruct (R i a0 Ha0) as (a' & Ha' & (HLn & _) & S). rewrite Ha in Ha'. injection Ha' as <-. fold vs in S.
  assert (HV : length vs = 2 * Z.to_nat (nmax / 2)).
  { unfold vs. rewrite map_length, HLn. rewrite (Z.div_mod nmax 2) at 1 by lia. rewrite H1, Z.add_0_r, Z2Nat.inj_mul; try lia. apply Z.div_pos; lia. }
  assert (Hn : (0 <= a_centro a)%R) by exact (smallest_nonneg S).
  split; [exact Hn|]. split.
  - intros ps Hp. exact (smallest_le_pairing S Hp HV).
  - intros ps Hp Ho. apply Rle_antisym; auto. rewrite <- (opposites_zero Ho). exact (smallest_le_pairing S Hp HV).
Qed.
Print Assumptions C43_bounds.

(** Not negative in any arithmetic, whatever the sort and the neighbours. *)
Theorem C43_never_negative :
  forall (N : num), machine N -> forall srt (s : sys N) (nmax : Z) t,
  calculate_centrosymmetry srt s nmax = Ok t ->
  forall i, i < Z.to_nat (s_nop t) -> exists a, nth_error (s_atoms t) i = Some a /\ nltb (a_centro a) n0 = false.
Proof. intros N HN srt s nmax t H i Hi. exact (centro_nonneg HN H Hi). Qed.
Print Assumptions C43_never_negative.

(** Rotations and reflections of the neighbours, in any order. *)
Theorem C43_rotation :
  forall srt srt', sorts srt -> sorts srt' -> forall (m : m3 Rnum) (nmax : Z) (a a' : atom Rnum) (c c' : R),
  orthogonal m -> Permutation (map (@nb_vec Rnum) (a_nbrs a')) (map (mvmul m) (map (@nb_vec Rnum) (a_nbrs a))) ->
  centro_value srt nmax a = Ok c -> centro_value srt' nmax a' = Ok c' -> c = c'.
Proof.
  intros srt srt' Hs Hs' m nmax a a' c c' Hm P E E'.
  pose proof (@centro_value_run srt Hs nmax a) as V. rewrite E in V. destruct V as [_ V].
  pose proof (@centro_value_run srt' Hs' nmax a') as V'. rewrite E' in V'. destruct V' as [_ V'].
  apply pair_values_perm in P. rewrite pair_values_map in P by (intros; now apply orthogonal_sum_sq).
  exact (smallest_sum_unique V (smallest_sum_perm P V')).
Qed.
Print Assumptions C43_rotation.

(** With fewer than nmax candidates within the guessed distance the pair list
    is read past its end: here eight atoms and nmax = 12. *)
Theorem C43_few_atoms_refuted :
  exists (s : sys P64) (nmax : Z), stored s /\ (0 < nmax)%Z /\ (nmax mod 2 = 0)%Z /\
    py_calculate_centrosymmetry isort s nmax true = Err UB.
Proof.
  exists (dia_cell P64), 12%Z. destruct (cub_facts P64 4 (grid 4 is_dia)) as (A1 & _). split; [exact A1|].
  split; [lia|]. split; [reflexivity|].
  assert (F : match py_calculate_centrosymmetry isort (dia_cell P64) 12 true with Err UB => true | _ => false end = true)
    by (vm_compute; reflexivity).
  revert F. destruct (py_calculate_centrosymmetry _ _ _ _) as [r|[]]; congruence.
Qed.
Print Assumptions C43_few_atoms_refuted.

Example C43_hyp : sorts (@isort Rnum) /\ stored (dia_cell Rnum) /\ nonneg3 (s_len (dia_cell Rnum)) /\
  (0 <= s_real (dia_cell Rnum) <= s_nop (dia_cell Rnum))%Z /\ s_usecells (dia_cell Rnum) = false /\
  forall i, i < length (s_atoms (dia_cell Rnum)) -> ~ few_within (dia_cell Rnum) (guess_distance (dia_cell Rnum) (nofZ 3)) i 4.
Proof.
  destruct C42_hyp as (A & B & C & _ & D). split; [exact isort_sorts|]. split; auto. split; auto. split; auto. split; [reflexivity|].
  intros i Hi F.
  assert (D' : has_candidates_by (N := Rnum) Rltb (dia_cell Rnum) 4 i).
  { destruct (cub_facts Rnum 4 (grid 4 is_dia)) as (_ & _ & _ & _ & _ & A6). fold (dia_cell Rnum) in A6.
    assert (E8 : length (grid 4 is_dia) = 8) by (vm_compute; reflexivity).
    apply (cub_candidates _ 4 _ 4 2%R).
    + lia.
    + rewrite <- A6. exact Hi.
    + rewrite E8. lia.
    + lra.
    + intros x y z t. apply grid_bound. simpl. lia.
    + rewrite E8. simpl Z.of_nat. lra.
    + lra.
    + intros u v Huv. apply Rltb_true. lra. }
  destruct D' as (js & ND & HL & Hj).
  assert (Q : (Z.of_nat (length js) < 4)%Z); [|lia].
  apply F; auto. intros j Hjs. destruct (Hj j Hjs) as (e & He & Hd). exists e. split; auto. now apply Rltb_true.
Qed.
(** An fcc crystal and one with a displaced atom (values in units of 1/10000). *)
Definition centros {N : num} (r : res (sys N * option (list N))) : option (list Z) :=
  match r with Ok (_, Some l) => Some (map (fun x => ntrunc x) l) | _ => None end.
Example C43_runs : centros (py_calculate_centrosymmetry isort (fcc_sys P64) 12 true) = Some (repeat 0%Z 32) /\
  option_map (firstn 3) (centros (py_calculate_centrosymmetry isort (moved_sys P64) 12 true)) = Some [504; 0; 21]%Z.
Proof. split; vm_compute; reflexivity. Qed.

(** ** C47 *)
(** Refuted: the last interior grid point is left out.  The code's value is the
    trapezoidal rule minus that point's contribution, for every integrand. *)
Theorem C47_trapezoid :
  forall (f : R -> R) (rstart rstop h : R) (n : nat), (0 < h)%R -> steps rstart rstop h n -> 1 <= n ->
  (trapezoid (N := Rnum) f rstart rstop h : R) =
  (trapezoidal_rule f rstart h n - if (2 <=? n)%nat then h * f (rstart + INR (n - 1) * h) else 0)%R.
Proof. intros f rstart rstop h n Hh Hs Hn. exact (trapezoid_value f Hh Hs Hn). Qed.
Print Assumptions C47_trapezoid.

(** What calculate_entropy stores: all atoms get the same density, that of the
    first atom with local=True; the value of an atom is its entropy parameter
    plus a spurious term; the averages are taken over the shells. *)
Definition stored_entropy (sigma rho rstart h : R) (n : nat) (a : atom Rnum) : R :=
  let ds := map (fun e => nb_dist e : R) (a_nbrs a) in
  (entropy_parameter code_pi sigma rho rstart h n ds +
   rho * h * integrand code_pi sigma rho ds (rstart + INR (n - 1) * h))%R.
Theorem C47_value :
  forall (s : sys Rnum) (a0 : atom Rnum) rest (rm sigma rstart h : R) (n : nat) (local averaged switching : bool) ra M K,
  stored s -> (0 <= s_real s <= s_nop s)%Z -> s_atoms s = a0 :: rest ->
  (forall a e, In a (s_atoms s) -> In e (a_nbrs a) -> nb_idx e < length (s_atoms s)) ->
  (0 < h)%R -> steps rstart rm h n -> 2 <= n ->
  (averaged && switching = true -> ra <> None) ->
  let rho := if local then own_density a0
             else (IZR (s_real s) / cell_det (box_get s))%R in
  rho <> 0%R ->
  let ents := map (stored_entropy sigma rho rstart h n) (s_atoms s) in
  py_calculate_entropy (N := Rnum) s rm sigma rstart h local averaged switching ra M K =
  Ok (map (fun v => (rho : Rnum, v : Rnum)) ents,
      if averaged then
        Some (map (fun i => if switching then match ra with Some x => switch_avg x M K ents i (nbrs_at s i) | None => 0%R end
                            else plain_avg ents i (nbrs_at s i)) (seq 0 (length (s_atoms s))))
      else None).
Proof.
  intros s a0 rest rm sigma rstart h n local averaged switching ra M K St Hr Ha Hin Hh Hs Hn Hra rho Hrho ents.
  assert (E : calculate_entropy (N := Rnum) s rm sigma rstart h local = Ok (map (fun v => (rho : Rnum, v : Rnum)) ents)).
  { unfold calculate_entropy.
    assert (EA : exists atoms, get_atoms s = Ok atoms /\ Z.of_nat (length atoms) = s_real s).
    { exists (firstn (Z.to_nat (s_real s)) (s_atoms s)). assert (HL : Z.to_nat (s_real s) <= length (s_atoms s)) by (red in St; lia).
      split; [|rewrite firstn_length_le by auto; lia]. unfold get_atoms.
      pose proof (mapM_get_prefix (firstn (Z.to_nat (s_real s)) (s_atoms s)) (skipn (Z.to_nat (s_real s)) (s_atoms s))) as E.
      rewrite firstn_skipn, (firstn_length_le _ HL) in E. exact E. }
    destruct EA as (atoms & -> & EL). cbn [bind]. cbv zeta. unfold entropy. rewrite (get_all_stored St). cbn [bind].
    assert (EO : forall r, map (out_at (N := Rnum) sigma rstart rm h n1 r) (s_atoms s) =
       map (fun v => (r : Rnum, v : Rnum)) (map (stored_entropy sigma r rstart h n) (s_atoms s))).
    { intros r. rewrite map_map. apply map_ext. intros a. unfold out_at. f_equal. unfold stored_entropy. cbv zeta.
      rewrite (entropy_split sigma r a Hh Hs) by lia. now rewrite (proj2 (Nat.leb_le 2 n) Hn). }
    f_equal. unfold ents. rewrite <- EO. destruct local.
    - rewrite Ha. rewrite entropy_first.
      + rewrite own_density_eq. reflexivity.
      + apply Reqb_true. reflexivity.
      + rewrite own_density_eq. apply Reqb_false. exact Hrho.
    - assert (EV : cell_volume (box_get s) = cell_det (box_get s) :> R).
      { unfold cell_volume, cell_det, vcross, vdot. rnum. cbn [vx vy vz]. ring. }
      assert (ER : ndiv (n := Rnum) (nofZ (Z.of_nat (length atoms))) (cell_volume (box_get s)) = (rho : Rnum)).
      { rewrite EL. unfold rho. rewrite <- EV. reflexivity. }
      rewrite ER, entropy_const.
      + reflexivity.
      + apply Reqb_false. exact Hrho. }
  unfold py_calculate_entropy. rewrite E. cbn [bind].
  assert (ES : map snd (map (fun v => (rho : Rnum, v : Rnum)) ents) = ents) by (rewrite map_map; apply map_id).
  rewrite ES. assert (HLe : length ents = length (s_atoms s)) by apply map_length.
  destruct averaged; [|reflexivity]. destruct switching.
  - destruct ra as [x|]; [|exfalso; now apply Hra]. rewrite (@average_switch_run s ents St Hin HLe). reflexivity.
  - rewrite (@average_entropy_run s ents St Hin HLe). reflexivity.
Qed.
Print Assumptions C47_value.

(** Switching without a radius is refused. *)
Theorem C47_no_radius : forall (N : num) (s : sys N) rm sigma rstart h local M K out,
  calculate_entropy s rm sigma rstart h local = Ok out ->
  py_calculate_entropy s rm sigma rstart h local true true None M K = Err TypeError.
Proof. intros. unfold py_calculate_entropy. now rewrite H. Qed.
Print Assumptions C47_no_radius.

(** The stored value is always too large unless g is exactly 1 at the point
    that is left out. *)
Theorem C47_always_too_large :
  forall (sigma rho rstart h : R) (n : nat) (a : atom Rnum),
  (0 < rho)%R -> (0 < sigma)%R -> (0 < h)%R -> (0 < rstart)%R -> 2 <= n -> a_nbrs a <> [] ->
  let ds := map (fun e => nb_dist e : R) (a_nbrs a) in
  smooth_g code_pi sigma rho ds (rstart + INR (n - 1) * h) <> 1%R ->
  (entropy_parameter code_pi sigma rho rstart h n ds < stored_entropy sigma rho rstart h n a)%R.
Proof.
  intros sigma rho rstart h n a Hrho Hsig Hh Hr Hn Ha ds Hg. unfold stored_entropy. fold ds.
  set (r := (rstart + INR (n - 1) * h)%R) in *.
  assert (Hr0 : (0 < r)%R).
  { unfold r. assert (0 <= INR (n - 1) * h)%R by (apply Rmult_le_pos; [apply pos_INR|lra]). lra. }
  assert (Hp : (0 < code_pi)%R) by (unfold code_pi; lra).
  assert (Hgp : (0 < smooth_g code_pi sigma rho ds r)%R).
  { unfold smooth_g. apply Rdiv_lt_0_compat.
    - assert (G : forall l, l <> [] -> (0 < Rsum (map (fun d => exp (- (r - d) ^ 2 / (2 * sigma ^ 2))) l))%R).
      { induction l as [|d l IH]; [congruence|]. intros _. cbn [map]. rewrite Rsum_cons. pose proof (exp_pos (- (r - d) ^ 2 / (2 * sigma ^ 2))).
        destruct l as [|d' l]; [cbn [map]; change (Rsum []) with 0%R; lra|]. specialize (IH ltac:(discriminate)). lra. }
      apply G. unfold ds. destruct (a_nbrs a); [congruence|discriminate].
    - apply Rmult_lt_0_compat.
      + apply Rmult_lt_0_compat; [apply Rmult_lt_0_compat; nra|]. apply pow_lt. lra.
      + apply sqrt_lt_R0. apply Rmult_lt_0_compat; [nra|]. apply pow_lt. lra. }
  assert (0 < rho * h * integrand code_pi sigma rho ds r)%R; [|lra].
  apply Rmult_lt_0_compat; [apply Rmult_lt_0_compat; lra|]. unfold integrand. cbv zeta.
  apply Rmult_lt_0_compat; [now apply xlnx|apply pow_lt; lra].
Qed.
Print Assumptions C47_always_too_large.

(** Two atoms, two and one neighbours, cutoff 1. *)
Definition ent_sys : sys Rnum := of_atoms Rnum
  [with_nbrs Rnum [nb Rnum 1 1 0 0 n1; nb Rnum 1 0 1 0 n1] <| a_cutoff := (1%R : Rnum) |>;
   with_nbrs Rnum [nb Rnum 0 (-1) 0 0 n1] <| a_cutoff := (1%R : Rnum) |>].
Example C47_hyp : stored ent_sys /\ (0 <= s_real ent_sys <= s_nop ent_sys)%Z /\
  (forall a e, In a (s_atoms ent_sys) -> In e (a_nbrs a) -> nb_idx e < length (s_atoms ent_sys)) /\
  steps 1 2 (1 / 2) 2.
Proof.
  split; [reflexivity|]. split; [vm_compute; split; discriminate|]. split.
  - intros a e Ha He. cbn in Ha. decompose [or] Ha; subst; try contradiction; cbn in He; decompose [or] He; subst; try contradiction; cbn; lia.
  - unfold steps. cbn. lra.
Qed.
Theorem C47_refuted :
  exists (s : sys Rnum) (a0 a1 : atom Rnum) (rm sigma rstart h : R) (n : nat) out avg,
  s_atoms s = [a0; a1] /\ stored s /\ (0 < h)%R /\ steps rstart rm h n /\
  py_calculate_entropy (N := Rnum) s rm sigma rstart h true false false None 12 6 = Ok (out, avg) /\
  own_density a0 <> own_density a1 /\
  map fst out = [own_density a0; own_density a0] /\
  (exists v0 v1, map snd out = [v0; v1] /\
     (entropy_parameter code_pi sigma (own_density a0) rstart h n (map (fun e => nb_dist e : R) (a_nbrs a0)) < v0)%R).
Proof.
  destruct C47_hyp as (H1 & H2 & H3 & H4).
  set (a0 := with_nbrs Rnum [nb Rnum 1 1 0 0 n1; nb Rnum 1 0 1 0 n1] <| a_cutoff := (1%R : Rnum) |>).
  set (a1 := with_nbrs Rnum [nb Rnum 0 (-1) 0 0 n1] <| a_cutoff := (1%R : Rnum) |>).
  assert (D0 : own_density a0 = (2 * 10000000000000000 / 41887902047863905)%R) by (unfold own_density; cbn; field).
  assert (D1 : own_density a1 = (10000000000000000 / 41887902047863905)%R) by (unfold own_density; cbn; field).
  pose proof (C47_value ent_sys a0 [a1] 2 1 1 (1 / 2) 2 true false false None 12 6 H1 H2 eq_refl H3 ltac:(lra) H4 ltac:(lia) ltac:(discriminate)) as V.
  cbv zeta in V. specialize (V ltac:(rewrite D0; lra)).
  exists ent_sys, a0, a1, 2%R, 1%R, 1%R, (1/2)%R, 2%nat. do 2 eexists. split; [reflexivity|]. split; [exact H1|]. split; [lra|]. split; [exact H4|].
  split; [exact V|]. split; [rewrite D0, D1; lra|]. split; [reflexivity|]. do 2 eexists. split; [reflexivity|].
  apply C47_always_too_large; [rewrite D0; lra|lra|lra|lra|lia|discriminate|].
  assert (N1 : norm (zv Rnum 1 0 0) = 1%R) by (rewrite norm_eucl; unfold eucl, len2; cbn; replace (_ + _)%R with 1%R by ring; apply sqrt_1).
  assert (N2 : norm (zv Rnum 0 1 0) = 1%R) by (rewrite norm_eucl; unfold eucl, len2; cbn; replace (_ + _)%R with 1%R by ring; apply sqrt_1).
  unfold a0. cbn [map a_nbrs with_nbrs nb nb_dist].
  change (smooth_g code_pi 1 (own_density a0) [norm (zv Rnum 1 0 0) : R; norm (zv Rnum 0 1 0) : R] (1 + INR (2 - 1) * (1 / 2)) <> 1%R).
  rewrite N1, N2, D0. unfold smooth_g. cbn [map]. rewrite !Rsum_cons. cbn [Rsum fold_right Nat.sub INR].
  set (x := exp _). set (y := sqrt _).
  assert (Hx : (0 < x < 1)%R).
  { split; [apply exp_pos|]. unfold x. apply Rlt_le_trans with (exp 0); [|rewrite exp_0; lra]. apply exp_increasing.
    match goal with |- (?e < 0)%R => replace e with (- 1 / 8)%R by field end. lra. }
  assert (Hy : (1 <= y)%R).
  { unfold y. apply Rle_trans with (sqrt 1); [rewrite sqrt_1; lra|]. apply sqrt_le_1_alt. unfold code_pi. lra. }
  apply Rlt_not_eq. apply Rmult_lt_reg_r with (4 * code_pi * (2 * 10000000000000000 / 41887902047863905) * (1 + 1 * (1 / 2)) ^ 2 * y)%R.
  - unfold code_pi. nra.
  - unfold Rdiv at 1. rewrite Rmult_assoc, Rinv_l by (unfold code_pi; nra). unfold code_pi. nra.
Qed.
Print Assumptions C47_refuted.

(** ** C48 *)
(** Refuted: the values are not the documented ones.  What every successful
    call stores, and that it is never negative. *)
Theorem C48_value :
  forall (s : sys Rnum) (averaged : bool) (q : Z),
  q_ready s -> (2 <= q <= 12)%Z -> (forall a, In a (s_atoms s) -> (0 < q_dot q a a)%R) ->
  (forall a, In a (s_atoms s) -> 0 < length (a_nbrs a) <= length (s_atoms s)) ->
  exists t, py_calculate_disorder s averaged q = Ok t /\ length (s_atoms t) = length (s_atoms s) /\
  forall i a, nth_error (s_atoms s) i = Some a -> exists a', nth_error (s_atoms t) i = Some a' /\
    a_nbrs a' = a_nbrs a /\ a_qc a' = a_qc a /\ a_pos a' = a_pos a /\
    (a_disorder a' : R) = coded_disorder q (s_atoms s) a /\ (0 <= (a_disorder a' : R))%R /\
    (averaged = false -> a_avgdisorder a' = a_avgdisorder a) /\
    (averaged = true -> (a_avgdisorder a' : R) = shell_mean (coded_disorder q (s_atoms s)) (s_atoms s) a).
Proof.
  intros s averaged q Hr Hq Hp Hl. rewrite (py_disorder_run averaged Hr Hq Hp) by (intros; now apply Hl). cbv zeta.
  eexists. split; [reflexivity|]. cbn [s_atoms set]. split; [destruct averaged; now rewrite ?map_length|].
  intros i a Ha. set (l := s_atoms s) in *.
  assert (Ia : In a l) by (eapply nth_error_In; eauto).
  assert (Hc : (0 <= coded_disorder q l a)%R) by (apply coded_nonneg; auto).
  destruct averaged.
  - exists (with_avg (map (with_disorder q l) l) (with_disorder q l a)). rewrite !nth_error_map, Ha.
    split; [reflexivity|]. do 3 (split; [reflexivity|]). split; [reflexivity|]. split; [exact Hc|]. split; [discriminate|]. intros _.
    change (shell_mean (@a_disorder Rnum) (map (with_disorder q l) l) (with_disorder q l a) = shell_mean (coded_disorder q l) l a).
    unfold shell_mean. change (a_nbrs (with_disorder q l a)) with (a_nbrs a).
    change (a_disorder (with_disorder q l a)) with (coded_disorder q l a : Rnum). f_equal. f_equal.
    apply Rsum_map_ext. intros e _. rewrite nth_error_map. now destruct (nth_error l (nb_idx e)).
  - exists (with_disorder q l a). rewrite nth_error_map, Ha. split; [reflexivity|]. do 3 (split; [reflexivity|]).
    split; [reflexivity|]. split; [exact Hc|]. split; [reflexivity|discriminate].
Qed.
Print Assumptions C48_value.
(** q outside 2..12 is refused, for any numbers. *)
Theorem C48_bad_q : forall (N : num) (s : sys N) averaged q, (q < 2 \/ 12 < q)%Z ->
  py_calculate_disorder s averaged q = Err ValueError.
Proof.
  intros N s averaged q H. unfold py_calculate_disorder, q_ok.
  destruct (Z.leb_spec 2 q), (Z.ltb_spec q 13); try lia; reflexivity.
Qed.
Print Assumptions C48_bad_q.

(** Three atoms whose q=2 vectors are unit vectors; the last two are equal. *)
Definition qc_rows (N : num) (k : nat) : list (list (N * N)) :=
  (repeat (n0, n0) k ++ (n1, n0) :: repeat (n0, n0) (24 - k)) :: repeat (repeat (n0, n0) 25) 10.
Definition dis_sys (N : num) : sys N := of_atoms N
  [with_nbrs N [nb N 1 1 0 0 n1] <| a_qc := qc_rows N 0 |>;
   with_nbrs N [nb N 2 0 1 0 n1] <| a_qc := qc_rows N 1 |>;
   with_nbrs N [nb N 1 0 (-1) 0 n1] <| a_qc := qc_rows N 1 |>].
Example dis_sys_ready : q_ready (dis_sys Rnum).
Proof.
  split; [reflexivity|]. cbn [dis_sys of_atoms set_atoms s_atoms].
  intros a Ha. split.
  - cbn in Ha. decompose [or] Ha; subst; try contradiction; repeat split; repeat constructor.
  - intros e He. cbn in Ha. decompose [or] Ha; subst; try contradiction;
      cbn in He; decompose [or] He; subst; try contradiction; cbn; lia.
Qed.
Lemma dis_dot : forall i j (a b : atom Rnum), i <= 1 -> j <= 1 -> a_qc a = qc_rows Rnum i -> a_qc b = qc_rows Rnum j ->
  q_dot 2 a b = if i =? j then 1%R else 0%R.
Proof.
  intros i j a b Hi Hj Ea Eb. unfold q_dot, q_component. rewrite Ea, Eb.
  change (zrange 0 (2 * 2 + 1)) with [0; 1; 2; 3; 4]%Z. cbn [map].
  change (Z.to_nat (2 - 2)) with 0%nat. change (Z.to_nat 0) with 0%nat. change (Z.to_nat 1) with 1%nat.
  change (Z.to_nat 2) with 2%nat. change (Z.to_nat 3) with 3%nat. change (Z.to_nat 4) with 4%nat.
  destruct i as [|[|i]], j as [|[|j]]; try lia; cbn; ring.
Qed.
Example C48_hyp : q_ready (dis_sys Rnum) /\
  (forall a, In a (s_atoms (dis_sys Rnum)) -> (0 < q_dot 2 a a)%R) /\
  (forall a, In a (s_atoms (dis_sys Rnum)) -> 0 < length (a_nbrs a) <= length (s_atoms (dis_sys Rnum))).
Proof.
  split; [exact dis_sys_ready|]. split; intros a Ha.
  - cbn [dis_sys of_atoms set_atoms s_atoms set In] in Ha. decompose [or] Ha; subst; try contradiction.
    + rewrite (dis_dot 0 0); auto; cbn; lra.
    + rewrite (dis_dot 1 1); auto; cbn; lra.
    + rewrite (dis_dot 1 1); auto; cbn; lra.
  - cbn in Ha. decompose [or] Ha; subst; try contradiction; cbn; lia.
Qed.
Theorem C48_refuted :
  exists (s t : sys Rnum) (q : Z) a0 a1 a2 b0 b1 b2,
  py_calculate_disorder s false q = Ok t /\ s_atoms s = [a0; a1; a2] /\ s_atoms t = [b0; b1; b2] /\
  documented_disorder q (s_atoms s) a0 = 2%R /\ (a_disorder b0 : R) = 0%R /\
  documented_disorder q (s_atoms s) a1 = 0%R /\ (a_disorder b1 : R) = 2%R.
Proof.
  destruct C48_hyp as (H1 & H2 & H3).
  set (x := with_nbrs Rnum [nb Rnum 1 1 0 0 n1] <| a_qc := qc_rows Rnum 0 |>).
  set (y := with_nbrs Rnum [nb Rnum 2 0 1 0 n1] <| a_qc := qc_rows Rnum 1 |>).
  set (z := with_nbrs Rnum [nb Rnum 1 0 (-1) 0 n1] <| a_qc := qc_rows Rnum 1 |>).
  assert (EL : s_atoms (dis_sys Rnum) = [x; y; z]) by reflexivity.
  exists (dis_sys Rnum). eexists. exists 2%Z, x, y, z. do 3 eexists.
  split; [apply (py_disorder_run (q:=2%Z) false H1 ltac:(lia) H2); intros; now apply H3|].
  split; [exact EL|]. cbn [s_atoms set]. rewrite EL. split; [reflexivity|].
  assert (S1 : sqrt 1 = 1%R) by apply sqrt_1.
  assert (Dxx : q_dot 2 x x = 1%R) by now rewrite (dis_dot 0 0) by auto.
  assert (Dyy : q_dot 2 y y = 1%R) by now rewrite (dis_dot 1 1) by auto.
  assert (Dzz : q_dot 2 z z = 1%R) by now rewrite (dis_dot 1 1) by auto.
  assert (Dxy : q_dot 2 x y = 0%R) by now rewrite (dis_dot 0 1) by auto.
  assert (Dyx : q_dot 2 y x = 0%R) by now rewrite (dis_dot 1 0) by auto.
  assert (Dyz : q_dot 2 y z = 1%R) by now rewrite (dis_dot 1 1) by auto.
  assert (Nx : a_nbrs x = [nb Rnum 1 1 0 0 n1]) by reflexivity.
  assert (Ny : a_nbrs y = [nb Rnum 2 0 1 0 n1]) by reflexivity.
  split; [|split; [|split]].
  - unfold documented_disorder. rewrite Nx. cbn [map nb nb_idx nth_error length]. rewrite Rsum_cons, Dxx, Dyy, Dxy.
    cbn [INR]. change (Rsum []) with 0%R. field.
  - change (coded_disorder 2 [x; y; z] x = 0%R). unfold coded_disorder. rewrite Nx. cbn [map length seq firstn].
    rewrite !Rsum_cons, Dxx. change (Rsum []) with 0%R. cbn [INR]. rewrite !Rplus_0_r, Rmult_1_l, S1. field.
  - unfold documented_disorder. rewrite Ny. cbn [map nb nb_idx nth_error length]. rewrite Rsum_cons, Dyy, Dzz, Dyz.
    cbn [INR]. change (Rsum []) with 0%R. field.
  - change (coded_disorder 2 [x; y; z] y = 2%R). unfold coded_disorder. rewrite Ny. cbn [map length seq firstn].
    rewrite !Rsum_cons, Dyx, Dxx, Dyy. change (Rsum []) with 0%R. cbn [INR]. rewrite !Rplus_0_r, Rmult_1_l, S1. field.
Qed.
Print Assumptions C48_refuted.
(** The same run in double precision. *)
Example C48_runs :
  match py_calculate_disorder (dis_sys P64) true 2 with
  | Ok t => forallb (fun p => neqb (a_disorder (fst p)) (nofZ (snd p))) (combine (s_atoms t) [0; 2; 2]%Z) &&
            forallb (fun p => neqb (a_avgdisorder (fst p)) (nofZ (snd p))) (combine (s_atoms t) [1; 2; 2]%Z)
  | Err _ => false
  end = true.
Proof. vm_compute. reflexivity. Qed.
(** An atom without neighbours gets 0/0. *)
Example C48_no_neighbours :
  let s := of_atoms F64 [with_nbrs F64 [] <| a_qc := qc_rows F64 0 |>] in
  match py_calculate_disorder s false 2 with
  | Ok t => match s_atoms t with [a] => neqb (a_disorder a) (a_disorder a) | _ => true end
  | Err _ => true
  end = false.
Proof. vm_compute. reflexivity. Qed.
