(** The cell lists for doubles: the grid, the cell of an atom, and the pairs
    that are visited. *)
From Coq Require Import ZArith Reals Lra Lia Psatz Permutation.
From Coq.Floats Require Import SpecFloat.
From Flocq Require Import Core IEEE754.BinarySingleNaN.
From Verif Require Import Base Num NumR NumF Types M_Geometry M_Container M_Neighbors S_Geometry S_Neighbors S_Double S_DoubleDist
  P_Container P_Neighbors P_Cells P_Search P_Double P_Round P_DoubleDist.
Open Scope R_scope.
Set Implicit Arguments.
Unset Strict Implicit.

(** ** Any numbers: what the cell search finds *)
Section G.
Variable N : num.
Implicit Types (s : sys N).

Lemma sub_perm {A} (dec : forall x y : A, {x = y} + {x <> y}) (ps qs : list A) : NoDup ps -> incl ps qs -> exists rest, Permutation qs (ps ++ rest).
Proof.
  revert qs. induction ps as [|p ps IH]; intros qs ND HI; [exists qs; apply Permutation_refl|].
  inversion ND as [|? ? Hp ND']; subst. destruct (in_split p qs) as (q1 & q2 & ->); [apply HI; now left|].
  destruct (IH (q1 ++ q2)) as (rest & HR); [exact ND'| |].
  - intros x Hx. assert (Hx' := HI x (or_intror Hx)). apply in_app_iff in Hx'. apply in_app_iff. destruct Hx' as [H|[H|H]]; auto. subst. contradiction.
  - exists rest. cbn [app]. etransitivity; [symmetry; apply Permutation_middle|]. constructor. exact HR.
Qed.

Definition key (i j : nat) : nat * nat := if (i <? j)%nat then (i, j) else (j, i).

Lemma pair_ev_key s l i p e : In e (pair_ev s l i p) -> (fst p < snd p)%nat -> p = key i (nb_idx e).
Proof.
  destruct p as [ti tj]. unfold pair_ev, key. destruct (nth_error l ti); [|intros []]. destruct (nth_error l tj); [|intros []].
  destruct (abs_distance_ij _ _ _) as [d v]. destruct (_ && _)%bool; [|intros []]. destruct (Nat.eqb_spec i ti) as [->|].
  - intros [<-|[]]. cbn [nb_idx fst snd]. intros H. apply Nat.ltb_lt in H. now rewrite H.
  - destruct (Nat.eqb_spec i tj) as [->|]; [|intros []]. intros [<-|[]]. cbn [nb_idx fst snd]. intros H. destruct (Nat.ltb_spec tj ti); [lia|reflexivity].
Qed.

Lemma cells_visited s f r ps : stored s -> cell_pairs (prep s f r) = Ok ps -> NoDup ps ->
  (forall p, In p ps -> (fst p < snd p < length (s_atoms s))%nat) ->
  (forall i, (i < length (s_atoms s))%nat -> (length (neighbors_within s r f i) <= 300)%nat) ->
  exists s', get_all_neighbors_cells (s <| s_atoms := map (@reset_atom_all N) (s_atoms s) |>
          <| s_filter := filter_code f |> <| s_nd := r |>) = Ok s' /\
  forall i, (i < length (s_atoms s))%nat ->
    (exists rest, Permutation (neighbors_within s r f i) (nbrs_at s' i ++ rest)) /\
    (forall e, In e (neighbors_within s r f i) -> In (key i (nb_idx e)) ps -> In e (nbrs_at s' i)).
Proof.
  intros Hst E ND HR HC. unfold get_all_neighbors_cells. change (_ <| s_vorused := false |>) with (prep s f r). rewrite E. cbn [bind].
  assert (HL : length (s_atoms (prep s f r)) = length (s_atoms s)) by (cbn; apply map_length).
  destruct (@sub_perm _ (fun x y : nat * nat => ltac:(decide equality; apply Nat.eq_dec)) ps (pairs (length (s_atoms s))) ND) as (prest & HP).
  { intros [a b] Hab. apply HR in Hab. apply In_pairs. exact Hab. }
  assert (EV : forall i, (i < length (s_atoms s))%nat ->
    evs (prep s f r) (s_atoms (prep s f r)) (pairs (length (s_atoms s))) i = neighbors_within s r f i).
  { intros i Hi. rewrite <- (within_prep s f r f r i). rewrite <- HL. apply evs_pairs; [reflexivity|now rewrite HL]. }
  assert (EP : forall i, (i < length (s_atoms s))%nat -> Permutation (neighbors_within s r f i)
     (evs (prep s f r) (s_atoms (prep s f r)) ps i ++ evs (prep s f r) (s_atoms (prep s f r)) prest i)).
  { intros i Hi. rewrite <- EV by exact Hi. unfold evs. rewrite <- flat_map_app. apply Permutation_flat_map. exact HP. }
  pose proof (@fold_add_pair _ (prep s f r) ps (s_atoms (prep s f r))) as H.
  match type of H with ?P -> _ => assert (HP' : P) end.
  { intros p Hp. apply HR in Hp. lia. }
  specialize (H HP'). destruct (foldM _ _ _) as [l'|e]; cbn [bind].
  - eexists. split; [reflexivity|]. intros i Hi.
    assert (NB : nbrs_at (prep s f r <| s_atoms := l' |>) i = evs (prep s f r) (s_atoms (prep s f r)) ps i).
    { assert (HRes := @grown_result _ s l' f r _ H (prep s f r <| s_atoms := l' |>) eq_refl). destruct HRes as [_ HRes].
      destruct (nth_error (s_atoms s) i) as [a|] eqn:Ea; [|apply nth_error_None in Ea; lia].
      destruct (HRes i a Ea) as (a' & Ea' & _ & EN & _). unfold nbrs_at. now rewrite Ea'. }
    rewrite NB. split; [eexists; apply EP; exact Hi|].
    intros e He Hk. rewrite <- EV in He by exact Hi. unfold evs in He. apply in_flat_map in He as (p & Hp & He).
    assert (Hp' : p = key i (nb_idx e)) by (eapply pair_ev_key; [exact He|destruct p as [a b]; apply In_pairs in Hp; apply Hp]).
    unfold evs. apply in_flat_map. exists p. split; [now rewrite Hp'|exact He].
  - exfalso. destruct H as (_ & i & a & Ha & HH).
    assert (Hi : (i < length (s_atoms s))%nat) by (rewrite <- HL; apply nth_error_Some; congruence).
    cbn in Ha. rewrite nth_error_map in Ha. destruct (nth_error (s_atoms s) i) as [a0|]; [|discriminate]. injection Ha as <-.
    specialize (HC i Hi). rewrite (Permutation_length (EP i Hi)), app_length in HC.
    change (max_nbrs < length (evs (prep s f r) (s_atoms (prep s f r)) ps i))%nat in HH. unfold max_nbrs in HH. lia.
Qed.

(** The three cell coordinates of a position. *)
Definition ccx s g (p : v3 N) : Z := cell_coord (vx (s_len s)) (ndiv (vx (s_len s)) (nofZ (g_nx g))) (vx p).
Definition ccy s g (p : v3 N) : Z := cell_coord (vy (s_len s)) (ndiv (vy (s_len s)) (nofZ (g_ny g))) (vy p).
Definition ccz s g (p : v3 N) : Z := cell_coord (vz (s_len s)) (ndiv (vz (s_len s)) (nofZ (g_nz g))) (vz p).
Definition next (n c c' : Z) : Prop := exists d, (-1 <= d <= 1)%Z /\ cell_periodic1 n (c + d) = c'.

Lemma cell_pairs_gen s g : stored s -> make_grid s = Ok g -> grid3 g ->
  (forall a, In a (s_atoms s) -> in_grid g (ccx s g (a_pos a)) (ccy s g (a_pos a)) (ccz s g (a_pos a))) ->
  exists ps, cell_pairs s = Ok ps /\ NoDup ps /\ (forall p, In p ps -> (fst p < snd p < length (s_atoms s))%nat) /\
    (forall i j a b, (i < j)%nat -> nth_error (s_atoms s) i = Some a -> nth_error (s_atoms s) j = Some b ->
       next (g_nx g) (ccx s g (a_pos a)) (ccx s g (a_pos b)) -> next (g_ny g) (ccy s g (a_pos a)) (ccy s g (a_pos b)) ->
       next (g_nz g) (ccz s g (a_pos a)) (ccz s g (a_pos b)) -> In (i, j) ps).
Proof.
  intros Hst Eg G3 RNG.
  set (cs := map (fun a => atom_cell s g (a_pos a)) (s_atoms s)).
  assert (Ecs : atom_cells s g = Ok cs).
  { unfold atom_cells. rewrite Hst, Nat2Z.id. unfold cs.
    assert (Q : forall l1 l2, s_atoms s = l1 ++ l2 ->
      mapM (fun ti => bind (get (s_atoms s) ti) (fun a => let c := atom_cell s g (a_pos a) in
          if (Z.leb 0 c && Z.ltb c (g_nx g * g_ny g * g_nz g))%bool then Ok c else Err UB))
        (seq (length l1) (length l2)) = Ok (map (fun a => atom_cell s g (a_pos a)) l2)).
    { intros l1 l2; revert l1; induction l2 as [|a l2 IH]; intros l1 E; cbn [mapM map seq length]; auto.
      assert (Ea : nth_error (s_atoms s) (length l1) = Some a).
      { rewrite E, nth_error_app2, Nat.sub_diag; auto. }
      rewrite (get_Ok Ea). cbn [bind]. cbv zeta.
      assert (Hin : In a (s_atoms s)) by (apply nth_error_In in Ea; exact Ea).
      assert (RC : (0 <= atom_cell s g (a_pos a) < g_nx g * g_ny g * g_nz g)%Z).
      { destruct (RNG a Hin) as (A & B & C). apply (cell_index_range _ _ _ _ _ _ A B C). }
      assert (E1 : (Z.leb 0 (atom_cell s g (a_pos a)) && Z.ltb (atom_cell s g (a_pos a)) (g_nx g * g_ny g * g_nz g))%bool = true).
      { rewrite Bool.andb_true_iff, Z.leb_le, Z.ltb_lt. lia. }
      rewrite E1. cbn [bind].
      specialize (IH (l1 ++ [a])). rewrite app_length in IH. cbn [length] in IH. rewrite Nat.add_1_r in IH.
      rewrite IH; auto. rewrite E, <- app_assoc. reflexivity. }
    exact (Q [] (s_atoms s) eq_refl). }
  exists (cell_of_all g cs). split.
  { unfold cell_pairs. rewrite Eg. cbn [bind]. rewrite Ecs. reflexivity. }
  split; [now apply NoDup_cell_of_all|]. split.
  - intros [ti tj] H. apply In_cell_of_all in H. destruct H as (i & j & k & _ & H).
    apply In_inner in H. destruct H as (Hlt & _ & c & _ & Hc). simpl. split; auto.
    assert (HH : (tj < length cs)%nat) by (apply nth_error_Some; congruence).
    unfold cs in HH. now rewrite map_length in HH.
  - intros i j a b Hij Ha Hb (dx & Bx & Cx) (dy & By & Cy) (dz & Bz & Cz). apply In_cell_of_all.
    assert (Ia : In a (s_atoms s)) by (eapply nth_error_In; eauto).
    exists (ccx s g (a_pos a)), (ccy s g (a_pos a)), (ccz s g (a_pos a)). split; [auto|].
    apply In_inner. split; auto. split.
    { unfold cs. rewrite nth_error_map, Ha. reflexivity. }
    exists (atom_cell s g (a_pos b)). split.
    2:{ unfold cs. rewrite nth_error_map, Hb. reflexivity. }
    apply In_neighbor_cells. exists dx, dy, dz. split; [lia|]. rewrite Cx, Cy, Cz. reflexivity.
Qed.
End G.

(** ** Doubles *)
#[local] Instance P53 : Prec_gt_0 prec64 := eq_refl.
#[local] Instance E53 : Prec_lt_emax prec64 emax64 := eq_refl.
#[local] Instance V53 : Valid_exp fe := FLT_exp_valid (-1074) 53.

Lemma trunc_rep x a : rep x a -> 0 <= a -> IZR (sf_trunc x) <= a < IZR (sf_trunc x) + 1 /\ (0 <= sf_trunc x)%Z.
Proof.
  intros (b & -> & F & <-) Ha. destruct b as [s|s| |s m e Hm]; try discriminate F; [cbn; split; [lra|lia]|].
  destruct s.
  { exfalso. assert (B2R (B754_finite true m e Hm) < 0); [|lra]. cbn [B2R]. apply F2R_lt_0. cbn. lia. }
  cbn [B2SF sf_trunc B2R cond_Zopp]. unfold F2R. cbn [Fnum Fexp]. destruct (Z.leb_spec 0 e) as [He|He].
  - rewrite Z.shiftl_mul_pow2 by lia. rewrite mult_IZR. change (2 ^ e)%Z with (Zpower radix2 e). rewrite (IZR_Zpower radix2 e He). split; [lra|]. apply Z.mul_nonneg_nonneg; [lia|apply Z.pow_nonneg; discriminate].
  - rewrite Z.shiftr_div_pow2 by lia. split; [|apply Z.div_pos; [lia|apply Z.pow_pos_nonneg; lia]].
    pose proof (Z.div_mod (Zpos m) (2 ^ (- e)) ltac:(apply Z.pow_nonzero; lia)) as Q. pose proof (Z.mod_pos_bound (Zpos m) (2 ^ (- e)) ltac:(apply Z.pow_pos_nonneg; lia)) as M.
    set (q := (Z.pos m / 2 ^ (- e))%Z) in *. set (k := (Z.pos m mod 2 ^ (- e))%Z) in *.
    assert (HB : bpow radix2 e * IZR (2 ^ (- e)) = 1).
    { change (2 ^ (- e))%Z with (Zpower radix2 (- e)). rewrite IZR_Zpower by lia. rewrite <- bpow_plus. replace (e + - e)%Z with 0%Z by lia. reflexivity. }
    assert (HQ : IZR (Zpos m) = IZR (2 ^ (- e)) * IZR q + IZR k) by (rewrite Q at 1; rewrite plus_IZR, mult_IZR; reflexivity).
    destruct M as [M1 M2]. apply IZR_le in M1. apply IZR_lt in M2. pose proof (bpow_gt_0 radix2 e) as E0.
    change (Z.pos m) with (Zpos m). rewrite HQ.
    replace ((IZR (2 ^ (- e)) * IZR q + IZR k) * bpow radix2 e) with (bpow radix2 e * IZR (2 ^ (- e)) * IZR q + bpow radix2 e * IZR k) by ring. rewrite HB.
    clear Q HQ. assert (0 <= bpow radix2 e * IZR k) by (apply Rmult_le_pos; lra).
    assert (bpow radix2 e * IZR k < bpow radix2 e * IZR (2 ^ (- e))) by (apply Rmult_lt_compat_l; lra). lra.
Qed.

Lemma ofZ_rep n : (Z.abs n <= 2 ^ 53)%Z -> rep (sf_ofZ n) (IZR n).
Proof.
  intros Hn. unfold sf_ofZ. rewrite <- normalize_NE. eexists. split; [reflexivity|].
  pose proof (binary_normalize_correct prec64 emax64 _ _ mode_NE n 0 false) as Q. change (round radix2 fe (round_mode mode_NE)) with rnd in Q.
  assert (EF : F2R (Float radix2 n 0) = IZR n) by (unfold F2R; cbn; ring). cbv zeta in Q. rewrite EF in Q.
  assert (FM : generic_format radix2 fe (IZR n)).
  { destruct (Z.eq_dec (Z.abs n) (2 ^ 53)) as [E|E].
    - assert (G : generic_format radix2 fe (bpow radix2 53)) by (apply generic_format_bpow; vm_compute; discriminate).
      assert (HB : bpow radix2 53 = IZR (2 ^ 53)) by reflexivity. destruct (Z.abs_eq_or_opp n) as [A|A]; rewrite A in E.
      + rewrite E, <- HB. exact G.
      + replace n with (- (2 ^ 53))%Z by lia. rewrite opp_IZR, <- HB. apply generic_format_opp. exact G.
    - rewrite <- EF. apply generic_format_F2R' with (f := Float radix2 n 0); [reflexivity|]. intros Hnz. cbn [Fexp].
      unfold cexp. assert (MG : (mag radix2 (F2R (Float radix2 n 0)) <= 53)%Z).
      { apply mag_le_bpow; [exact Hnz|]. rewrite EF, <- abs_IZR. change (bpow radix2 53) with (IZR (2 ^ 53)). apply IZR_lt. lia. }
      unfold SpecFloat.fexp, SpecFloat.emin, prec64, emax64. lia. }
  rewrite (rnd_fmt FM) in Q. rewrite Rlt_bool_true in Q; [tauto|].
  apply Rle_lt_trans with (bpow radix2 53); [|apply bpow_lt; reflexivity]. rewrite <- abs_IZR. change (bpow radix2 53) with (IZR (2 ^ 53)). apply IZR_le. exact Hn.
Qed.

Lemma leb_rep x y a b : rep x a -> rep y b -> SFleb x y = Rleb a b.
Proof.
  intros (v & -> & Fu & <-) (w & -> & Fv & <-). pose proof (Bleb_correct prec64 emax64 v w Fu Fv) as Q. unfold Bleb in Q. rewrite Q.
  unfold Rleb. destruct (Rle_dec (B2R v) (B2R w)); [apply Rle_bool_true; assumption|apply Rle_bool_false; lra].
Qed.

Definition snap : spec_float := sf_lit 1 1000000.
Lemma snap_rep : exists c, rep snap c /\ 0 < c /\ c < / 524288.
Proof.
  assert (E : snap = S754_finite false 4722366482869645 (-72)) by (vm_compute; reflexivity).
  exists (val snap). rewrite E. split; [|].
  - apply rep_double. split; [vm_compute; reflexivity|]. exists false, 4722366482869645%positive, (-72)%Z. now right.
  - unfold val. rewrite pow_bpow. change (bpow radix2 (-72)) with (/ 4722366482869645213696). split; lra.
Qed.

(** One coordinate, in real numbers. *)
Lemma real_cell (l rho n c xi q0 lam q : R) :
  0 < rho -> 3 * rho <= l -> 3 <= n -> n <= q0 -> q0 <= l / rho * (1 + u) + eta ->
  l / n * (1 - u) - eta <= lam <= l / n * (1 + u) + eta -> eta <= u * rho / 4 -> eta <= u / 8 ->
  0 <= xi <= l * (1 - 8 * u) -> xi / lam * (1 - u) - eta <= q <= xi / lam * (1 + u) + eta -> c <= q < c + 1 ->
  rho - u * l <= l / n /\ c < n /\ c * (l / n) <= xi + 5 * u * l /\ xi <= (c + 1) * (l / n) + 5 * u * l.
Proof.
  intros Hr Hl Hn Hq0 Hq0' [La Lb] E1 E2 [X0 X1] [Qa Qb] [Ca Cb].
  assert (U0 : 0 < u) by (unfold u; lra). assert (U1 : u < / 1000) by (unfold u; lra). pose proof eta_pos as E0.
  assert (N0 : 0 < n) by lra. set (la := l / n) in *. assert (EL : l = n * la) by (unfold la; field; lra).
  assert (L0 : 0 < la) by (unfold la; apply Rdiv_lt_0_compat; lra). clearbody la.
  assert (A3 : la <= l / 3) by (rewrite EL; nra).
  assert (R1 : n * rho <= l * (1 + u) + eta * rho).
  { apply Rle_trans with (q0 * rho); [apply Rmult_le_compat_r; lra|].
    apply Rle_trans with ((l / rho * (1 + u) + eta) * rho); [apply Rmult_le_compat_r; lra|]. right. field. lra. }
  assert (R2 : rho <= la * (1 + u) + eta * rho / 3).
  { apply Rmult_le_reg_l with n; [lra|]. assert (eta * rho <= n * (eta * rho / 3)) by (assert (0 < eta * rho) by nra; nra).
    replace (n * (la * (1 + u) + eta * rho / 3)) with (n * la * (1 + u) + n * (eta * rho / 3)) by ring. rewrite <- EL. lra. }
  assert (R3 : eta * rho <= rho / 1000) by nra.
  assert (R4 : rho <= 2 * la) by nra.
  assert (E3 : eta <= u * la / 2) by nra.
  assert (M1 : la * (1 - 3 / 2 * u) <= lam <= la * (1 + 3 / 2 * u)) by (split; nra).
  assert (M0 : 0 < lam) by nra.
  set (t := xi / lam) in *. assert (ET : xi = t * lam) by (unfold t; field; lra).
  assert (T0 : 0 <= t) by (unfold t; apply Rmult_le_pos; [lra|left; apply Rinv_0_lt_compat; lra]). clearbody t.
  assert (E4 : eta * la <= u / 8 * (l / 3)) by (apply Rmult_le_compat; lra).
  assert (UL : 0 < u * l) by nra.
  assert (C1 : c * la <= xi * (1 + 3 * u) + eta * la).
  { assert (V1 : t * la * (1 + u) <= xi * (1 + 3 * u)).
    { rewrite ET. assert (la * (1 + u) <= lam * (1 + 3 * u)); [|nra].
      apply Rle_trans with (la * (1 - 3 / 2 * u) * (1 + 3 * u)); [|apply Rmult_le_compat_r; lra].
      assert ((1 + u) <= (1 - 3 / 2 * u) * (1 + 3 * u)) by nra. nra. }
    assert (c * la <= (t * (1 + u) + eta) * la) by (apply Rmult_le_compat_r; lra). lra. }
  assert (UX : u * xi <= u * l) by (apply Rmult_le_compat_l; lra).
  assert (C2 : c * la <= xi + 4 * u * l) by lra.
  split; [|split; [|split; [lra|]]].
  - assert (eta * rho <= u / 8 * (l / 3)) by (apply Rmult_le_compat; lra).
    assert (u * la <= u * (l / 3)) by (apply Rmult_le_compat_l; lra). lra.
  - apply Rmult_lt_reg_r with la; [lra|]. rewrite <- EL. lra.
  - assert (V1 : t * (1 - u) < c + 1 + eta) by lra.
    assert (V2 : xi * (1 - u) <= (c + 1 + eta) * lam).
    { rewrite ET. replace (t * lam * (1 - u)) with (t * (1 - u) * lam) by ring. apply Rmult_le_compat_r; lra. }
    assert (V3 : 0 <= c + 1 + eta).
    { assert (0 <= t * (1 - u)) by (apply Rmult_le_pos; lra). lra. }
    assert (V4 : (c + 1 + eta) * lam <= (c + 1 + eta) * (la * (1 + 3 / 2 * u))) by (apply Rmult_le_compat_l; lra).
    assert (UL2 : u * l <= / 1000 * l) by (apply Rmult_le_compat_r; lra).
    assert (V5 : (c + 1 + eta) * la <= 3 / 2 * l) by lra.
    assert (V6 : u * ((c + 1 + eta) * la) <= u * (3 / 2 * l)) by (apply Rmult_le_compat_l; lra). lra.
Qed.

Section D.
Variable lib : libm.
Notation D := (SF64 lib).

Lemma grid_double (L r : D) l rho : rep L l -> rep r rho -> 0 < rho -> 3 * rho <= l <= 1073741824 * rho ->
  (3 <= sf_trunc (sf_div L r) <= 1073741824)%Z /\ exists q, IZR (sf_trunc (sf_div L r)) <= q /\ q <= l / rho * (1 + u) + eta.
Proof.
  intros HL Hr R0 [H3 HB]. assert (Q1 : 3 <= l / rho) by (apply div_range; lra).
  assert (Q2 : l / rho <= 1073741824).
  { apply Rmult_le_reg_r with rho; [lra|]. unfold Rdiv. rewrite Rmult_assoc, Rinv_l by lra. lra. }
  assert (HD : rep (sf_div L r) (rnd (l / rho))).
  { apply (@div_rep L r l rho 30 HL Hr); [lra|lia|]. rewrite Rabs_pos_eq by lra. exact Q2. }
  assert (F3 : fmt 3) by (exact (rep_fmt (@ofZ_rep 3 ltac:(lia)))).
  assert (FB : fmt 1073741824) by (exact (rep_fmt (@ofZ_rep 1073741824 ltac:(lia)))).
  assert (T1 : 3 <= rnd (l / rho)) by (rewrite <- (rnd_fmt F3); apply rnd_le; exact Q1).
  assert (T2 : rnd (l / rho) <= 1073741824) by (rewrite <- (rnd_fmt FB); apply rnd_le; exact Q2).
  destruct (trunc_rep HD ltac:(lra)) as [[B1 B2] _]. split.
  - split; [apply Z.lt_succ_r; apply lt_IZR; rewrite succ_IZR; lra|apply le_IZR; lra].
  - exists (rnd (l / rho)). split; [exact B1|]. apply rnd_bounds. lra.
Qed.

Lemma cell_double (L r X : D) l rho xi : rep L l -> rep r rho -> rep X xi ->
  / 524288 <= rho -> 3 * rho <= l <= 1073741824 * rho -> l <= bpow radix2 500 -> 0 <= xi <= l * (1 - 8 * u) ->
  let n := sf_trunc (sf_div L r) in let c := cell_coord (N := D) L (sf_div L (sf_ofZ n)) X in
  (3 <= n)%Z /\ rho - u * l <= l / IZR n /\ (0 <= c < n)%Z /\
  IZR c * (l / IZR n) <= xi + 5 * u * l /\ xi <= (IZR c + 1) * (l / IZR n) + 5 * u * l.
Proof.
  intros HL Hr HX Hrho Hl HLB [X0 X1] n c.
  assert (U0 : 0 < u) by (unfold u; lra). assert (U1 : u < / 1000) by (unfold u; lra). pose proof eta_pos as E0.
  assert (EU : eta <= u / 4194304).
  { unfold eta. apply Rle_trans with (bpow radix2 (-75)); [apply bpow_le; lia|]. unfold u. change (bpow radix2 (-75)) with (/ 37778931862957161709568). lra. }
  destruct (@grid_double L r l rho HL Hr ltac:(lra) Hl) as [[N1 N2] (q0 & Q1 & Q2)]. fold n in N1, N2, Q1.
  assert (N3 : 3 <= IZR n) by (apply IZR_le in N1; exact N1). assert (N4 : IZR n <= 1073741824) by (apply IZR_le in N2; exact N2).
  split; [exact N1|].
  assert (HN : rep (sf_ofZ n) (IZR n)) by (apply ofZ_rep; lia).
  assert (LN : / 4194304 <= l / IZR n).
  { assert (HH : IZR n * rho <= l * (1 + u) + eta * rho).
    { apply Rle_trans with (q0 * rho); [apply Rmult_le_compat_r; lra|].
      apply Rle_trans with ((l / rho * (1 + u) + eta) * rho); [apply Rmult_le_compat_r; lra|]. right. field. lra. }
    apply div_range; [lra|]. assert (eta * rho <= rho / 1000) by nra. nra. }
  assert (LN' : l / IZR n <= l) by (apply Rmult_le_reg_r with (IZR n); [lra|]; unfold Rdiv; rewrite Rmult_assoc, Rinv_l by lra; nra).
  assert (HLN : rep (sf_div L (sf_ofZ n)) (rnd (l / IZR n))).
  { apply (@div_rep L (sf_ofZ n) l (IZR n) 500 HL HN); [lra|lia|]. rewrite Rabs_pos_eq; [|lra]. lra. }
  pose proof (@rnd_bounds (l / IZR n) ltac:(lra)) as LB. set (lam := rnd (l / IZR n)) in *.
  assert (LP : / 8388608 <= lam) by nra.
  (* the case of a coordinate away from 0 *)
  assert (MAIN : forall xi' : R, 0 <= xi' <= xi -> forall Y : D, rep Y xi' ->
    exists q, IZR (sf_trunc (sf_div Y (sf_div L (sf_ofZ n)))) <= q < IZR (sf_trunc (sf_div Y (sf_div L (sf_ofZ n)))) + 1 /\
     (0 <= sf_trunc (sf_div Y (sf_div L (sf_ofZ n))))%Z /\ xi' / lam * (1 - u) - eta <= q <= xi' / lam * (1 + u) + eta).
  { intros xi' Hxi Y HY.
    assert (P0 : 0 <= xi' / lam) by (apply Rmult_le_pos; [lra|left; apply Rinv_0_lt_compat; lra]).
    assert (HQ : rep (sf_div Y (sf_div L (sf_ofZ n))) (rnd (xi' / lam))).
    { apply (@div_rep Y _ xi' lam 600 HY HLN); [lra|lia|]. rewrite Rabs_pos_eq by exact P0.
      apply Rmult_le_reg_r with lam; [lra|]. unfold Rdiv. rewrite Rmult_assoc, Rinv_l by lra. rewrite Rmult_1_r.
      apply Rle_trans with (bpow radix2 500); [nra|].
      apply Rle_trans with (bpow radix2 600 * bpow radix2 (-23)); [rewrite <- bpow_plus; apply bpow_le; lia|].
      apply Rmult_le_compat_l; [apply bpow_ge_0|]. change (bpow radix2 (-23)) with (/ 8388608). exact LP. }
    exists (rnd (xi' / lam)). destruct (trunc_rep HQ (rnd_pos P0)) as [B1 B2]. split; [exact B1|]. split; [exact B2|]. apply rnd_bounds. exact P0. }
  assert (EA : eta <= u * rho / 4).
  { assert (u * / 524288 <= u * rho) by (apply Rmult_le_compat_l; lra). lra. }
  assert (EB : eta <= u / 8) by lra. assert (BZ : 0 <= 0 <= l * (1 - 8 * u)) by lra. assert (BX : 0 <= xi <= l * (1 - 8 * u)) by lra.
  assert (R0 : 0 < rho) by lra. assert (L3 : 3 * rho <= l) by lra.
  destruct snap_rep as (sn & HS & S0 & S1).
  assert (E1 : SFltb (SFabs (sf_sub X (n0 (N := D)))) snap = Rltb xi sn).
  { rewrite (ltb_rep (abs_rep (sub_0_r HX (rep_n0 lib))) HS). now rewrite Rabs_pos_eq. }
  assert (E2 : SFltb X (n0 (N := D)) = false) by (rewrite (ltb_rep HX (rep_n0 lib)); apply Rltb_false; lra).
  assert (E3 : SFleb L X = false) by (rewrite (leb_rep HL HX); apply Rleb_false; nra).
  assert (E4 : SFleb L (n0 (N := D)) = false) by (rewrite (leb_rep HL (rep_n0 lib)); apply Rleb_false; lra).
  unfold c, cell_coord. cbv zeta. cbn [nabs nsub nltb nlit nadd nleb ntrunc ndiv SF64]. fold snap. rewrite E1. destruct (Rltb xi sn) eqn:ES.
  - apply Rltb_true in ES. change (SFltb (n0 (N := D)) (n0 (N := D))) with false. cbv iota. rewrite E4.
    destruct (MAIN 0 ltac:(lra) (n0 (N := D)) (rep_n0 lib)) as (q & B & T0 & Q).
    set (t := sf_trunc (sf_div (n0 (N := D)) (sf_div L (sf_ofZ n)))) in *. destruct (real_cell R0 L3 N3 Q1 Q2 LB EA EB BZ Q B) as (A1 & A2 & A3 & A4).
    assert (t = 0)%Z as ->.
    { replace (0 / lam) with 0 in Q by (unfold Rdiv; ring). assert (t < 1)%Z; [|lia]. apply lt_IZR. lra. }
    split; [exact A1|]. split; [lia|]. split; [nra|].
    assert (HH : rho - u * l <= l / IZR n) by exact A1. assert (0 <= u * l) by nra. nra.
  - rewrite E2, E3. destruct (MAIN xi ltac:(lra) X HX) as (q & B & T0 & Q).
    set (t := sf_trunc (sf_div X (sf_div L (sf_ofZ n)))) in *. destruct (real_cell R0 L3 N3 Q1 Q2 LB EA EB BX Q B) as (A1 & A2 & A3 & A4).
    split; [exact A1|]. split; [split; [exact T0|apply lt_IZR; exact A2]|]. split; [exact A3|exact A4].
Qed.

(** Coordinates closer than the cutoff, up to the tolerance, are in
    neighbouring cells. *)
Lemma near_cells (l la : R) (n m c1 c2 : Z) (y1 y2 w E : R) :
  (3 <= n)%Z -> la * IZR n = l -> 0 < la ->
  (0 <= c1 < n)%Z -> (0 <= c2 < n)%Z ->
  IZR c1 * la <= y1 + E -> y1 <= (IZR c1 + 1) * la + E -> IZR c2 * la <= y2 + E -> y2 <= (IZR c2 + 1) * la + E ->
  y2 + IZR m * l = y1 + w -> Rabs w < la - 2 * E -> next n c1 c2.
Proof.
  intros Hn HL Hlx Hc1 Hc2 H1 H1' H2 H2' EQ Hw. apply Rabs_def2 in Hw.
  assert (Em : IZR m * l = IZR (m * n) * la) by (rewrite mult_IZR, <- HL; ring).
  rewrite Em in EQ. set (c := (c2 + m * n)%Z).
  assert (Hc : IZR c = IZR c2 + IZR (m * n)) by (unfold c; apply plus_IZR).
  assert (A : IZR c * la < (IZR c1 + 2) * la) by (rewrite Hc; lra).
  assert (B : (IZR c1 - 1) * la < (IZR c + 1) * la) by (rewrite Hc; lra).
  apply Rmult_lt_reg_r in A; auto. apply Rmult_lt_reg_r in B; auto.
  assert (A' : (c < c1 + 2)%Z) by (apply lt_IZR; rewrite plus_IZR; simpl; lra).
  assert (B' : (c1 - 1 < c + 1)%Z) by (apply lt_IZR; rewrite plus_IZR, minus_IZR; simpl; lra).
  exists (c - c1)%Z. split; [lia|]. replace (c1 + (c - c1))%Z with c by lia.
  unfold cell_periodic1, c in *.
  assert (Hm : (m = -1 \/ m = 0 \/ m = 1)%Z) by nia.
  destruct Hm as [Hm|[Hm|Hm]]; subst m.
  - destruct (Z.ltb_spec (c2 + -1 * n) 0); lia.
  - destruct (Z.ltb_spec (c2 + 0 * n) 0); [lia|]. destruct (Z.ltb_spec (n - 1) (c2 + 0 * n)); lia.
  - destruct (Z.ltb_spec (c2 + 1 * n) 0); [lia|]. destruct (Z.ltb_spec (n - 1) (c2 + 1 * n)); lia.
Qed.

Lemma near_double (L r X Y : D) l rho xi yi (m : Z) : rep L l -> rep r rho -> rep X xi -> rep Y yi ->
  / 524288 <= rho -> 3 * rho <= l <= 1073741824 * rho -> l <= bpow radix2 500 -> 0 <= xi <= l * (1 - 8 * u) -> 0 <= yi <= l * (1 - 8 * u) ->
  Rabs (xi - yi + IZR m * l) < rho - 16 * u * l ->
  let n := sf_trunc (sf_div L r) in let cell := cell_coord (N := D) L (sf_div L (sf_ofZ n)) in
  next n (cell X) (cell Y).
Proof.
  intros HL Hr HX HY Hrho Hl HLB BX BY HW n cell.
  destruct (cell_double HL Hr HX Hrho Hl HLB BX) as (N3 & LN & C1 & A1 & A2). destruct (cell_double HL Hr HY Hrho Hl HLB BY) as (_ & _ & C2 & B1 & B2).
  fold n in N3, LN, C1, A1, A2, C2, B1, B2. fold cell in C1, A1, A2, C2, B1, B2.
  assert (N3' : 3 <= IZR n) by (apply IZR_le in N3; exact N3). assert (U0 : 0 < u) by (unfold u; lra). assert (0 < l) by lra.
  assert (LA : l / IZR n * IZR n = l) by (field; lra).
  assert (0 < l / IZR n) by (apply Rdiv_lt_0_compat; lra).
  apply (@near_cells l (l / IZR n) n (- m) (cell X) (cell Y) xi yi (- (xi - yi + IZR m * l)) (5 * u * l)); auto; try lra.
  - rewrite opp_IZR. ring.
  - rewrite Rabs_Ropp. assert (0 < u * l) by nra. lra.
Qed.
End D.
