(** Proofs about solid particles. *)
From Coq Require Import Reals ZArith List Lia Lra.
From Verif Require Import Base Num NumR Types M_Geometry M_Container M_Neighbors M_Steinhardt M_Cluster M_Solids
  S_Neighbors S_Steinhardt S_Solids P_Container P_Neighbors P_Temp P_QRun P_Harmonics P_Steinhardt P_QInv P_QSys.
Import ListNotations.
Set Implicit Arguments.
Unset Strict Implicit.

Section Run.
Variable N : num.
Open Scope num_scope.

(** ** One bond *)
Definition bond (q : Z) (a b : atom N) : N :=
  let ms := zrange 0 (2 * q + 1) in
  let za := zcomp a q in let zb := zcomp b q in
  let si := fold_left (fun x m => x + (fst (za m) * fst (za m) + snd (za m) * snd (za m))) ms n0 in
  let sj := fold_left (fun x m => x + (fst (zb m) * fst (zb m) + snd (zb m) * snd (zb m))) ms n0 in
  let re := fold_left (fun x m => x + fst (za m) * fst (zb m)) ms n0 in
  let im := fold_left (fun x m => x + snd (za m) * snd (zb m)) ms n0 in
  (re + im) / (nsqrt sj * nsqrt si).

Lemma zget_row (a : atom N) q mi : (2 <= q <= 12)%Z -> (0 <= mi <= 2 * q)%Z -> q_arrays a ->
  exists row, zget (a_qc a) (q - 2) = Ok row /\ zget row mi = Ok (zcomp a q mi).
Proof.
  intros Hq Hm (_ & _ & H3 & H4 & _). destruct (@nth_error_some _ (a_qc a) (Z.to_nat (q - 2))) as [row E]; [lia|].
  exists row. split; [apply zget_Ok; [lia|auto]|]. rewrite Forall_forall in H4.
  assert (length row = 25) as Hl by (apply H4; eapply nth_error_In; eauto).
  destruct (@nth_error_some _ row (Z.to_nat mi)) as [z Ez]; [lia|].
  apply zget_Ok; [lia|]. unfold zcomp, zrow. now rewrite E, Ez.
Qed.

Lemma bond_eq q (a b : atom N) : (2 <= q <= 12)%Z -> q_arrays a -> q_arrays b ->
  get_number_from_bond q a b = Ok (bond q a b).
Proof.
  intros Hq Ha Hb. unfold get_number_from_bond, bond. cbv zeta.
  assert (HI : forall mi, In mi (zrange 0 (2 * q + 1)) -> (0 <= mi <= 2 * q)%Z) by (intros mi X; apply In_zrange in X; lia).
  revert HI. generalize (zrange 0 (2 * q + 1)). intros ms HI.
  match goal with |- bind (foldM ?f ms (n0, n0, n0, n0)) _ = _ => set (F := f);
    assert (E : forall si sj re im, foldM F ms (si, sj, re, im) = Ok
     (fold_left (fun x m => x + (fst (zcomp a q m) * fst (zcomp a q m) + snd (zcomp a q m) * snd (zcomp a q m))) ms si,
      fold_left (fun x m => x + (fst (zcomp b q m) * fst (zcomp b q m) + snd (zcomp b q m) * snd (zcomp b q m))) ms sj,
      fold_left (fun x m => x + fst (zcomp a q m) * fst (zcomp b q m)) ms re,
      fold_left (fun x m => x + snd (zcomp a q m) * snd (zcomp b q m)) ms im)) end.
  { induction ms as [|m ms IH]; intros si sj re im; [reflexivity|]. cbn [foldM fold_left]. unfold F at 1.
    destruct (@zget_row a q m Hq (HI m (or_introl eq_refl)) Ha) as (ra & Ea & Ea').
    destruct (@zget_row b q m Hq (HI m (or_introl eq_refl)) Hb) as (rb & Eb & Eb').
    rewrite Ea. cbn [bind]. rewrite Ea'. cbn [bind]. destruct (zcomp a q m) as [xa ya] eqn:Xa.
    rewrite Eb. cbn [bind]. rewrite Eb'. cbn [bind]. destruct (zcomp b q m) as [xb yb] eqn:Xb. cbn [bind fst snd].
    apply IH. intros; apply HI; simpl; auto. }
  rewrite E. reflexivity.
Qed.

(** ** All bonds of one atom *)
Definition values (q : Z) (l : list (atom N)) (a : atom N) : list N :=
  flat_map (fun e => match nth_error l (nb_idx e) with Some b => [bond q a b] | None => [] end) (a_nbrs a).
Definition counts (cc : Z) (th v : N) : bool := Z.eqb cc 0 && ((th <? v) || (v <? th)).
Definition frenkel_new (q cc : Z) (th : N) (l : list (atom N)) (a : atom N) : atom N :=
  let vs := values q l a in
  a <| a_sij := set_row vs (a_sij a) |> <| a_frenkel := count (counts cc th) vs |>
    <| a_avq := total vs / nofZ (Z.of_nat (length (a_nbrs a))) |>.

Lemma count_bond_eq cc th v k : count_bond cc th v k = (k + Z.b2z (counts cc th v))%Z.
Proof.
  unfold count_bond, counts. destruct (Z.eqb cc 0); cbn [andb]; [|cbn; lia].
  destruct (th <? v); cbn [orb Z.b2z]; [lia|]. destruct (v <? th); cbn [Z.b2z]; lia.
Qed.
Lemma put_Ok {A} (l : list A) i v : i < length l -> put l i v = Ok (upd i (fun _ => v) l).
Proof. intros H. unfold put. destruct (Nat.ltb_spec i (length l)); [auto|lia]. Qed.
Lemma length_values q l a : (forall e, In e (a_nbrs a) -> nb_idx e < length l) ->
  length (values q l a) = length (a_nbrs a).
Proof.
  unfold values. induction (a_nbrs a) as [|e es IH]; intros H; [reflexivity|]. cbn [flat_map].
  rewrite app_length, IH by (intros; apply H; simpl; auto).
  destruct (@nth_error_some _ l (nb_idx e)) as [b ->]; [apply H; simpl; auto|]. reflexivity.
Qed.

Lemma frenkel_atom_eq q cc th (l : list (atom N)) ti a : (2 <= q <= 12)%Z ->
  (forall b, In b l -> q_arrays b) -> nth_error l ti = Some a ->
  (forall e, In e (a_nbrs a) -> nb_idx e < length l) -> length (a_sij a) = 300 -> length (a_nbrs a) <= 300 ->
  frenkel_atom q cc th l ti = Ok (upd ti (frenkel_new q cc th l) l).
Proof.
  intros Hq Harr Ea Hv H300 Hn. unfold frenkel_atom. rewrite (get_Ok Ea). cbn [bind].
  set (es := a_nbrs a) in *.
  match goal with |- bind (foldM ?f _ _) _ = _ => set (F := f) end.
  assert (E : forall es k vs (row : list N) bonds avq, length vs = k -> k + length es <= length row ->
    (forall e, In e es -> nb_idx e < length l) ->
    let ws := flat_map (fun e => match nth_error l (nb_idx e) with Some b => [bond q a b] | None => [] end) es in
    foldM F (combine (seq k (length es)) es) (set_row vs row, bonds, avq) =
    Ok (set_row (vs ++ ws) row, (bonds + count (counts cc th) ws)%Z, fold_left nadd ws avq)).
  { assert (q_arrays a) as Qa by (apply Harr; eapply nth_error_In; eauto). clear Ea Hv Hn es. intros es. induction es as [|e es IH]; intros k vs row bonds avq Hk Hrow Hes ws.
    { cbn. unfold ws. cbn. rewrite app_nil_r. unfold count. cbn. now rewrite Z.add_0_r. }
    cbn [length seq combine foldM]. unfold F at 1. cbn [fst snd].
    destruct (@nth_error_some _ l (nb_idx e)) as [b Eb]; [apply Hes; simpl; auto|].
    rewrite (get_Ok Eb). cbn [bind].
    assert (q_arrays b) as Qb by (apply Harr; eapply nth_error_In; eauto).
    rewrite (bond_eq Hq Qa Qb). cbn [bind]. subst ws. cbn [flat_map]. rewrite Eb. cbn [app].
    rewrite put_Ok by (rewrite length_set_row; [cbn [length] in Hrow; lia|cbn [length] in Hrow; lia]). cbn [bind].
    rewrite <- Hk, upd_set_row by (cbn [length] in Hrow; lia).
    rewrite (IH (S (length vs)) (vs ++ [bond q a b]) row).
    - rewrite <- app_assoc. cbn [app fold_left]. f_equal. f_equal. f_equal. rewrite count_bond_eq. unfold count.
      cbn [filter]. destruct (counts cc th (bond q a b)); cbn [length Z.b2z]; lia.
    - rewrite app_length. cbn. lia.
    - cbn [length] in Hrow. lia.
    - intros; apply Hes; simpl; auto. }
  specialize (E es 0 [] (a_sij a) 0%Z n0 eq_refl). cbn [app] in E. unfold set_row at 1 in E. cbn [length skipn app] in E.
  rewrite E by (auto; lia). cbn [bind]. f_equal. apply (upd_ext Ea). reflexivity.
Qed.

(** What the loop keeps. *)
Definition but_frenkel (a : atom N) : atom N := a <| a_sij := [] |> <| a_frenkel := 0%Z |> <| a_avq := n0 |>.
Lemma but_frenkel_new q cc th l a : but_frenkel (frenkel_new q cc th l a) = but_frenkel a.
Proof. reflexivity. Qed.
Lemma but_frenkel_nth l l0 i : map but_frenkel l = map but_frenkel l0 ->
  option_map but_frenkel (nth_error l i) = option_map but_frenkel (nth_error l0 i).
Proof. intros H. now rewrite <- !nth_error_map, H. Qed.
Lemma bond_same q (a a' b b' : atom N) : a_qc a = a_qc a' -> a_qc b = a_qc b' -> bond q a b = bond q a' b'.
Proof. intros Ha Hb. unfold bond, zcomp, zrow. now rewrite Ha, Hb. Qed.
Lemma values_same q l l0 (a : atom N) : map but_frenkel l = map but_frenkel l0 -> values q l a = values q l0 a.
Proof.
  intros H. unfold values. apply flat_map_ext. intros e. pose proof (but_frenkel_nth (nb_idx e) H) as E.
  destruct (nth_error l (nb_idx e)) as [b|], (nth_error l0 (nb_idx e)) as [b0|]; try discriminate; auto.
  f_equal. apply bond_same; auto. apply Some_inj in E. exact (f_equal (@a_qc N) E).
Qed.

Lemma frenkel_new_same q cc th l l0 (a : atom N) : map but_frenkel l = map but_frenkel l0 ->
  frenkel_new q cc th l a = frenkel_new q cc th l0 a.
Proof. intros H. unfold frenkel_new. now rewrite (values_same q a H). Qed.

Theorem frenkel_eq (s : sys N) q cc th : solid_ready s -> (2 <= q <= 12)%Z ->
  calculate_frenkel_numbers s q cc th =
  Ok (s <| s_atoms := map (frenkel_new q cc th (s_atoms s)) (s_atoms s) |>).
Proof.
  intros [[Hn Hr] H3] Hq. unfold calculate_frenkel_numbers. rewrite Hn, Nat2Z.id. set (l0 := s_atoms s) in *.
  rewrite (@loop_map_first _ _ (frenkel_new q cc th l0)); [|..|lia].
  - cbn [bind]. now rewrite map_first_all.
  - intros k Hk. destruct (@nth_error_some _ l0 k Hk) as [a Ea].
    assert (map but_frenkel (map_first k (frenkel_new q cc th l0) l0) = map but_frenkel l0) as HB
      by (apply map_map_first; intros; apply but_frenkel_new).
    assert (nth_error (map_first k (frenkel_new q cc th l0) l0) k = Some a) as Ek
      by (rewrite map_first_nth by lia; rewrite Nat.ltb_irrefl; exact Ea).
    assert (In a l0) as Hin by (eapply nth_error_In; eauto).
    rewrite (@frenkel_atom_eq q cc th _ k a Hq); auto.
    + f_equal. apply (upd_ext Ek). now apply frenkel_new_same.
    + intros b Hb. apply In_nth_error in Hb as [j Ej]. rewrite map_first_nth in Ej by lia.
      destruct (nth_error l0 j) as [c|] eqn:Ec; [|destruct (_ <? _)%nat; discriminate].
      assert (q_arrays c) as Qc by (apply Hr; eapply nth_error_In; eauto).
      destruct (_ <? _)%nat; cbn in Ej; apply Some_inj in Ej; subst b; exact Qc.
    + intros e He. apply (f_equal (@length _)) in HB. rewrite !map_length in HB. rewrite HB.
      destruct (Hr a Hin) as [_ X]. now apply X.
    + now apply H3.
    + now apply H3.
Qed.

(** ** find_solids *)
Lemma solid_ready_q (s : sys N) q : (2 <= q <= 12)%Z -> solid_ready s -> solid_ready (after_q s [q]).
Proof.
  intros Hq [Hr H3]. split; [apply q_ready_after; auto|].
  intros a Ha. cbn in Ha. apply in_map_iff in Ha as (b & <- & Hb). destruct (H3 b Hb) as [X Y].
  pose proof (but_q_all (s_vorused s) (s_atoms s) [q] b) as E. split.
  - rewrite <- X. exact (f_equal (fun a => length (a_sij a)) E).
  - assert (a_nbrs (q_all (s_vorused s) (s_atoms s) [q] b) = a_nbrs b) as -> by exact (f_equal (@a_nbrs N) E). exact Y.
Qed.

Definition criteria_of (bonds : pynum N) : Z := match bonds with PyInt _ => 0%Z | _ => 1%Z end.
Definition solid_new (s : sys N) (q cc : Z) (bonds th avg : pynum N) (a : atom N) : atom N :=
  let l := map (q_all (s_vorused s) (s_atoms s) [q]) (s_atoms s) in
  let a := frenkel_new q cc (to_num th) l (q_all (s_vorused s) (s_atoms s) [q] a) in
  a <| a_solid := is_solid (criteria_of bonds) cc (to_num bonds) (to_num avg) a |>.
Definition forget (a : atom N) : atom N :=
  a <| a_sij := [] |> <| a_frenkel := 0%Z |> <| a_avq := n0 |> <| a_solid := false |>.
Lemma but_solid_new s q cc bonds th avg a : but_solid (solid_new s q cc bonds th avg a) = but_solid a.
Proof. exact (f_equal forget (but_q_all (s_vorused s) (s_atoms s) [q] a)). Qed.
Definition after_solids s q cc bonds th avg : sys N :=
  s <| s_atoms := map (solid_new s q cc bonds th avg) (s_atoms s) |>.

Lemma unit_interval_ok (p : pynum N) : in_unit p -> unit_interval p = Ok (to_num p).
Proof. intros (H & E1 & E2). destruct p; try congruence; unfold unit_interval; now rewrite E1, E2. Qed.
Lemma unit_interval_inv (p : pynum N) x : unit_interval p = Ok x -> in_unit p /\ x = to_num p.
Proof.
  destruct p; cbn [unit_interval]; intros H; try discriminate;
  (destruct (n0 <=? _) eqn:E1; [|discriminate]); (destruct (_ <=? n1) eqn:E2; [|discriminate]);
  injection H as <-; (split; [split; [discriminate|split; auto]|reflexivity]).
Qed.

Variable inv : m3 N -> option (m3 N).
Variable raw : Z -> atom N.
Theorem find_solids_eq (s : sys N) q cc bonds th avg cluster cutoff right :
  solid_ready s -> s_found s = true -> (2 <= q <= 12)%Z -> in_unit th -> in_unit avg -> bonds_ok bonds ->
  find_solids inv raw s cc bonds th avg cluster (PyInt q) cutoff right =
  if cluster then
    match cluster_atoms inv raw (after_solids s q cc bonds th avg) (fun a => Ok (Z.b2z (a_solid a))) cutoff with
    | Ok (t, lc) => Ok (t, Some lc) | Err e => Err e end
  else Ok (after_solids s q cc bonds th avg, None).
Proof.
  intros Hs Hf Hq Hth Havg Hb. unfold find_solids. rewrite Hf. cbn [negb].
  replace ((2 <=? q) && (q <=? 12))%Z with true
    by (symmetry; apply andb_true_intro; split; apply Z.leb_le; lia). cbn [bind].
  rewrite (unit_interval_ok Hth), (unit_interval_ok Havg). cbn [bind].
  assert ((match bonds with
               | PyInt _ => Ok 0%Z
               | PyFloat x => if (n0 <=? x) && (x <=? n1) then Ok 1%Z else Err TypeError
               | PyOther => Err TypeError
               end) = Ok (criteria_of bonds)) as ->.
  { destruct bonds as [b|x|]; cbn in *; auto; [|contradiction]. destruct Hb as [E1 E2]. now rewrite E1, E2. }
  cbn [bind]. rewrite (calculate_q_eq (proj1 Hs)) by auto. cbn [bind].
  change (s <| s_atoms := map (q_all (s_vorused s) (s_atoms s) [q]) (s_atoms s) |>) with (after_q s [q]).
  pose proof (solid_ready_q Hq Hs) as Hs'. rewrite (frenkel_eq cc (to_num th) Hs' Hq). cbn [bind].
  unfold find_solid_atoms. rewrite each_atom_stored.
  2:{ unfold stored, after_q. cbn [s_nop s_atoms set]. cbn. rewrite !map_length. apply Hs. }
  cbn [bind].
  match goal with |- context [cluster_atoms _ _ ?t _ _] => assert (t = after_solids s q cc bonds th avg) as -> end.
  { unfold after_solids, after_q. cbn. rewrite !map_map. reflexivity. }
  destruct cluster; [|reflexivity]. destruct (cluster_atoms _ _ _ _ _) as [[t lc]|]; reflexivity.
Qed.

(** Anything accepted had valid arguments. *)
Theorem find_solids_inv (s : sys N) q cc bonds th avg cluster cutoff right r :
  find_solids inv raw s cc bonds th avg cluster q cutoff right = Ok r ->
  s_found s = true /\ q_ok_arg q /\ in_unit th /\ in_unit avg /\ bonds_ok bonds.
Proof.
  unfold find_solids. destruct (s_found s); [|discriminate]. cbn [negb].
  destruct q as [q| |]; cbn [bind]; try discriminate.
  destruct (Z.leb_spec 2 q); [|discriminate]. destruct (Z.leb_spec q 12); [|discriminate]. cbn [andb bind].
  destruct (unit_interval th) as [x|] eqn:E1; [|discriminate]. cbn [bind].
  destruct (unit_interval avg) as [y|] eqn:E2; [|discriminate]. cbn [bind].
  apply unit_interval_inv in E1 as [H1 _]. apply unit_interval_inv in E2 as [H2 _].
  intros Hrun. split; [auto|]. split; [eexists; split; [reflexivity|lia]|]. split; [auto|]. split; [auto|].
  destruct bonds as [b|z|]; cbn; auto.
  - destruct (n0 <=? z) eqn:E1; [|discriminate]. destruct (z <=? n1) eqn:E2; [|discriminate]. auto.
  - discriminate.
Qed.
End Run.

(** ** Over the reals *)
Local Open Scope R_scope.
Lemma fold_sum {A} (f : A -> R) (ms : list A) : forall x : R,
  fold_left (fun y m => y + f m) ms x = x + Rsum (map f ms).
Proof.
  induction ms as [|m ms IH]; intros x; cbn [fold_left map]; [cbn; ring|]. rewrite IH, Rsum_cons. ring.
Qed.
Lemma bond_ip q (a b : atom Rnum) : let ms := zrange 0 (2 * q + 1) in
  bond q a b = ip (zcomp a q) (zcomp b q) ms / (sqrt (ip (zcomp b q) (zcomp b q) ms) * sqrt (ip (zcomp a q) (zcomp a q) ms)).
Proof.
  intros ms. unfold bond. fold ms. rnum.
  assert (forall f g : Z -> R * R,
    fold_left (fun (x : R) m => x + (fst (f m) * fst (g m) + snd (f m) * snd (g m))) ms 0 = ip f g ms) as E.
  { intros f g. rewrite fold_sum. unfold ip, inner. ring. }
  rewrite (E (zcomp a q) (zcomp a q)), (E (zcomp b q) (zcomp b q)). f_equal.
  rewrite !fold_sum, !Rplus_0_l, <- Rsum_map_add. reflexivity.
Qed.
Lemma ratio_sym {A} (f g : A -> R * R) ms :
  ip f g ms / (sqrt (ip g g ms) * sqrt (ip f f ms)) = ip g f ms / (sqrt (ip f f ms) * sqrt (ip g g ms)).
Proof. rewrite (ip_sym f g). f_equal. ring. Qed.
Lemma ratio_bound {A} (f g : A -> R * R) ms : 0 < ip f f ms -> 0 < ip g g ms ->
  -1 <= ip f g ms / (sqrt (ip g g ms) * sqrt (ip f f ms)) <= 1.
Proof.
  intros Hf Hg. pose proof (cauchy_schwarz f g ms) as CS.
  set (F := ip f f ms) in *. set (G := ip g g ms) in *. set (x := ip f g ms) in *.
  pose proof (sqrt_lt_R0 F Hf) as HsF. pose proof (sqrt_lt_R0 G Hg) as HsG.
  assert (0 < sqrt G * sqrt F) as HD by (apply Rmult_lt_0_compat; auto).
  assert (Rabs x <= sqrt G * sqrt F) as HX.
  { rewrite <- sqrt_mult by lra. rewrite <- (sqrt_Rsqr_abs x). apply sqrt_le_1_alt. unfold Rsqr. nra. }
  assert (- (sqrt G * sqrt F) <= x <= sqrt G * sqrt F) as [L U].
  { revert HX. unfold Rabs. destruct (Rcase_abs x); lra. }
  split; apply (Rmult_le_reg_r (sqrt G * sqrt F)); auto; unfold Rdiv; rewrite Rmult_assoc, Rinv_l, Rmult_1_r by lra; lra.
Qed.
Lemma ratio_self {A} (f : A -> R * R) ms : 0 < ip f f ms -> ip f f ms / (sqrt (ip f f ms) * sqrt (ip f f ms)) = 1.
Proof. intros H. rewrite sqrt_sqrt by lra. field. lra. Qed.

(** ** s_ij of neighbour vectors *)
Definition cross_sum (l : nat) (E E' : dirs) : R :=
  Rsum (map (fun t => Rsum (map (fun t' => wgt t * wgt t' * legendre l (cos_dirs t t')) E')) E).
Definition gram2 (l : nat) (V V' : wv) : R :=
  Rsum (map (fun p => Rsum (map (fun p' => fst p * fst p' * legendre l (cosine (snd p) (snd p'))) V')) V).
Lemma cross_lm l E E' : (2 <= l <= 12)%nat -> Forall dir_ok E -> Forall dir_ok E' ->
  ip (fun m => sum_lm l m E) (fun m => sum_lm l m E') (zrange (- Z.of_nat l) (Z.of_nat l + 1)) =
  (2 * INR l + 1) / (4 * PI) * cross_sum l E E'.
Proof.
  intros Hl HE HE'. rewrite Forall_forall in HE, HE'. unfold ip.
  transitivity (Rsum (map (fun m => Rsum (map (fun t => Rsum (map (fun t' =>
     wgt t * wgt t' * inner (Yt l m t) (Yt l m t')) E')) E)) (zrange (- Z.of_nat l) (Z.of_nat l + 1)))).
  { apply Rsum_map_ext. intros m _. unfold inner at 1, sum_lm. cbn [fst snd].
    rewrite !Rsum_prod, <- Rsum_map_add. apply Rsum_map_ext. intros t _.
    rewrite <- Rsum_map_add. apply Rsum_map_ext. intros t' _. unfold inner. ring. }
  rewrite Rsum_swap. unfold cross_sum. rewrite <- Rsum_map_scale. apply Rsum_map_ext. intros t Ht.
  rewrite Rsum_swap. rewrite <- Rsum_map_scale. apply Rsum_map_ext. intros t' Ht'.
  rewrite Rsum_map_scale. unfold Yt.
  rewrite addition; [unfold cos_dirs; ring|exact Hl|apply HE; auto|apply HE'; auto].
Qed.
Lemma cross_gram l V V' E E' : Forall2 seen V E -> Forall2 seen V' E' -> cross_sum l E E' = gram2 l V V'.
Proof.
  intros H H'. unfold cross_sum, gram2. symmetry. apply (Rsum_Forall2 H). intros p t [Hw Ha].
  apply (Rsum_Forall2 H'). intros p' t' [Hw' Ha']. rewrite <- Hw, <- Hw'. f_equal. f_equal.
  symmetry. unfold cos_dirs. now apply cosine_angles.
Qed.
Lemma sum_lm_ip l V V' E E' : (2 <= l <= 12)%nat -> Forall2 seen V E -> Forall2 seen V' E' ->
  ip (fun m => sum_lm l m E) (fun m => sum_lm l m E') (zrange (- Z.of_nat l) (Z.of_nat l + 1)) =
  (2 * INR l + 1) / (4 * PI) * gram2 l V V'.
Proof.
  intros Hl H H'. rewrite cross_lm by (eauto using Forall2_seen_ok). f_equal. now apply cross_gram.
Qed.

Lemma dot_lm_gram l V V' E E' : (2 <= l <= 12)%nat -> Forall2 seen V E -> Forall2 seen V' E' ->
  dot_lm l E E' = (2 * INR l + 1) / (4 * PI) * (/ wsum V * / wsum V' * gram2 l V V').
Proof.
  intros Hl H H'. unfold dot_lm.
  transitivity (/ wsum V * / wsum V' *
    ip (fun m => sum_lm l m E) (fun m => sum_lm l m E') (zrange (- Z.of_nat l) (Z.of_nat l + 1))).
  - unfold ip. rewrite <- Rsum_map_scale. apply Rsum_map_ext. intros m _.
    rewrite !q_lm_resc, !sum_lm_resc, (weights_wsum H), (weights_wsum H'). unfold inner. cbn [fst snd]. ring.
  - rewrite (sum_lm_ip Hl H H'). ring.
Qed.

(** The components stored by calculate_q. *)
Lemma zrange_shift q : (0 <= q)%Z -> zrange (- q) (q + 1) = map (fun m => (m - q)%Z) (zrange 0 (2 * q + 1)).
Proof.
  intros H. unfold zrange. rewrite map_map. replace (q + 1 - - q)%Z with (2 * q + 1 - 0)%Z by lia.
  apply map_ext. intros k. lia.
Qed.
Lemma stored_ip vor l k a b : (2 <= k <= 12)%nat -> q_arrays a -> q_arrays b ->
  all_nonzero (counted l a) -> all_nonzero (counted l b) ->
  let q := Z.of_nat k in
  ip (zcomp (q_all vor l [q] a) q) (zcomp (q_all vor l [q] b) q) (zrange 0 (2 * q + 1)) =
  kappa * kappa * ((2 * INR k + 1) / (4 * PI)) *
    (nfac vor (Vof l a) * nfac vor (Vof l b) * gram2 k (Vof l a) (Vof l b)).
Proof.
  intros Hk Ha Hb Za Zb q. pose proof (seen_env Za) as Sa. pose proof (seen_env Zb) as Sb.
  assert (HF : Forall (fun q => 2 <= q <= 12)%Z [q]) by (constructor; [unfold q; lia|constructor]).
  transitivity (kappa * kappa * (nfac vor (Vof l a) * nfac vor (Vof l b)) *
    ip (fun m => sum_lm k m (env_of (counted l a))) (fun m => sum_lm k m (env_of (counted l b)))
       (zrange (- Z.of_nat k) (Z.of_nat k + 1))).
  - unfold ip. rewrite zrange_shift, map_map by lia. fold q. rewrite <- Rsum_map_scale. apply Rsum_map_ext.
    intros m Hm. apply In_zrange in Hm.
    rewrite (@zcomp_all Rnum vor l [q] q m HF (or_introl eq_refl)) by (auto; lia).
    rewrite (@zcomp_all Rnum vor l [q] q m HF (or_introl eq_refl)) by (auto; lia).
    unfold q in *. rewrite !comp_eq by (auto; lia). cbv zeta.
    rewrite (weights_wsum Sa), (weights_wsum Sb). fold (Vof l a) (Vof l b). unfold nfac, inner. cbn [fst snd].
    pose proof (conj_sign_sq (m - Z.of_nat k)) as E. set (c := conj_sign _) in *.
    destruct (sum_lm k (m - Z.of_nat k) (env_of (counted l a))) as [x y].
    destruct (sum_lm k (m - Z.of_nat k) (env_of (counted l b))) as [x' y']. cbn [fst snd].
    transitivity (kappa * kappa * (x / (if vor then 1 else wsum (Vof l a)) * (x' / (if vor then 1 else wsum (Vof l b)))) +
      (c * c) * (kappa * kappa * (y / (if vor then 1 else wsum (Vof l a)) * (y' / (if vor then 1 else wsum (Vof l b)))))); [ring|].
    rewrite E. unfold Rdiv. destruct vor; rewrite ?Rinv_1; ring.
  - rewrite (sum_lm_ip Hk Sa Sb). fold (Vof l a) (Vof l b). ring.
Qed.
Lemma kappa_pos : 0 < kappa.
Proof.
  unfold kappa. apply sqrt_lt_R0. apply Rdiv_lt_0_compat; [apply PI_RGT_0|apply pi_lit_pos].
Qed.
Lemma ratio_scale c x y d z : 0 < c -> 0 <= x -> 0 <= y -> 0 < d ->
  (c * (d * d)) * z / (sqrt ((c * (d * d)) * y) * sqrt ((c * (d * d)) * x)) = z / (sqrt x * sqrt y).
Proof.
  intros Hc Hx Hy Hd. assert (0 < c * (d * d)) as HC by (apply Rmult_lt_0_compat; nra).
  set (C := c * (d * d)) in *. clearbody C. rewrite !sqrt_mult by lra. pose proof (sqrt_sqrt C) as E.
  unfold Rdiv. replace (sqrt C * sqrt y * (sqrt C * sqrt x)) with ((sqrt C * sqrt C) * (sqrt x * sqrt y)) by ring. rewrite E by lra.
  rewrite Rinv_mult. transitivity (C * / C * (z * / (sqrt x * sqrt y))); [ring|]. rewrite Rinv_r by lra. ring.
Qed.

Lemma gram2_self_nonneg k V E : (2 <= k <= 12)%nat -> Forall2 seen V E -> 0 <= gram2 k V V.
Proof.
  intros Hk H. pose proof (sum_lm_ip Hk H H) as X.
  pose proof (ip_nonneg (fun m => sum_lm k m E) (zrange (- Z.of_nat k) (Z.of_nat k + 1))) as Y. rewrite X in Y.
  pose proof (two_l_pos k). pose proof PI_RGT_0.
  assert (0 < (2 * INR k + 1) / (4 * PI)) as P by (apply Rdiv_lt_0_compat; lra). nra.
Qed.
(** The stored value from the definition. *)
Lemma scaled_ratio (c w w' x y z : R) : 0 < c -> 0 < w -> 0 < w' -> 0 <= x -> 0 <= y ->
  c * (w * w' * z) / (sqrt (c * (w' * w' * y)) * sqrt (c * (w * w * x))) = z / (sqrt x * sqrt y).
Proof.
  intros Hc Hw Hw' Hx Hy.
  replace (c * (w' * w' * y)) with (c * (w' * w') * y) by ring.
  replace (c * (w * w * x)) with (c * (w * w) * x) by ring.
  assert (forall u, 0 < u -> sqrt (c * (u * u)) = sqrt c * u) as S.
  { intros u Hu. rewrite sqrt_mult by nra. rewrite sqrt_square by lra. reflexivity. }
  rewrite (sqrt_mult (c * (w' * w')) y), (sqrt_mult (c * (w * w)) x) by (repeat apply Rmult_le_pos; lra).
  rewrite !S by auto. pose proof (sqrt_sqrt c (Rlt_le _ _ Hc)) as E.
  replace (sqrt c * w' * sqrt y * (sqrt c * w * sqrt x)) with ((sqrt c * sqrt c) * (w * w') * (sqrt x * sqrt y)) by ring.
  rewrite E. unfold Rdiv. rewrite !Rinv_mult.
  transitivity ((c * / c) * ((w * / w) * (w' * / w')) * (z * (/ sqrt x * / sqrt y))); [ring|].
  rewrite !Rinv_r by lra. ring.
Qed.
Theorem bond_s_ij vor l k a b E E' : (2 <= k <= 12)%nat -> q_arrays a -> q_arrays b ->
  env (counted l a) E -> env (counted l b) E' -> all_nonzero (counted l a) -> all_nonzero (counted l b) ->
  0 < wtotal (counted l a) -> 0 < wtotal (counted l b) ->
  bond (Z.of_nat k) (q_all vor l [Z.of_nat k] a) (q_all vor l [Z.of_nat k] b) = s_ij k E E'.
Proof.
  intros Hk Ha Hb HE HE' Za Zb Wa Wb. rewrite bond_ip. cbv zeta. rewrite !stored_ip by auto.
  apply env_seen in HE. apply env_seen in HE'. fold (Vof l a) in HE. fold (Vof l b) in HE'.
  rewrite <- !wsum_of in Wa, Wb. fold (Vof l a) in Wa. fold (Vof l b) in Wb.
  pose proof (gram2_self_nonneg Hk HE) as Na. pose proof (gram2_self_nonneg Hk HE') as Nb.
  unfold s_ij. rewrite (dot_lm_gram Hk HE HE'), (dot_lm_gram Hk HE HE), (dot_lm_gram Hk HE' HE').
  pose proof (two_l_pos k). pose proof PI_RGT_0. pose proof kappa_pos.
  assert (0 < (2 * INR k + 1) / (4 * PI)) as P by (apply Rdiv_lt_0_compat; lra).
  pose proof (Rinv_0_lt_compat _ Wa). pose proof (Rinv_0_lt_compat _ Wb).
  assert (forall V, 0 < wsum V -> 0 < nfac vor V) as F.
  { intros V HV. unfold nfac. destruct vor; [lra|now apply Rinv_0_lt_compat]. }
  rewrite scaled_ratio; auto; try (apply Rmult_lt_0_compat; nra).
  rewrite (Rmult_comm (sqrt (_ * (/ wsum (Vof l a) * _ * _)))).
  rewrite scaled_ratio; auto.
Qed.
(** Any choice of the angles gives the same s_ij; its sign conditions. *)
Lemma dot_steinhardt k E : steinhardt k E <> 0 -> 0 < dot_lm k E E.
Proof.
  intros H. assert (dot_lm k E E = Rsum (map (fun m => abs2 (q_lm k m E)) (zrange (- Z.of_nat k) (Z.of_nat k + 1)))) as ->.
  { apply Rsum_map_ext. intros m _. unfold abs2. ring. }
  unfold steinhardt in H. set (X := Rsum _) in *.
  assert (0 <= X) as HX by (apply Rsum_map_nonneg; intros; unfold abs2; nra).
  destruct (Rle_lt_or_eq_dec _ _ HX) as [|<-]; auto. destruct H. rewrite Rmult_0_r. apply sqrt_0.
Qed.
Lemma dot_lm_ip k E E' : dot_lm k E E' = ip (fun m => q_lm k m E) (fun m => q_lm k m E') (zrange (- Z.of_nat k) (Z.of_nat k + 1)).
Proof. reflexivity. Qed.

Lemma solid_fields (N : num) q cc th l l' crit (b avg : N) (x x' : atom N) :
  values q l' x' = values q l x -> a_sij x' = a_sij x -> length (a_nbrs x') = length (a_nbrs x) ->
  crit = 0%Z \/ crit = 1%Z ->
  let f a := (a_sij a, a_frenkel a, a_avq a, a_solid a) in
  let g y := y <| a_solid := is_solid crit cc b avg y |> in
  f (g (frenkel_new q cc th l' x')) = f (g (frenkel_new q cc th l x)).
Proof.
  intros HV Hs Hn [->| ->] f g; unfold f, g, is_solid, frenkel_new; cbn [Z.eqb]; rewrite HV; destruct x, x'; cbn in *;
    rewrite Hs, Hn; reflexivity.
Qed.
(** ** Turned systems *)
Section Turned.
Variable m : m3 Rnum.
Hypothesis Hm : orthogonal m.
Definition turned (a : atom Rnum) : atom Rnum := a <| a_nbrs := map (turn_nbr m) (a_nbrs a) |>.
Lemma counted_turned l a : counted (map turned l) (turned a) = map (turn_nbr m) (counted l a).
Proof.
  unfold counted. change (a_nbrs (turned a)) with (map (turn_nbr m) (a_nbrs a)).
  induction (a_nbrs a) as [|e es IH]; [reflexivity|]. cbn [map filter].
  assert (same_cond (map turned l) (turned a) (turn_nbr m e) = same_cond l a e) as ->.
  { unfold same_cond. change (nb_idx (turn_nbr m e)) with (nb_idx e). rewrite nth_error_map.
    destruct (nth_error l (nb_idx e)); reflexivity. }
  destruct (same_cond l a e); cbn [map]; now rewrite IH.
Qed.
Lemma Vof_turned l a : Vof (map turned l) (turned a) = map (fun p => (fst p, mvmul m (snd p))) (Vof l a).
Proof. unfold Vof, of_nbrs. rewrite counted_turned, !map_map. reflexivity. Qed.
Lemma cosine_turned v w : cosine (mvmul m v) (mvmul m w) = cosine v w.
Proof. unfold cosine. now rewrite !norm_dot, !(orthogonal_dot Hm). Qed.
Lemma gram2_turned k V V' :
  gram2 k (map (fun p => (fst p, mvmul m (snd p))) V) (map (fun p => (fst p, mvmul m (snd p))) V') = gram2 k V V'.
Proof.
  unfold gram2. rewrite map_map. f_equal. apply map_ext. intros p. rewrite map_map. f_equal. apply map_ext. intros p'.
  cbn [fst snd]. now rewrite cosine_turned.
Qed.
Lemma wsum_turned V : wsum (map (fun p => (fst p, mvmul m (snd p))) V) = wsum V.
Proof. unfold wsum. now rewrite map_map. Qed.
Lemma nonzero_turned es : all_nonzero es -> all_nonzero (map (turn_nbr m) es).
Proof.
  intros H e He. apply in_map_iff in He as (x & <- & Hx). pose proof (norm_pos (H x Hx)) as P.
  cbn [nb_vec turn_nbr]. intros (Ex & Ey & Ez). rewrite norm_dot, <- (orthogonal_dot Hm), <- norm_dot in P.
  unfold norm in P. rewrite Ex, Ey, Ez in P. revert P. cbn. replace (0 * 0 + 0 * 0 + 0 * 0) with 0 by ring. rewrite sqrt_0. lra.
Qed.
Lemma bond_turned vor l k a b : (2 <= k <= 12)%nat -> q_arrays a -> q_arrays b ->
  all_nonzero (counted l a) -> all_nonzero (counted l b) ->
  let q := Z.of_nat k in
  bond q (q_all vor (map turned l) [q] (turned a)) (q_all vor (map turned l) [q] (turned b)) =
  bond q (q_all vor l [q] a) (q_all vor l [q] b).
Proof.
  intros Hk Ha Hb Za Zb q. rewrite !bond_ip. cbv zeta. unfold q.
  assert (forall x y, q_arrays x -> q_arrays y -> all_nonzero (counted l x) -> all_nonzero (counted l y) ->
    ip (zcomp (q_all vor (map turned l) [Z.of_nat k] (turned x)) (Z.of_nat k))
       (zcomp (q_all vor (map turned l) [Z.of_nat k] (turned y)) (Z.of_nat k)) (zrange 0 (2 * Z.of_nat k + 1)) =
    ip (zcomp (q_all vor l [Z.of_nat k] x) (Z.of_nat k)) (zcomp (q_all vor l [Z.of_nat k] y) (Z.of_nat k))
       (zrange 0 (2 * Z.of_nat k + 1))) as E.
  { intros x y Qx Qy Zx Zy. rewrite (stored_ip vor Hk Qx Qy Zx Zy).
    rewrite (@stored_ip vor (map turned l) k (turned x) (turned y) Hk Qx Qy)
      by (rewrite counted_turned; now apply nonzero_turned).
    rewrite !Vof_turned, gram2_turned. unfold nfac. now rewrite !wsum_turned. }
  now rewrite !E.
Qed.
Theorem solid_new_turned s k cc bonds th avg a :
  (2 <= k <= 12)%nat -> solid_ready s -> apart (s_atoms s) -> In a (s_atoms s) ->
  let f a := (a_sij a, a_frenkel a, a_avq a, a_solid a) in
  f (solid_new (turn m s) (Z.of_nat k) cc bonds th avg (turned a)) =
  f (solid_new s (Z.of_nat k) cc bonds th avg a).
Proof.
  intros Hk [[Hn Hr] H3] Hap Hin f. set (q := Z.of_nat k).
  assert (values q (map (q_all (s_vorused s) (map turned (s_atoms s)) [q]) (map turned (s_atoms s)))
            (q_all (s_vorused s) (map turned (s_atoms s)) [q] (turned a)) =
          values q (map (q_all (s_vorused s) (s_atoms s) [q]) (s_atoms s)) (q_all (s_vorused s) (s_atoms s) [q] a)) as HV.
  { unfold values. set (l := s_atoms s) in *. set (vor := s_vorused s).
    assert (a_nbrs (q_all vor (map turned l) [q] (turned a)) = map (turn_nbr m) (a_nbrs a)) as ->
      by exact (f_equal (@a_nbrs Rnum) (but_q_all vor (map turned l) [q] (turned a))).
    assert (a_nbrs (q_all vor l [q] a) = a_nbrs a) as ->
      by exact (f_equal (@a_nbrs Rnum) (but_q_all vor l [q] a)).
    rewrite !flat_map_concat_map, map_map. f_equal. apply map_ext. intros e.
    change (nb_idx (turn_nbr m e)) with (nb_idx e). rewrite !nth_error_map.
    destruct (nth_error l (nb_idx e)) as [b|] eqn:Eb; [|reflexivity]. cbn [option_map]. f_equal.
    assert (In b l) by (eapply nth_error_In; eauto).
    assert (forall c, In c l -> all_nonzero (counted l c)) as HZ by (intros c Hc x Hx; exact (Hap c x Hc Hx)).
    apply bond_turned; auto; now apply Hr. }
  apply solid_fields.
  - exact HV.
  - transitivity (a_sij a).
    + exact (f_equal (@a_sij Rnum) (but_q_all (s_vorused s) (map turned (s_atoms s)) [q] (turned a))).
    + symmetry. exact (f_equal (@a_sij Rnum) (but_q_all (s_vorused s) (s_atoms s) [q] a)).
  - transitivity (length (a_nbrs a)).
    + transitivity (length (map (turn_nbr m) (a_nbrs a))); [|apply map_length].
      exact (f_equal (fun a => length (a_nbrs a)) (but_q_all (s_vorused s) (map turned (s_atoms s)) [q] (turned a))).
    + symmetry. exact (f_equal (fun a => length (a_nbrs a)) (but_q_all (s_vorused s) (s_atoms s) [q] a)).
  - destruct bonds; auto.
Qed.
End Turned.

Lemma nth_flat_one {A B C} (f : A -> option C) (g : C -> B) (es : list A) c e v :
  (forall x, In x es -> exists y, f x = Some y) -> nth_error es c = Some e -> f e = Some v ->
  nth_error (flat_map (fun x => match f x with Some y => [g y] | None => [] end) es) c = Some (g v).
Proof.
  revert c. induction es as [|x es IH]; intros [|c] H E Ev; try discriminate; cbn [flat_map].
  - injection E as ->. rewrite Ev. reflexivity.
  - destruct (H x (or_introl eq_refl)) as [y ->]. cbn. apply IH; auto. intros; apply H; simpl; auto.
Qed.
