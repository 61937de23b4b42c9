(** C81, continued: Steinhardt's parameters of the copies are those of their
    originals. *)
From Coq Require Import Reals ZArith List Lia Lra Permutation.
From Verif Require Import Base Num NumR NumF NumP Types M_Geometry M_Container M_Neighbors M_Steinhardt
  S_Geometry S_Container S_Neighbors S_Steinhardt S_Same S_Periodic S_PeriodicQ Ex P_Geometry P_Box P_Container P_Neighbors P_QRun P_Steinhardt P_QInv P_QSys P_QHist P_Same P_FindN P_Periodic P_PeriodicQ C_Neighbors C_Periodic.
Import ListNotations.
Close Scope R_scope. Close Scope Z_scope.
#[local] Open Scope nat_scope.

(** After the search: what calculate_q needs. *)
Lemma ready_after (s2 u : sys Rnum) (x y z : R) (l : list (atom Rnum)) K W
    srt voro area_pow inv' (r t pad : R) nl f e :
  (0 < x /\ 0 < y /\ 0 < z)%R -> (forall a, In a l -> in_box (mkV (N := Rnum) x y z) (a_pos a)) ->
  (forall i j a b, nth_error l i = Some a -> nth_error l j = Some b -> a_pos a = a_pos b -> i = j) ->
  (forall a, In a (s_atoms s2) -> q_arrays a) ->
  stored s2 -> (s_real s2 <= 2300)%Z -> neqb (n := Rnum) r n0 = false -> (0 <= K)%Z -> s_tri s2 = false ->
  s_len s2 = mkV (N := Rnum) (IZR (2 * K + 1) * x)%R (IZR (2 * K + 1) * y)%R (IZR (2 * K + 1) * z)%R ->
  (forall i a, nth_error (s_atoms s2) i = Some a -> key_ok K l (W i) /\ a_pos a = site_pos (mkV (N := Rnum) x y z) l (W i) /\ a_type a = site_type l (W i)) ->
  (forall i j, i < length (s_atoms s2) -> j < length (s_atoms s2) -> W i = W j -> i = j) ->
  (2 * r <= IZR (2 * K + 1) * x /\ 2 * r <= IZR (2 * K + 1) * y /\ 2 * r <= IZR (2 * K + 1) * z)%R ->
  find_neighbors srt voro area_pow inv' s2 (mkArgs (N := Rnum) (MCutoff (CutVal (N := Rnum) r)) f t pad nl) = Ok (u, e) ->
  length (s_atoms u) = length (s_atoms s2) /\ s_vorused u = false /\
  (forall i a', nth_error (s_atoms u) i = Some a' -> i < length (s_atoms s2) /\ q_arrays a' /\ a_nbrs a' = neighbors_within s2 (r : Rnum) f i /\ a_cond a' = 0%Z) /\
  q_ready u /\ (forall a, In a (s_atoms u) -> a_cond a = 0%Z) /\
  (forall a e, In a (s_atoms u) -> In e (a_nbrs a) -> nonzero (nb_vec e)).
Proof.
  intros Hpos Hin Hd Qa St Hs Hr0 K0 T2 L2 HW Hinj R2 E3.
  destruct (cutoff_done St Hs Hr0 E3) as (L & V & NP & U).
  assert (D : forall i a', nth_error (s_atoms u) i = Some a' -> i < length (s_atoms s2) /\ q_arrays a' /\ a_nbrs a' = neighbors_within s2 (r : Rnum) f i /\ a_cond a' = 0%Z).
  { intros i a' Ha'. assert (Hi : i < length (s_atoms s2)) by (rewrite <- L; apply nth_error_Some; congruence). split; [exact Hi|].
    destruct (P_QRun.nth_error_some Hi) as [a Ha].
    destruct (U i a Ha) as (x0 & Ex & S & NB & C). rewrite Ha' in Ex. injection Ex as <-. split; [|auto].
    pose proof (Qa a (nth_error_In _ _ Ha)) as Q. unfold q_arrays in *.
    assert (S1 := f_equal (@a_q Rnum) S). assert (S2 := f_equal (@a_aq Rnum) S).
    assert (S3 := f_equal (@a_qc Rnum) S). assert (S4 := f_equal (@a_aqc Rnum) S).
    change (a_q a' = a_q a) in S1. change (a_aq a' = a_aq a) in S2. change (a_qc a' = a_qc a) in S3. change (a_aqc a' = a_aqc a) in S4.
    rewrite S1, S2, S3, S4. exact Q. }
  assert (RD : q_ready u).
  { split; [rewrite NP, L; exact St|]. intros a Ha. apply In_nth_error in Ha as (i & Ha). destruct (D i a Ha) as (Hi & Q & NB & _).
    split; [exact Q|]. intros e0 He. rewrite NB in He. rewrite L. apply In_neighbors_within in He as (KK & _). destruct (link_idx KK) as (_ & _ & _ & _ & B). exact B. }
  assert (C0 : forall a, In a (s_atoms u) -> a_cond a = 0%Z).
  { intros a Ha. apply In_nth_error in Ha as (i & Ha). now destruct (D i a Ha) as (_ & _ & _ & ?). }
  assert (NZ : forall a e, In a (s_atoms u) -> In e (a_nbrs a) -> nonzero (nb_vec e)).
  { intros a e0 Ha He. apply In_nth_error in Ha as (i & Ha). destruct (D i a Ha) as (Hi & _ & NB & _). rewrite NB in He.
    exact (within_nonzero Hpos K0 T2 L2 Hin HW Hinj R2 Hd Hi He). }
  split; [exact L|]. split; [exact V|]. split; [exact D|]. split; [exact RD|]. split; [exact C0|exact NZ].
Qed.

(** 1 to 199 atoms at different places in an orthogonal box, any cutoff up to
    one and a half of each side: after find_neighbors calculate_q succeeds, and
    every copy has the parameters of its original, of all orders asked for,
    plain and averaged over the neighbours. *)
Theorem C81_parameters : forall (inv : m3 Rnum -> option (m3 Rnum)) raw (s s1 s2 s3 : sys Rnum) (x y z : R) (l : list (atom Rnum))
    srt voro area_pow inv' (r t pad : R) nl f e qs (averaged : bool),
  s_tri s = false -> s_actual s = None -> (0 < x /\ 0 < y /\ 0 < z)%R ->
  box_set inv s (diag (N := Rnum) x y z) = Ok s1 ->
  all_real l -> (forall a, In a l -> in_box (mkV (N := Rnum) x y z) (a_pos a)) -> 1 <= length l < 200 ->
  (forall i j a b, nth_error l i = Some a -> nth_error l j = Some b -> a_pos a = a_pos b -> i = j) ->
  (forall a, In a l -> q_arrays a) ->
  atoms_set inv raw s1 l = Ok s2 ->
  r <> 0%R -> (2 * r <= 3 * x /\ 2 * r <= 3 * y /\ 2 * r <= 3 * z)%R ->
  find_neighbors srt voro area_pow inv' s2 (mkArgs (N := Rnum) (MCutoff (CutVal (N := Rnum) r)) f t pad nl) = Ok (s3, e) ->
  Forall (fun q => 2 <= q <= 12)%Z qs ->
  exists w, py_calculate_q inv raw s3 qs averaged false None false = Ok w /\
  forall i a0, nth_error (s_atoms s2) i = Some a0 -> exists j cell a b,
    j < length l /\ a_pos a0 = site_pos (mkV (N := Rnum) x y z) l (j, cell) /\
    nth_error (s_atoms w) i = Some a /\ nth_error (s_atoms w) j = Some b /\
    forall q, In q qs -> exists v, atom_get_q a q false = Ok v /\ atom_get_q b q false = Ok v /\
      (averaged = true -> exists v, atom_get_q a q true = Ok v /\ atom_get_q b q true = Ok v).
Proof.
  intros inv raw s s1 s2 u x y z l srt voro area_pow inv' r t pad nl f e qs averaged Ht Hac Hpos E1 Hreal Hin Hl Hd Hq E2 R0 R1 E3 HF.
  destruct (padded Ht Hac Hpos E1 Hreal Hl E2) as (K & W & K1 & Ln & St & Hr & T2 & L2 & W0 & HW & Hinj & Hall).
  assert (R2 : (2 * r <= IZR (2 * K + 1) * x /\ 2 * r <= IZR (2 * K + 1) * y /\ 2 * r <= IZR (2 * K + 1) * z)%R).
  { destruct Hpos as (X & Y & Z0), R1 as (A & B & C). pose proof (three_halves K x K1 X). pose proof (three_halves K y K1 Y). pose proof (three_halves K z K1 Z0). lra. }
  assert (Hr0 : neqb (n := Rnum) r n0 = false) by (apply Reqb_false; exact R0).
  assert (Hs : (s_real s2 <= 2300)%Z) by lia. assert (K0 : (0 <= K)%Z) by lia.
  destruct (ready_after s2 u x y z l K W srt voro area_pow inv' r t pad nl f e Hpos Hin Hd (set_arrays Hl E2 Hq) St Hs Hr0 K0 T2 L2 HW Hinj R2 E3) as (L & V & D & RD & C0 & NZ).
  assert (PP : forall cell i a, nth_error (s_atoms u) i = Some a -> exists a', nth_error (s_atoms u) (to s2 K W cell i) = Some a' /\
     Permutation (a_nbrs a') (map (renamed (to s2 K W cell)) (a_nbrs a))).
  { intros cell i a Ha. destruct (D i a Ha) as (Hi & _ & NB & _).
    destruct (to_spec K0 HW Hall cell Hi) as (Bi & _). rewrite <- L in Bi. destruct (P_QRun.nth_error_some Bi) as [a' Ha'].
    exists a'. split; [exact Ha'|]. destruct (D _ a' Ha') as (_ & _ & NB' & _). rewrite NB, NB'.
    exact (within_moved f Hpos K0 T2 L2 Hin HW Hinj Hall R2 cell Hi). }
  assert (SU : forall cell a', In a' (s_atoms u) -> exists i a, nth_error (s_atoms u) i = Some a /\ nth_error (s_atoms u) (to s2 K W cell i) = Some a').
  { intros cell a' Ha'. apply In_nth_error in Ha' as (j & Ha'). destruct (D j a' Ha') as (Hj & _).
    destruct (@onto (length (s_atoms s2)) (to s2 K W cell) (fun i Hi => proj1 (to_spec K0 HW Hall cell Hi)) (fun i j Hi Hj => to_inj K0 HW Hinj Hall (t := cell) Hi Hj) j Hj) as (k & Hk & <-).
    rewrite <- L in Hk. destruct (P_QRun.nth_error_some Hk) as [a Ha]. eauto. }
  assert (FIN : forall b a a' q, nth_error (if b : bool then a_aq a' else a_q a') (Z.to_nat (q - 2)) = nth_error (if b then a_aq a else a_q a) (Z.to_nat (q - 2)) ->
     (2 <= q <= 12)%Z -> length (if b then a_aq (N := Rnum) a else a_q a) = 11 -> exists v, atom_get_q a' q b = Ok v /\ atom_get_q a q b = Ok v).
  { intros b a a' q EE RG LE. unfold atom_get_q, q_range, zget, get.
    replace (Z.ltb q 2) with false by (symmetry; apply Z.ltb_ge; lia). replace (Z.ltb 12 q) with false by (symmetry; apply Z.ltb_ge; lia).
    cbn [orb negb]. replace (Z.ltb (q - 2) 0) with false by (symmetry; apply Z.ltb_ge; lia). rewrite EE.
    destruct (nth_error (if b then a_aq a else a_q a) (Z.to_nat (q - 2))) eqn:EN; [eauto|]. apply nth_error_None in EN. lia. }
  pose proof HF as HF1. rewrite Forall_forall in HF1.
  rewrite (py_q_eq inv raw averaged RD HF). eexists. split; [reflexivity|].
  intros i a0 Ha0. assert (Hi : i < length (s_atoms s2)) by (apply nth_error_Some; congruence).
  destruct (HW i a0 Ha0) as (Ko & Pa & _).
  assert (Bf : fst (W i) < length l) by (destruct (W i) as [m [[p q] c]]; exact (proj1 Ko)).
  assert (Hj : fst (W i) < length (s_atoms s2)).
  { assert (1 <= (2 * K + 1) ^ 3)%Z by nia. apply Nat2Z.inj_lt. rewrite Ln. nia. }
  exists (fst (W i)), (snd (W i)).
  pose proof (to_copy K0 HW Hinj Hall Hi Hj (W0 _ Bf)) as TO.
  set (cell := snd (W i)) in *. set (j := fst (W i)) in *.
  pose proof Hj as Hj'. rewrite <- L in Hj'. destruct (P_QRun.nth_error_some Hj') as [b Hb]. destruct (PP cell j b Hb) as (a & Ha & _).
  destruct (D j b Hb) as (_ & QA & _). pose proof (q_arrays_all false (s_atoms u) HF QA) as QA1.
  pose proof (fun k => same_q (k := k) RD RD HF V V C0 C0 NZ (PP cell) (SU cell) Hb Ha) as SQ.
  pose proof (fun k => same_aq (k := k) RD RD HF V V C0 C0 NZ (PP cell) (SU cell) Hb Ha) as SAQ.
  rewrite TO in Ha.
  assert (SP : a_pos a0 = site_pos (mkV (N := Rnum) x y z) l (j, cell)) by (unfold j, cell; rewrite <- surjective_pairing; exact Pa).
  destruct averaged.
  - unfold after_aq. cbn [s_atoms set]. cbn. rewrite V. do 2 eexists. rewrite !nth_error_map, Ha, Hb.
    split; [exact Bf|]. split; [exact SP|]. split; [reflexivity|]. split; [reflexivity|].
    intros q Hqq. pose proof (HF1 q Hqq) as RG. rewrite <- (Z2Nat.id q) in Hqq by lia.
    pose proof (SQ (Z.to_nat q) Hqq) as EQ. pose proof (SAQ (Z.to_nat q) Hqq) as EAQ.
    rewrite Z2Nat.id in EQ, EAQ by lia.
    pose proof (q_arrays_aall (map (q_all false (s_atoms u) qs) (s_atoms u)) HF QA1) as QA2.
    destruct (FIN false _ _ q (eq_trans (f_equal (fun l => nth_error l (Z.to_nat (q - 2))) (aq_all_a_q (map (q_all false (s_atoms u) qs) (s_atoms u)) qs (q_all false (s_atoms u) qs a)))
       (eq_trans EQ (eq_sym (f_equal (fun l => nth_error l (Z.to_nat (q - 2))) (aq_all_a_q (map (q_all false (s_atoms u) qs) (s_atoms u)) qs (q_all false (s_atoms u) qs b)))))) RG (proj1 QA2)) as (v & F1 & F2).
    exists v. split; [exact F1|]. split; [exact F2|]. intros _. exact (FIN true _ _ q EAQ RG (proj1 (proj2 QA2))).
  - unfold after_q. cbn. rewrite V. do 2 eexists. rewrite !nth_error_map, Ha, Hb.
    split; [exact Bf|]. split; [exact SP|]. split; [reflexivity|]. split; [reflexivity|].
    intros q Hqq. pose proof (HF1 q Hqq) as RG. rewrite <- (Z2Nat.id q) in Hqq by lia.
    pose proof (SQ (Z.to_nat q) Hqq) as EQ. rewrite Z2Nat.id in EQ by lia.
    destruct (FIN false _ _ q EQ RG (proj1 QA1)) as (v & F1 & F2). exists v. split; [exact F1|]. split; [exact F2|]. discriminate.
Qed.
Print Assumptions C81_parameters.

(** The parameters themselves: for every cutoff up to half the padded box, those
    of the site in the infinite arrangement. *)
Lemma gram_shell (x y z : R) l q k ks es c :
  Forall2 (fun q' e => stands_for (mkV (N := Rnum) x y z) l q q' e) ks es ->
  gram k (rescV c (of_nbrs es)) = (c * c * Rsum (map (fun p => Rsum (map (fun p' => legendre k (cos_seen (mkV (N := Rnum) x y z) l q p p')) ks)) ks))%R.
Proof.
  intros F. set (L := mkV (N := Rnum) x y z) in *.
  assert (M : rescV c (of_nbrs es) = map (fun p => (c, S_Periodic.apart L l q p)) ks).
  { unfold rescV, of_nbrs. rewrite map_map. induction F as [|q' e ks es (_ & V & Wt) F IH]; [reflexivity|]. cbn [map]. f_equal; [|exact IH]. cbn [fst snd]. rewrite V, Wt. f_equal. apply Rmult_1_r. }
  assert (SC : forall (A : Type) (g : A -> R) (c : R) (xs : list A), Rsum (map (fun a => c * g a)%R xs) = (c * Rsum (map g xs))%R).
  { intros A g c0 xs. unfold Rsum. induction xs as [|a xs IH]; cbn; [ring|]. rewrite IH. ring. }
  rewrite M. unfold gram. rewrite map_map. rewrite <- SC. f_equal. apply map_ext. intros p. rewrite map_map. cbn [fst snd]. rewrite <- SC.
  f_equal. apply map_ext. intros p'. apply (f_equal (fun v => c * c * legendre k v)%R).
  assert (EU : forall v : v3 Rnum, norm v = eucl (vx v) (vy v) (vz v)).
  { intros v. unfold norm, eucl, len2. rnum. apply (f_equal sqrt). change (@eq R (vx v * vx v + vy v * vy v + vz v * vz v) (vx v ^ 2 + vy v ^ 2 + vz v ^ 2))%R. ring. }
  unfold P_Steinhardt.cosine. rewrite !EU. reflexivity.
Qed.
Theorem C81_values : forall (inv : m3 Rnum -> option (m3 Rnum)) raw (s s1 s2 : sys Rnum) (x y z : R) (l : list (atom Rnum)),
  s_tri s = false -> s_actual s = None -> (0 < x /\ 0 < y /\ 0 < z)%R ->
  box_set inv s (diag (N := Rnum) x y z) = Ok s1 ->
  all_real l -> (forall a, In a l -> in_box (mkV (N := Rnum) x y z) (a_pos a)) -> 1 <= length l < 200 ->
  (forall i j a b, nth_error l i = Some a -> nth_error l j = Some b -> a_pos a = a_pos b -> i = j) ->
  (forall a, In a l -> q_arrays a) ->
  atoms_set inv raw s1 l = Ok s2 ->
  exists K, (1 <= K)%Z /\ Z.of_nat (length (s_atoms s2)) = ((2 * K + 1) ^ 3 * Z.of_nat (length l))%Z /\
    forall srt voro area_pow inv' s3 (r t pad : R) nl f e qs averaged, r <> 0%R ->
    (2 * r <= IZR (2 * K + 1) * x /\ 2 * r <= IZR (2 * K + 1) * y /\ 2 * r <= IZR (2 * K + 1) * z)%R ->
    find_neighbors srt voro area_pow inv' s2 (mkArgs (N := Rnum) (MCutoff (CutVal (N := Rnum) r)) f t pad nl) = Ok (s3, e) ->
    Forall (fun q => 2 <= q <= 12)%Z qs ->
    exists w, py_calculate_q inv raw s3 qs averaged false None false = Ok w /\
    forall i, i < length l -> exists a ks, nth_error (s_atoms w) i = Some a /\
      shell (mkV (N := Rnum) x y z) l f r (origin i) ks /\
      forall k, In (Z.of_nat k) qs -> ks <> [] -> atom_get_q a (Z.of_nat k) false = Ok (shell_q (mkV (N := Rnum) x y z) l (origin i) k ks : Rnum).
Proof.
  intros inv raw s s1 s2 x y z l Ht Hac Hpos E1 Hreal Hin Hl Hd Hq E2.
  destruct (padded Ht Hac Hpos E1 Hreal Hl E2) as (K & W & K1 & Ln & St & Hr & T2 & L2 & W0 & HW & Hinj & Hall).
  exists K. split; [exact K1|]. split; [exact Ln|]. intros srt voro area_pow inv' u r t pad nl f e qs averaged R0 R2 E3 HF.
  assert (Hr0 : neqb (n := Rnum) r n0 = false) by (apply Reqb_false; exact R0).
  assert (Hs : (s_real s2 <= 2300)%Z) by lia. assert (K0 : (0 <= K)%Z) by lia.
  destruct (ready_after s2 u x y z l K W srt voro area_pow inv' r t pad nl f e Hpos Hin Hd (set_arrays Hl E2 Hq) St Hs Hr0 K0 T2 L2 HW Hinj R2 E3) as (L & V & D & RD & C0 & NZ).
  pose proof HF as HF1. rewrite Forall_forall in HF1.
  rewrite (py_q_eq inv raw averaged RD HF). eexists. split; [reflexivity|].
  intros i Hi. assert (Hi2 : i < length (s_atoms s2)).
  { assert (1 <= (2 * K + 1) ^ 3)%Z by nia. apply Nat2Z.inj_lt. rewrite Ln. nia. }
  pose proof Hi2 as Hi3. rewrite <- L in Hi3. destruct (P_QRun.nth_error_some Hi3) as [a Ha]. destruct (D i a Ha) as (_ & QA & NB & _).
  destruct (torus_shell f Hpos K0 T2 L2 Hin HW Hinj Hall R2 Hi2) as (ks & SH & FO). rewrite (W0 i Hi) in SH, FO.
  assert (CT : forall b, In b (s_atoms u) -> counted (s_atoms u) b = a_nbrs b).
  { intros b Hb. apply counted_same_cond; auto. intros e0 He. now apply (proj2 RD b Hb). }
  assert (AP : S_Steinhardt.apart (s_atoms u)). { intros b e0 Hb He. rewrite (CT b Hb) in He. eauto. }
  assert (VAL : forall k, In (Z.of_nat k) qs -> ks <> [] ->
    nth_error (a_q (q_all (s_vorused u) (s_atoms u) qs a)) (Z.to_nat (Z.of_nat k - 2)) = Some (shell_q (mkV (N := Rnum) x y z) l (origin i) k ks : Rnum)).
  { intros k Hk NE. rewrite (stored_q RD HF AP (nth_error_In _ _ Ha) Hk). f_equal. unfold Vof. rewrite (CT a (nth_error_In _ _ Ha)), NB, V.
    assert (FO' : Forall2 (fun q' e => stands_for (mkV (N := Rnum) x y z) l (origin i) q' e) ks (neighbors_within s2 (r : Rnum) f i)).
    { clear -FO. induction FO as [|? ? ? ? (A & _)]; constructor; auto. }
    rewrite (gram_shell x y z l (origin i) k ks _ _ FO').
    assert (WS : wsum (of_nbrs (neighbors_within s2 (r : Rnum) f i)) = INR (length ks)).
    { clear -FO'. unfold wsum, of_nbrs. rewrite map_map. induction FO' as [|q' e ks es (_ & _ & Wt) F IH]; [reflexivity|].
      cbn [map length fst]. change (nb_weight e + Rsum (map (fun x0 => fst (nb_weight x0 : R, nb_vec x0)) es) = INR (S (length ks)))%R. rewrite IH, Wt, S_INR. ring. }
    unfold nfac. rewrite WS. unfold shell_q. set (G := Rsum _). set (n := INR (length ks)).
    assert (Hn : (0 < n)%R) by (apply lt_0_INR; destruct ks; [congruence|cbn; lia]).
    assert (Hn' : (0 < / n)%R) by now apply Rinv_0_lt_compat.
    apply (f_equal (@Some R)). change (@eq R (sqrt (/ n * / n * G))%R (sqrt G / n)%R). rewrite sqrt_mult_alt by nra. rewrite sqrt_square by lra. unfold Rdiv. ring. }
  assert (GET : forall (b : atom Rnum) k (v : Rnum), In (Z.of_nat k) qs -> nth_error (a_q b) (Z.to_nat (Z.of_nat k - 2)) = Some v -> atom_get_q b (Z.of_nat k) false = Ok v).
  { intros b k v Hk EE. pose proof (HF1 _ Hk) as RG. unfold atom_get_q, q_range, zget, get.
    replace (Z.ltb (Z.of_nat k) 2) with false by (symmetry; apply Z.ltb_ge; lia). replace (Z.ltb 12 (Z.of_nat k)) with false by (symmetry; apply Z.ltb_ge; lia).
    cbn [orb negb]. replace (Z.ltb (Z.of_nat k - 2) 0) with false by (symmetry; apply Z.ltb_ge; lia). rewrite EE. reflexivity. }
  destruct averaged.
  - unfold after_aq. cbn [s_atoms set]. cbn. do 2 eexists. rewrite !nth_error_map, Ha. split; [reflexivity|]. split; [exact SH|].
    intros k Hk NE. apply GET; [exact Hk|]. rewrite aq_all_a_q. exact (VAL k Hk NE).
  - unfold after_q. cbn. do 2 eexists. rewrite !nth_error_map, Ha. split; [reflexivity|]. split; [exact SH|].
    intros k Hk NE. apply GET; [exact Hk|]. exact (VAL k Hk NE).
Qed.
Print Assumptions C81_values.

(** The averaged parameters: each average over a site and its shell in the
    infinite arrangement. *)
Lemma cosine_vec u v : P_Steinhardt.cosine u v = cos_vec u v.
Proof.
  assert (EU : forall v : v3 Rnum, norm v = eucl (vx v) (vy v) (vz v)).
  { intros w. unfold norm, eucl, len2. rnum. apply (f_equal sqrt). change (@eq R (vx w * vx w + vy w * vy w + vz w * vz w) (vx w ^ 2 + vy w ^ 2 + vz w ^ 2))%R. ring. }
  unfold P_Steinhardt.cosine. rewrite !EU. reflexivity.
Qed.
Lemma avg_perm (V V' : wv) (Vs Vs' : list wv) : Permutation V V' -> Forall2 (fun U U' : wv => Permutation U U') Vs Vs' -> Permutation (avgV false V Vs) (avgV false V' Vs').
Proof.
  intros P F. unfold avgV. rewrite (Forall2_length' F). set (n := INR _). clearbody n. cbn [map concat].
  apply Permutation_app; [now apply resc_perm|]. induction F as [|U U' Us Us' Q F IH]; [constructor|]. cbn [map concat].
  apply Permutation_app; [now apply resc_perm|exact IH].
Qed.
Lemma avg_order (V : wv) (Vs Vs' : list wv) : Permutation Vs Vs' -> Permutation (avgV false V Vs) (avgV false V Vs').
Proof.
  intros P. unfold avgV. rewrite (Permutation_length P). apply Permutation_concat, Permutation_map. now apply perm_skip.
Qed.
Definition dirs (L : v3 Rnum) (l : list (atom Rnum)) (sh : site -> list site) (q : site) : wv := map (fun p => (1%R, S_Periodic.apart L l q p)) (sh q).
Lemma avg_shares L l sh q : avgV false (dirs L l sh q) (map (dirs L l sh) (sh q)) = shares L l sh q.
Proof.
  unfold avgV, shares. rewrite map_length. set (n := INR _). clearbody n.
  rewrite <- (map_cons (dirs L l sh) q (sh q)). rewrite map_map, flat_map_concat_map. f_equal. apply map_ext. intros p.
  assert (WS : wsum (dirs L l sh p) = INR (length (sh p))).
  { unfold wsum, dirs. rewrite map_map. generalize (sh p) as ks. induction ks as [|x ks IH]; [reflexivity|]. cbn [map length].
    change (1 + Rsum (map (fun x => fst (1%R, S_Periodic.apart L l p x)) ks) = INR (S (length ks)))%R. rewrite IH, S_INR. ring. }
  unfold nfac. rewrite WS. unfold rescV, dirs. rewrite map_map. apply map_ext. intros p'. cbn [fst snd]. f_equal. ring.
Qed.
Theorem C81_averages : forall (inv : m3 Rnum -> option (m3 Rnum)) raw (s s1 s2 : sys Rnum) (x y z : R) (l : list (atom Rnum)),
  s_tri s = false -> s_actual s = None -> (0 < x /\ 0 < y /\ 0 < z)%R ->
  box_set inv s (diag (N := Rnum) x y z) = Ok s1 ->
  all_real l -> (forall a, In a l -> in_box (mkV (N := Rnum) x y z) (a_pos a)) -> 1 <= length l < 200 ->
  (forall i j a b, nth_error l i = Some a -> nth_error l j = Some b -> a_pos a = a_pos b -> i = j) ->
  (forall a, In a l -> q_arrays a) ->
  atoms_set inv raw s1 l = Ok s2 ->
  exists K, (1 <= K)%Z /\ Z.of_nat (length (s_atoms s2)) = ((2 * K + 1) ^ 3 * Z.of_nat (length l))%Z /\
    forall srt voro area_pow inv' s3 (r t pad : R) nl f e qs, r <> 0%R ->
    (2 * r <= IZR (2 * K + 1) * x /\ 2 * r <= IZR (2 * K + 1) * y /\ 2 * r <= IZR (2 * K + 1) * z)%R ->
    find_neighbors srt voro area_pow inv' s2 (mkArgs (N := Rnum) (MCutoff (CutVal (N := Rnum) r)) f t pad nl) = Ok (s3, e) ->
    Forall (fun q => 2 <= q <= 12)%Z qs ->
    (exists sh, forall q, fst q < length l -> shell (mkV (N := Rnum) x y z) l f r q (sh q)) /\
    exists w, py_calculate_q inv raw s3 qs true false None false = Ok w /\
    forall sh, (forall q, fst q < length l -> shell (mkV (N := Rnum) x y z) l f r q (sh q) /\ sh q <> []) ->
    forall i, i < length l -> exists a, nth_error (s_atoms w) i = Some a /\
      forall k, In (Z.of_nat k) qs -> atom_get_q a (Z.of_nat k) true = Ok (shell_aq (mkV (N := Rnum) x y z) l sh (origin i) k : Rnum).
Proof.
  intros inv raw s s1 s2 x y z l Ht Hac Hpos E1 Hreal Hin Hl Hd Hq E2.
  destruct (padded Ht Hac Hpos E1 Hreal Hl E2) as (K & W & K1 & Ln & St & Hr & T2 & L2 & W0 & HW & Hinj & Hall).
  exists K. split; [exact K1|]. split; [exact Ln|]. intros srt voro area_pow inv' u r t pad nl f e qs R0 R2 E3 HF.
  assert (Hr0 : neqb (n := Rnum) r n0 = false) by (apply Reqb_false; exact R0).
  assert (Hs : (s_real s2 <= 2300)%Z) by lia. assert (K0 : (0 <= K)%Z) by lia.
  destruct (ready_after s2 u x y z l K W srt voro area_pow inv' r t pad nl f e Hpos Hin Hd (set_arrays Hl E2 Hq) St Hs Hr0 K0 T2 L2 HW Hinj R2 E3) as (L & V & D & RD & C0 & NZ).
  pose proof HF as HF1. rewrite Forall_forall in HF1.
  assert (B2 : forall i, i < length l -> i < length (s_atoms s2)).
  { intros i Hi. assert (1 <= (2 * K + 1) ^ 3)%Z by nia. apply Nat2Z.inj_lt. rewrite Ln. nia. }
  set (bx := mkV (N := Rnum) x y z) in *.
  split.
  { apply all_shells. intros i Hi. destruct (torus_shell f Hpos K0 T2 L2 Hin HW Hinj Hall R2 (B2 i Hi)) as (ks & SH & _). rewrite (W0 i Hi) in SH. eauto. }
  rewrite (py_q_eq inv raw true RD HF). eexists. split; [reflexivity|]. intros sh Hsh i Hi.
  assert (CT : forall b, In b (s_atoms u) -> counted (s_atoms u) b = a_nbrs b).
  { intros b Hb. apply counted_same_cond; auto. intros e0 He. now apply (proj2 RD b Hb). }
  assert (AP : S_Steinhardt.apart (s_atoms u)). { intros b e0 Hb He. rewrite (CT b Hb) in He. eauto. }
  assert (FW : forall j, j < length (s_atoms s2) -> fst (W j) < length l) by (intros j Hj; exact (fst_W HW Hj)).
  assert (VP : forall j b q, nth_error (s_atoms u) j = Some b -> fst q = fst (W j) -> Permutation (Vof (s_atoms u) b) (dirs bx l sh q)).
  { intros j b q Hb Eq. destruct (D j b Hb) as (Hj & _ & NB & _). unfold Vof. rewrite (CT b (nth_error_In _ _ Hb)), NB.
    destruct (torus_shell f Hpos K0 T2 L2 Hin HW Hinj Hall R2 Hj) as (ks & SH & FO).
    assert (OF : of_nbrs (neighbors_within s2 (r : Rnum) f j) = map (pair 1%R) (map (S_Periodic.apart bx l (W j)) ks)).
    { clear -FO. unfold of_nbrs. induction FO as [|q' e ks es ((_ & V & Wt) & _) F IH]; [reflexivity|]. cbn [map]. f_equal; [|exact IH]. rewrite V, Wt. reflexivity. }
    rewrite OF. unfold dirs. rewrite <- (map_map (S_Periodic.apart bx l q) (pair 1%R)). apply Permutation_map.
    apply (dirs_site (q := q) (q' := W j) (f := f) (r := r)); [rewrite Eq; now apply FW|now symmetry| |exact SH].
    apply Hsh. rewrite Eq. now apply FW. }
  pose proof (B2 i Hi) as Hi2. pose proof Hi2 as Hi3. rewrite <- L in Hi3. destruct (P_QRun.nth_error_some Hi3) as [a Ha].
  destruct (D i a Ha) as (_ & QA & NB & _).
  destruct (torus_shell f Hpos K0 T2 L2 Hin HW Hinj Hall R2 Hi2) as (ks & SH & FO). rewrite (W0 i Hi) in SH, FO.
  assert (F2 : Forall2 (fun U U' : wv => Permutation U U') (map (Vof (s_atoms u)) (nb_atoms (s_atoms u) (a_nbrs a))) (map (dirs bx l sh) ks)).
  { rewrite NB. clear -FO VP L. induction FO as [|q' e ks es (_ & Be & Fe) F IH]; [constructor|]. cbn [map]. unfold nb_atoms. cbn [flat_map].
    rewrite <- L in Be. destruct (P_QRun.nth_error_some Be) as [b Hb]. rewrite Hb. cbn [app map]. constructor; [|exact IH]. apply (VP (nb_idx e)); auto. }
  assert (PK : Permutation ks (sh (origin i))).
  { destruct (proj1 (Hsh (origin i) Hi)) as [N1 I1]. destruct SH as [N2 I2]. apply NoDup_Permutation; auto. intros q. rewrite I1. apply I2. }
  assert (VAL : forall k, In (Z.of_nat k) qs ->
    nth_error (a_aq (aq_all (map (q_all (s_vorused u) (s_atoms u) qs) (s_atoms u)) qs (q_all (s_vorused u) (s_atoms u) qs a))) (Z.to_nat (Z.of_nat k - 2))
      = Some (shell_aq bx l sh (origin i) k : Rnum)).
  { intros k Hk. rewrite (stored_aq RD HF AP (nth_error_In _ _ Ha) Hk). rewrite (CT a (nth_error_In _ _ Ha)), V.
    apply (f_equal (@Some R)). unfold shell_aq. apply (f_equal sqrt).
    assert (PV : Permutation (Vof (s_atoms u) a) (dirs bx l sh (origin i))) by (apply (VP i); [exact Ha|now rewrite (W0 i Hi)]).
    rewrite (gram_perm k (Permutation_trans (avg_perm _ _ _ _ PV F2) (avg_order _ _ _ (Permutation_map (dirs bx l sh) PK)))).
    rewrite avg_shares. unfold gram. f_equal. apply map_ext. intros p. f_equal. apply map_ext. intros p'. now rewrite cosine_vec. }
  unfold after_aq. cbn [s_atoms set]. cbn. eexists. rewrite nth_error_map, Ha. split; [reflexivity|].
  intros k Hk. pose proof (HF1 _ Hk) as RG. unfold atom_get_q, q_range, zget, get.
  replace (Z.ltb (Z.of_nat k) 2) with false by (symmetry; apply Z.ltb_ge; lia). replace (Z.ltb 12 (Z.of_nat k)) with false by (symmetry; apply Z.ltb_ge; lia).
  cbn [orb negb]. replace (Z.ltb (Z.of_nat k - 2) 0) with false by (symmetry; apply Z.ltb_ge; lia). rewrite (VAL k Hk). reflexivity.
Qed.
Print Assumptions C81_averages.

(** The hypotheses met by a run that succeeds, with cutoff 3/2: the atom of
    [C81_hyp] and its copies have the images at distance 1 as neighbours. *)
Example C81_parameters_hyp : forall (inv : m3 Rnum -> option (m3 Rnum)) raw mem srt voro area_pow inv' t pad nl, exists s1 s2 s3,
  s_tri (sys_ctor mem) = false /\ s_actual (sys_ctor mem) = None /\
  box_set inv (sys_ctor mem) (diag (N := Rnum) 1%R 10%R 10%R) = Ok s1 /\ atoms_set inv raw s1 [thin_atom] = Ok s2 /\
  find_neighbors srt voro area_pow inv' s2 (mkArgs (N := Rnum) (MCutoff (CutVal (N := Rnum) (3 / 2)%R)) FNone t pad nl) = Ok (s3, None) /\
  all_real [thin_atom] /\ (forall a, In a [thin_atom] -> in_box (mkV (N := Rnum) 1%R 10%R 10%R) (a_pos a)) /\
  (forall i j a b, nth_error [thin_atom] i = Some a -> nth_error [thin_atom] j = Some b -> a_pos a = a_pos b -> i = j) /\
  (forall a, In a [thin_atom] -> q_arrays a) /\
  (2 * (3 / 2) <= 3 * 1 /\ 2 * (3 / 2) <= 3 * 10 /\ 2 * (3 / 2) <= 3 * 10)%R /\
  Forall (fun q => 2 <= q <= 12)%Z [4; 6]%Z.
Proof.
  intros. destruct (C81_hyp inv raw mem srt voro area_pow inv' t pad nl (3 / 2)%R ltac:(lra)) as (s1 & s2 & s3 & A & B & C & D & E).
  exists s1, s2, s3. split; [exact A|]. split; [exact B|]. split; [exact C|]. split; [exact D|]. split; [exact E|].
  split; [exact thin_real|]. split; [exact thin_in|]. split; [|split; [|split; [lra|apply Forall_forall; intros q [<-|[<-|[]]]; lia]]].
  - intros [|[|i]] [|[|j]] a b Ha Hb _; cbn in Ha, Hb; try discriminate; reflexivity.
  - intros a [<-|[]]. unfold q_arrays, thin_atom, atom_ctor. cbn. repeat split; auto; repeat constructor.
Qed.
(** Two atoms at different places. *)
Example C81_parameters_two : let l := [thin_atom; at_pos (N := Rnum) (mkV (N := Rnum) (1 / 2)%R 5%R 5%R)] in
  forall i j a b, nth_error l i = Some a -> nth_error l j = Some b -> a_pos a = a_pos b -> i = j.
Proof.
  intros l [|[|[|i]]] [|[|[|j]]] a b Ha Hb E; cbn in Ha, Hb; try discriminate; try reflexivity; exfalso;
    injection Ha as <-; injection Hb as <-; apply (f_equal (@vx Rnum)) in E; unfold thin_atom, at_pos, atom_ctor in E; cbn in E; lra.
Qed.
(** With that cutoff no shell of the one atom is empty. *)
Example C81_averages_hyp : forall q ks, fst q < length [thin_atom] ->
  shell (mkV (N := Rnum) 1%R 10%R 10%R) [thin_atom] FNone (3 / 2)%R q ks -> ks <> [].
Proof.
  intros [i [[a b] c]] ks Hi [_ H] E. cbn [fst length] in Hi. assert (i = 0) as -> by lia. subst ks.
  apply (H (0, (a + 1, b, c)%Z)). split; [cbn; lia|]. split; [intros C; injection C; lia|]. split; [|reflexivity].
  unfold far, S_Periodic.apart, site_pos, thin_atom, atom_ctor. cbn [nth_error]. cbn. rewrite plus_IZR.
  match goal with |- (eucl ?u ?v ?w < _)%R => replace (eucl u v w) with 1%R; [lra|] end.
  unfold eucl, len2. match goal with |- _ = sqrt ?u => replace u with (1 * 1)%R by ring end. rewrite sqrt_square; lra.
Qed.
