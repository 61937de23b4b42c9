(** C82: repeating the cell of a periodic system, moving the origin or replacing
    atoms by their images changes neither the neighbours nor the parameters. *)
From Coq Require Import Reals ZArith List Lia Lra Permutation.
From Verif Require Import Base Num NumR NumF NumP Types M_Geometry M_Container M_Neighbors M_Steinhardt
  S_Geometry S_Container S_Neighbors S_Steinhardt S_Same S_Periodic S_PeriodicQ S_Supercell Ex P_Geometry P_Box P_Container P_Neighbors P_QRun P_Steinhardt P_QInv P_QSys P_QHist P_Same P_FindN P_Periodic P_PeriodicQ P_Supercell C_Neighbors C_Periodic C_PeriodicQ.
Import ListNotations.
Close Scope R_scope. Close Scope Z_scope.
#[local] Open Scope nat_scope.

(** The entries of stored atom i, as sites of an arrangement. *)
Definition entries (L : v3 Rnum) (l : list (atom Rnum)) (f : filt) (r : R) (n : nat) (S : nat -> site) (i : nat) (es : list (nbr Rnum)) : Prop :=
  exists ks, shell L l f r (S i) ks /\
    Forall2 (fun q' e => stands_for L l (S i) q' e /\ nb_idx e < n /\ fst (S (nb_idx e)) = fst q') ks es.

Lemma entries_dirs L l f r n S i es sh q :
  (forall q, fst q < length l -> shell L l f r q (sh q)) -> entries L l f r n S i es -> fst (S i) < length l -> fst q = fst (S i) ->
  Permutation (of_nbrs es) (dirs L l sh q).
Proof.
  intros Hsh (ks & SH & FO) B Eq.
  assert (OF : of_nbrs es = map (pair 1%R) (map (S_Periodic.apart L l (S i)) ks)).
  { clear -FO. unfold of_nbrs. induction FO as [|q' e ks es ((_ & V & Wt) & _) F IH]; [reflexivity|]. cbn [map]. f_equal; [|exact IH]. rewrite V, Wt. reflexivity. }
  rewrite OF. unfold dirs. rewrite <- (map_map (S_Periodic.apart L l q) (pair 1%R)). apply Permutation_map.
  apply (dirs_site (q := q) (q' := S i) (f := f) (r := r)); [now rewrite Eq|now symmetry| |exact SH]. apply Hsh. now rewrite Eq.
Qed.

(** The parameters of stored atom i depend on the arrangement only. *)
Lemma values_of L l f r (u : sys Rnum) S sh qs :
  q_ready u -> Forall (fun q => 2 <= q <= 12)%Z qs -> s_vorused u = false -> (forall a, In a (s_atoms u) -> a_cond a = 0%Z) ->
  (forall a e, In a (s_atoms u) -> In e (a_nbrs a) -> nonzero (nb_vec e)) ->
  (forall q, fst q < length l -> shell L l f r q (sh q)) ->
  (forall i a, nth_error (s_atoms u) i = Some a -> fst (S i) < length l /\ entries L l f r (length (s_atoms u)) S i (a_nbrs a)) ->
  forall i a q k, nth_error (s_atoms u) i = Some a -> fst q = fst (S i) -> In (Z.of_nat k) qs ->
    nth_error (a_q (q_all false (s_atoms u) qs a)) (Z.to_nat (Z.of_nat k - 2)) =
      Some (sqrt (gram k (rescV (nfac false (dirs L l sh q)) (dirs L l sh q))) : Rnum) /\
    nth_error (a_aq (aq_all (map (q_all false (s_atoms u) qs) (s_atoms u)) qs (q_all false (s_atoms u) qs a))) (Z.to_nat (Z.of_nat k - 2)) =
      Some (shell_aq L l sh q k : Rnum).
Proof.
  intros RD HF V C0 NZ Hsh HE i a q k Ha Eq Hk.
  assert (CT : forall b, In b (s_atoms u) -> counted (s_atoms u) b = a_nbrs b).
  { intros b Hb. apply counted_same_cond; auto. intros e0 He. now apply (proj2 RD b Hb). }
  assert (AP : S_Steinhardt.apart (s_atoms u)). { intros b e0 Hb He. rewrite (CT b Hb) in He. eauto. }
  assert (VP : forall j b q, nth_error (s_atoms u) j = Some b -> fst q = fst (S j) -> Permutation (Vof (s_atoms u) b) (dirs L l sh q)).
  { intros j b q0 Hb E0. unfold Vof. rewrite (CT b (nth_error_In _ _ Hb)). destruct (HE j b Hb) as (B & EN).
    now apply (entries_dirs L l f r _ S j _ sh q0 Hsh EN). }
  pose proof (VP i a q Ha Eq) as PV. split.
  - pose proof (stored_q RD HF AP (nth_error_In _ _ Ha) Hk) as SQ. rewrite V in SQ. rewrite SQ.
    apply (f_equal (fun v => Some (sqrt v))). apply gram_perm.
    pose proof (resc_perm false 1 PV) as H. unfold Rdiv in H. rewrite !Rinv_1, !Rmult_1_r in H. exact H.
  - pose proof (stored_aq RD HF AP (nth_error_In _ _ Ha) Hk) as SQ. rewrite V, (CT a (nth_error_In _ _ Ha)) in SQ. rewrite SQ.
    apply (f_equal (@Some R)). unfold shell_aq. apply (f_equal sqrt).
    destruct (HE i a Ha) as (B & ks & SH & FO).
    assert (exists t, q = moved t (S i)) as (t & ->).
    { destruct q as [j [[a1 b1] c1]], (S i) as [j' [[a2 b2] c2]]. cbn in Eq. subst j. exists (a1 - a2, b1 - b2, c1 - c2)%Z. cbn. f_equal. f_equal; [f_equal|]; lia. }
    assert (F2 : Forall2 (fun U U' : wv => Permutation U U') (map (Vof (s_atoms u)) (nb_atoms (s_atoms u) (a_nbrs a))) (map (dirs L l sh) (map (moved t) ks))).
    { clear -FO VP. induction FO as [|q' e ks es (_ & Be & Fe) F IH]; [constructor|]. cbn [map]. unfold nb_atoms. cbn [flat_map].
      destruct (P_QRun.nth_error_some Be) as [b Hb]. rewrite Hb. cbn [app map]. constructor; [|exact IH]. apply (VP (nb_idx e)); [exact Hb|]. rewrite moved_fst. now symmetry. }
    assert (PK : Permutation (map (moved t) ks) (sh (moved t (S i)))).
    { symmetry. apply (shell_moved (q := S i) B SH). apply Hsh. now rewrite moved_fst. }
    rewrite (gram_perm k (Permutation_trans (avg_perm _ _ _ _ PV F2) (avg_order _ _ _ (Permutation_map (dirs L l sh) PK)))).
    rewrite avg_shares. unfold gram. f_equal. apply map_ext. intros p. f_equal. apply map_ext. intros p'. now rewrite cosine_vec.
Qed.

(** Positions of a supercell. *)
Lemma super_box (x y z : R) n1 n2 n3 l l' at_ : (0 < x /\ 0 < y /\ 0 < z)%R ->
  (forall a, In a l -> in_box (mkV (N := Rnum) x y z) (a_pos a)) -> supercell (mkV (N := Rnum) x y z) n1 n2 n3 l l' at_ ->
  forall a, In a l' -> in_box (mkV (N := Rnum) (IZR n1 * x)%R (IZR n2 * y)%R (IZR n3 * z)%R) (a_pos a).
Proof.
  intros (X & Y & Z0) Hin HS a Ha. apply In_nth_error in Ha as (j & Ha). destruct (proj1 HS _ _ Ha) as (B & C & P & _). rewrite P.
  destruct (at_ j) as [i [[u v] w]]. cbn [fst] in B. destruct (P_QRun.nth_error_some B) as [a0 Ha0]. unfold site_pos. rewrite Ha0.
  destruct (Hin a0 (nth_error_In _ _ Ha0)) as (I1 & I2 & I3). destruct C as (C1 & C2 & C3). unfold in_box. cbn [vx vy vz] in *.
  assert (G : forall (X p : R) (m n : Z), (0 < X -> 0 <= p < X -> (0 <= m < n)%Z -> 0 <= p + IZR m * X < IZR n * X)%R).
  { intros X' p m n HX Hp [M1 M2]. assert (0 <= IZR m)%R by (apply IZR_le; lia). assert (IZR m + 1 <= IZR n)%R by (rewrite <- plus_IZR; apply IZR_le; lia). nra. }
  exact (conj (G _ _ _ _ X I1 C1) (conj (G _ _ _ _ Y I2 C2) (G _ _ _ _ Z0 I3 C3))).
Qed.
Lemma site_step_0 n1 n2 n3 q : big_step n1 n2 n3 (0, 0, 0)%Z q = q.
Proof. destruct q as [i [[a b] c]]. unfold big_step. f_equal. f_equal; [f_equal|]; lia. Qed.
Lemma super_distinct (x y z : R) T n1 n2 n3 l l' at_ : (0 < x /\ 0 < y /\ 0 < z)%R ->
  (forall a, In a l -> in_box (mkV (N := Rnum) x y z) (a_pos a)) -> describes (mkV (N := Rnum) x y z) T n1 n2 n3 l l' at_ ->
  (forall i j a b, nth_error l i = Some a -> nth_error l j = Some b -> a_pos a = a_pos b -> i = j) ->
  forall i j a b, nth_error l' i = Some a -> nth_error l' j = Some b -> a_pos a = a_pos b -> i = j.
Proof.
  intros Hpos Hin HS Hd i j a b Ha Hb E. destruct (proj1 HS _ _ Ha) as (A & P & _). destruct (proj1 HS _ _ Hb) as (B & P' & _).
  assert (Q : at_ i = at_ j).
  { destruct (site_dec (at_ i) (at_ j)) as [|NE]; [assumption|]. exfalso.
    apply (apart_nonzero (raw_sys Rnum) Hin Hd A B NE). unfold S_Periodic.apart. cbn [vx vy vz]. rewrite P, P' in E. 
    pose proof (f_equal (@vx Rnum) E) as X1. pose proof (f_equal (@vy Rnum) E) as X2. pose proof (f_equal (@vz Rnum) E) as X3. cbn [vx vy vz] in X1, X2, X3.
    repeat split; lra. }
  apply (proj2 (proj2 HS) i j (0, 0, 0)%Z (0, 0, 0)%Z); [apply nth_error_Some; congruence|apply nth_error_Some; congruence|]. now rewrite Q.
Qed.

(** ** The theorems *)
Section T.
Variables (inv : m3 Rnum -> option (m3 Rnum)) (raw : Z -> atom Rnum) (s s1 s2 s3 : sys Rnum) (x y z : R) (l : list (atom Rnum)).
Variables (srt : list (datom Rnum) -> list (datom Rnum)) (voro : nat -> option (list (nat * Rnum))) (area_pow : Rnum -> Rnum) (inv' : m3 Rnum -> option (m3 Rnum)).
Variables (r t pad : R) (nl : Z) (f : filt) (e : option err).
Hypothesis Ht : s_tri s = false.
Hypothesis Hac : s_actual s = None.
Hypothesis Hpos : (0 < x /\ 0 < y /\ 0 < z)%R.
Hypothesis E1 : box_set inv s (diag (N := Rnum) x y z) = Ok s1.
Hypothesis Hreal : all_real l.
Hypothesis Hin : forall a, In a l -> in_box (mkV (N := Rnum) x y z) (a_pos a).
Hypothesis Hl : (1 <= length l)%nat.
Hypothesis Hl2 : (Z.of_nat (length l) <= 2300)%Z.
Hypothesis E2 : atoms_set inv raw s1 l = Ok s2.
Hypothesis R0 : r <> 0%R.
Hypothesis R1 : (2 * r <= vx (s_len s2) /\ 2 * r <= vy (s_len s2) /\ 2 * r <= vz (s_len s2))%R.
Hypothesis E3 : find_neighbors srt voro area_pow inv' s2 (mkArgs (N := Rnum) (MCutoff (CutVal (N := Rnum) r)) f t pad nl) = Ok (s3, e).

Lemma one_system : exists W,
  length l <= length (s_atoms s3) /\ (forall i, i < length l -> W i = origin i) /\
  (forall i, i < length (s_atoms s3) -> fst (W i) < length l /\ entries (mkV (N := Rnum) x y z) l f r (length (s_atoms s3)) W i (nbrs_at s3 i)) /\
  ((forall i j a b, nth_error l i = Some a -> nth_error l j = Some b -> a_pos a = a_pos b -> i = j) -> (forall a, In a l -> q_arrays a) ->
   s_vorused s3 = false /\ q_ready s3 /\ (forall a, In a (s_atoms s3) -> a_cond a = 0%Z) /\
   (forall a e, In a (s_atoms s3) -> In e (a_nbrs a) -> nonzero (nb_vec e))).
Proof.
  destruct (embedded Ht Hac Hpos E1 Hreal Hl E2) as (K & W & K0 & Ln & St & Hr & T2 & L2 & W0 & HW & Hinj & Hall & HQ).
  assert (Hr0 : neqb (n := Rnum) r n0 = false) by (apply Reqb_false; exact R0).
  assert (Hs : (s_real s2 <= 2300)%Z) by lia. rewrite L2 in R1. cbn [vx vy vz] in R1.
  destruct (cutoff_done St Hs Hr0 E3) as (L & _).
  exists W. rewrite L. split; [exact Ln|]. split; [exact W0|]. split.
  - intros i Hi. split; [exact (fst_W HW Hi)|]. rewrite (cutoff_lists St Hs Hr0 E3 Hi). exact (torus_shell f Hpos K0 T2 L2 Hin HW Hinj Hall R1 Hi).
  - intros Hd Hq. destruct (ready_after s2 s3 x y z l K W srt voro area_pow inv' r t pad nl f e Hpos Hin Hd (HQ Hq) St Hs Hr0 K0 T2 L2 HW Hinj R1 E3) as (_ & V & _ & RD & C0 & NZ). auto.
Qed.
End T.

(** Systems of up to 2300 atoms, padded or not: the neighbours of every atom are
    its shell in the infinite arrangement, for cutoffs up to half the box as
    stored. *)
Theorem C81_any_size : forall (inv : m3 Rnum -> option (m3 Rnum)) raw (s s1 s2 s3 : sys Rnum) (x y z : R) (l : list (atom Rnum))
    srt voro area_pow inv' (r t pad : R) nl f e,
  s_tri s = false -> s_actual s = None -> (0 < x /\ 0 < y /\ 0 < z)%R ->
  box_set inv s (diag (N := Rnum) x y z) = Ok s1 ->
  all_real l -> (forall a, In a l -> in_box (mkV (N := Rnum) x y z) (a_pos a)) -> 1 <= length l -> (Z.of_nat (length l) <= 2300)%Z ->
  atoms_set inv raw s1 l = Ok s2 ->
  r <> 0%R -> (2 * r <= vx (s_len s2) /\ 2 * r <= vy (s_len s2) /\ 2 * r <= vz (s_len s2))%R ->
  find_neighbors srt voro area_pow inv' s2 (mkArgs (N := Rnum) (MCutoff (CutVal (N := Rnum) r)) f t pad nl) = Ok (s3, e) ->
  forall i, i < length l -> exists ks, shell (mkV (N := Rnum) x y z) l f r (origin i) ks /\
    Forall2 (fun q' e => stands_for (mkV (N := Rnum) x y z) l (origin i) q' e) ks (nbrs_at s3 i).
Proof.
  intros inv raw s s1 s2 s3 x y z l srt voro area_pow inv' r t pad nl f e Ht Hac Hpos E1 Hreal Hin Hl Hl2 E2 R0 R1 E3 i Hi.
  destruct (one_system inv raw s s1 s2 s3 x y z l srt voro area_pow inv' r t pad nl f e Ht Hac Hpos E1 Hreal Hin Hl Hl2 E2 R0 R1 E3) as (W & Ln & W0 & EN & _).
  destruct (EN i ltac:(lia)) as (_ & ks & SH & FO). rewrite (W0 i Hi) in SH, FO. exists ks. split; [exact SH|].
  clear -FO. induction FO as [|? ? ? ? (A & _)]; constructor; auto.
Qed.
Print Assumptions C81_any_size.

(** The entries of the supercell as sites of the small cell. *)
Lemma entries_unfolded (x y z : R) T n1 n2 n3 l l' at_ f r n W i es :
  describes (mkV (N := Rnum) x y z) T n1 n2 n3 l l' at_ -> fst (W i) < length l' ->
  entries (mkV (N := Rnum) (IZR n1 * x)%R (IZR n2 * y)%R (IZR n3 * z)%R) l' f r n W i es ->
  entries (mkV (N := Rnum) x y z) l f r n (fun j => unfolded n1 n2 n3 at_ (W j)) i es.
Proof.
  intros HS B (ks & SH & FO). exists (map (unfolded n1 n2 n3 at_) ks). split; [exact (unfolded_shell HS B SH)|].
  assert (BK : forall p, In p ks -> fst p < length l') by (intros p Hp; now apply SH in Hp). clear SH.
  induction FO as [|q' e ks es ((D & V & Wt) & Be & Fe) F IH]; [constructor|]. cbn [map]. constructor.
  - assert (Bq : fst q' < length l') by (apply BK; now left). split; [|split; [exact Be|]].
    + unfold stands_for. rewrite D, V, Wt. unfold far. rewrite (unfolded_apart HS B Bq). auto.
    + rewrite !unfolded_fst. now rewrite Fe.
  - apply IH. intros p Hp. apply BK. now right.
Qed.
Lemma three_scaled (x y z : R) n1 n2 n3 : (0 < x /\ 0 < y /\ 0 < z)%R -> (0 < n1 /\ 0 < n2 /\ 0 < n3)%Z -> (0 < IZR n1 * x /\ 0 < IZR n2 * y /\ 0 < IZR n3 * z)%R.
Proof. intros (X & Y & Z0) (A & B & C). apply IZR_lt in A, B, C. repeat split; apply Rmult_lt_0_compat; auto. Qed.

(** Two descriptions of one arrangement by at most 2300 atoms, each padded with
    copies or not, as its number of atoms has it; any cutoff of at most half the
    sides of both boxes as stored.  Every atom of the second has the neighbours of
    the atom of the first at whose site it stands. *)
Theorem C82_neighbours : forall (inv : m3 Rnum -> option (m3 Rnum)) raw (s s1 s2 s3 u u1 u2 u3 : sys Rnum) (x y z : R) T n1 n2 n3 (l l' : list (atom Rnum)) at_
    srt voro area_pow inv' (r t pad : R) nl f e e',
  s_tri s = false -> s_actual s = None -> s_tri u = false -> s_actual u = None ->
  (0 < x /\ 0 < y /\ 0 < z)%R -> (0 < n1 /\ 0 < n2 /\ 0 < n3)%Z ->
  box_set inv s (diag (N := Rnum) x y z) = Ok s1 ->
  box_set inv u (diag (N := Rnum) (IZR n1 * x)%R (IZR n2 * y)%R (IZR n3 * z)%R) = Ok u1 ->
  all_real l -> all_real l' -> (forall a, In a l -> in_box (mkV (N := Rnum) x y z) (a_pos a)) ->
  (forall a, In a l' -> in_box (mkV (N := Rnum) (IZR n1 * x)%R (IZR n2 * y)%R (IZR n3 * z)%R) (a_pos a)) ->
  describes (mkV (N := Rnum) x y z) T n1 n2 n3 l l' at_ ->
  1 <= length l -> (Z.of_nat (length l') <= 2300)%Z -> (Z.of_nat (length l) <= 2300)%Z -> 1 <= length l' ->
  atoms_set inv raw s1 l = Ok s2 -> atoms_set inv raw u1 l' = Ok u2 ->
  r <> 0%R -> (2 * r <= vx (s_len s2) /\ 2 * r <= vy (s_len s2) /\ 2 * r <= vz (s_len s2))%R ->
  (2 * r <= vx (s_len u2) /\ 2 * r <= vy (s_len u2) /\ 2 * r <= vz (s_len u2))%R ->
  find_neighbors srt voro area_pow inv' s2 (mkArgs (N := Rnum) (MCutoff (CutVal (N := Rnum) r)) f t pad nl) = Ok (s3, e) ->
  find_neighbors srt voro area_pow inv' u2 (mkArgs (N := Rnum) (MCutoff (CutVal (N := Rnum) r)) f t pad nl) = Ok (u3, e') ->
  forall j, j < length l' -> fst (at_ j) < length l /\
    Permutation (map (fun e => (nb_dist e, nb_weight e, nb_vec e)) (nbrs_at u3 j))
                (map (fun e => (nb_dist e, nb_weight e, nb_vec e)) (nbrs_at s3 (fst (at_ j)))).
Proof.
  intros inv raw s s1 s2 s3 u u1 u2 u3 x y z T n1 n2 n3 l l' at_ srt voro area_pow inv' r t pad nl f e e'
    Ht Hac Ht' Hac' Hpos Hn E1 E1' Hreal Hreal' Hin Hin' HS Hl Hl2' Hl2 Hl' E2 E2' R0 R1 R1' E3 E3' j Hj.
  destruct (one_system inv raw s s1 s2 s3 x y z l srt voro area_pow inv' r t pad nl f e Ht Hac Hpos E1 Hreal Hin Hl Hl2 E2 R0 R1 E3) as (W & Ln & W0 & EN & _).
  destruct (one_system inv raw u u1 u2 u3 _ _ _ l' srt voro area_pow inv' r t pad nl f e' Ht' Hac' (three_scaled x y z n1 n2 n3 Hpos Hn) E1' Hreal' Hin' Hl' Hl2' E2' R0 R1' E3') as (W' & Ln' & W0' & EN' & _).
  set (L := mkV (N := Rnum) x y z) in *.
  destruct (EN' j ltac:(lia)) as (Bj & En'). pose proof (entries_unfolded x y z T n1 n2 n3 l l' at_ f r _ W' j _ HS Bj En') as En2.
  assert (Bi : fst (at_ j) < length l). { destruct (P_QRun.nth_error_some Hj) as [a Ha]. apply (proj1 HS _ _ Ha). }
  split; [exact Bi|]. destruct (EN (fst (at_ j)) ltac:(lia)) as (_ & En).
  assert (V : forall n S i es ks, Forall2 (fun q' e => stands_for L l (S i) q' e /\ nb_idx e < n /\ fst (S (nb_idx e)) = fst q') ks es ->
     map (fun e => (nb_dist e, nb_weight e, nb_vec e)) es = map (fun v => (eucl (vx v) (vy v) (vz v) : Rnum, 1%R : Rnum, v)) (map (S_Periodic.apart L l (S i)) ks)).
  { intros n S i es ks F. induction F as [|q' e0 ks es ((D & V & Wt) & _) F IH]; [reflexivity|]. cbn [map]. f_equal; [|exact IH]. rewrite D, V, Wt. reflexivity. }
  destruct En as (ks & SH & FO). destruct En2 as (ks' & SH' & FO').
  rewrite (V _ W (fst (at_ j)) _ _ FO), (V _ (fun j => unfolded n1 n2 n3 at_ (W' j)) j _ _ FO'). apply Permutation_map. cbn beta in SH'.
  apply (dirs_site (f := f) (r := r) (q := W (fst (at_ j))) (q' := unfolded n1 n2 n3 at_ (W' j)));
    [now rewrite (W0 _ Bi)|rewrite (W0 _ Bi), (W0' _ Hj), unfolded_fst; reflexivity|exact SH|exact SH'].
Qed.
Print Assumptions C82_neighbours.

(** And its parameters, plain and averaged. *)
Theorem C82_parameters : forall (inv : m3 Rnum -> option (m3 Rnum)) raw (s s1 s2 s3 u u1 u2 u3 : sys Rnum) (x y z : R) T n1 n2 n3 (l l' : list (atom Rnum)) at_
    srt voro area_pow inv' (r t pad : R) nl f e e' qs (averaged : bool),
  s_tri s = false -> s_actual s = None -> s_tri u = false -> s_actual u = None ->
  (0 < x /\ 0 < y /\ 0 < z)%R -> (0 < n1 /\ 0 < n2 /\ 0 < n3)%Z ->
  box_set inv s (diag (N := Rnum) x y z) = Ok s1 ->
  box_set inv u (diag (N := Rnum) (IZR n1 * x)%R (IZR n2 * y)%R (IZR n3 * z)%R) = Ok u1 ->
  all_real l -> all_real l' -> (forall a, In a l -> in_box (mkV (N := Rnum) x y z) (a_pos a)) ->
  (forall a, In a l' -> in_box (mkV (N := Rnum) (IZR n1 * x)%R (IZR n2 * y)%R (IZR n3 * z)%R) (a_pos a)) ->
  describes (mkV (N := Rnum) x y z) T n1 n2 n3 l l' at_ ->
  1 <= length l -> (Z.of_nat (length l') <= 2300)%Z -> (Z.of_nat (length l) <= 2300)%Z -> 1 <= length l' ->
  (forall i j a b, nth_error l i = Some a -> nth_error l j = Some b -> a_pos a = a_pos b -> i = j) ->
  (forall a, In a l -> q_arrays a) -> (forall a, In a l' -> q_arrays a) ->
  atoms_set inv raw s1 l = Ok s2 -> atoms_set inv raw u1 l' = Ok u2 ->
  r <> 0%R -> (2 * r <= vx (s_len s2) /\ 2 * r <= vy (s_len s2) /\ 2 * r <= vz (s_len s2))%R ->
  (2 * r <= vx (s_len u2) /\ 2 * r <= vy (s_len u2) /\ 2 * r <= vz (s_len u2))%R ->
  find_neighbors srt voro area_pow inv' s2 (mkArgs (N := Rnum) (MCutoff (CutVal (N := Rnum) r)) f t pad nl) = Ok (s3, e) ->
  find_neighbors srt voro area_pow inv' u2 (mkArgs (N := Rnum) (MCutoff (CutVal (N := Rnum) r)) f t pad nl) = Ok (u3, e') ->
  Forall (fun q => 2 <= q <= 12)%Z qs ->
  exists w w', py_calculate_q inv raw s3 qs averaged false None false = Ok w /\
    py_calculate_q inv raw u3 qs averaged false None false = Ok w' /\
  forall j, j < length l' -> exists a a', nth_error (s_atoms w) (fst (at_ j)) = Some a /\ nth_error (s_atoms w') j = Some a' /\
    forall q, In q qs -> exists v, atom_get_q a q false = Ok v /\ atom_get_q a' q false = Ok v /\
      (averaged = true -> exists v, atom_get_q a q true = Ok v /\ atom_get_q a' q true = Ok v).
Proof.
  intros inv raw s s1 s2 s3 u u1 u2 u3 x y z T n1 n2 n3 l l' at_ srt voro area_pow inv' r t pad nl f e e' qs averaged
    Ht Hac Ht' Hac' Hpos Hn E1 E1' Hreal Hreal' Hin Hin' HS Hl Hl2' Hl2 Hl' Hd Hq Hq' E2 E2' R0 R1 R1' E3 E3' HF.
  destruct (one_system inv raw s s1 s2 s3 x y z l srt voro area_pow inv' r t pad nl f e Ht Hac Hpos E1 Hreal Hin Hl Hl2 E2 R0 R1 E3) as (W & Ln & W0 & EN & RDY).
  destruct (one_system inv raw u u1 u2 u3 _ _ _ l' srt voro area_pow inv' r t pad nl f e' Ht' Hac' (three_scaled x y z n1 n2 n3 Hpos Hn) E1' Hreal' Hin' Hl' Hl2' E2' R0 R1' E3') as (W' & Ln' & W0' & EN' & RDY').
  destruct (RDY Hd Hq) as (V & RD & C0 & NZ). destruct (RDY' (super_distinct x y z T n1 n2 n3 l l' at_ Hpos Hin HS Hd) Hq') as (V' & RD' & C0' & NZ').
  set (L := mkV (N := Rnum) x y z) in *.
  assert (exists sh, forall q, fst q < length l -> shell L l f r q (sh q)) as (sh & Hsh).
  { apply all_shells. intros i Hi. destruct (EN i ltac:(lia)) as (_ & ks & SH & _). rewrite (W0 i Hi) in SH. eauto. }
  assert (VALS : forall i a q k, nth_error (s_atoms s3) i = Some a -> fst q = fst (W i) -> In (Z.of_nat k) qs -> _) by
    exact (values_of L l f r s3 W sh qs RD HF V C0 NZ Hsh
      (fun i a Ha => let H := EN i (proj1 (nth_error_Some (s_atoms s3) i) (fun C => ltac:(congruence))) in
         conj (proj1 H) (eq_ind (nbrs_at s3 i) (fun es => entries L l f r (length (s_atoms s3)) W i es) (proj2 H) (a_nbrs a) (ltac:(unfold nbrs_at; now rewrite Ha))))).
  assert (HE' : forall i a, nth_error (s_atoms u3) i = Some a -> fst (unfolded n1 n2 n3 at_ (W' i)) < length l /\
    entries L l f r (length (s_atoms u3)) (fun i => unfolded n1 n2 n3 at_ (W' i)) i (a_nbrs a)).
  { intros i a Ha. assert (Hi : i < length (s_atoms u3)) by (apply nth_error_Some; congruence). destruct (EN' i Hi) as (B & En).
    split; [exact (unfolded_bound HS B)|]. apply (entries_unfolded x y z T n1 n2 n3 l l' at_ f r _ W' i _ HS B). unfold nbrs_at in En. now rewrite Ha in En. }
  pose proof (values_of L l f r u3 (fun i => unfolded n1 n2 n3 at_ (W' i)) sh qs RD' HF V' C0' NZ' Hsh HE') as VALS'.
  pose proof HF as HF1. rewrite Forall_forall in HF1.
  rewrite (py_q_eq inv raw averaged RD HF), (py_q_eq inv raw averaged RD' HF). do 2 eexists. split; [reflexivity|]. split; [reflexivity|].
  intros j Hj. assert (Bi : fst (at_ j) < length l). { destruct (P_QRun.nth_error_some Hj) as [a Ha]. apply (proj1 HS _ _ Ha). }
  destruct (@P_QRun.nth_error_some _ (s_atoms s3) (fst (at_ j)) ltac:(lia)) as [a Ha]. destruct (@P_QRun.nth_error_some _ (s_atoms u3) j ltac:(lia)) as [a' Ha'].
  assert (VV : forall k, In (Z.of_nat k) qs -> _) by exact (fun k => VALS _ a (origin (fst (at_ j))) k Ha (ltac:(now rewrite (W0 _ Bi)))).
  assert (FJ : fst (origin (fst (at_ j))) = fst (unfolded n1 n2 n3 at_ (W' j))) by (rewrite (W0' _ Hj), unfolded_fst; reflexivity).
  pose proof (fun k => VALS' j a' (origin (fst (at_ j))) k Ha' FJ) as VV'.
  assert (GET : forall (b : bool) (c : atom Rnum) k (v : Rnum), In (Z.of_nat k) qs -> nth_error (if b then a_aq c else a_q c) (Z.to_nat (Z.of_nat k - 2)) = Some v -> atom_get_q c (Z.of_nat k) b = Ok v).
  { intros b c k v Hk EE. pose proof (HF1 _ Hk) as RG. unfold atom_get_q, q_range, zget, get.
    replace (Z.ltb (Z.of_nat k) 2) with false by (symmetry; apply Z.ltb_ge; lia). replace (Z.ltb 12 (Z.of_nat k)) with false by (symmetry; apply Z.ltb_ge; lia).
    cbn [orb negb]. replace (Z.ltb (Z.of_nat k - 2) 0) with false by (symmetry; apply Z.ltb_ge; lia). rewrite EE. reflexivity. }
  destruct averaged.
  - unfold after_aq. cbn [s_atoms set]. cbn. rewrite V, V'. do 2 eexists. rewrite !nth_error_map, Ha, Ha'. split; [reflexivity|]. split; [reflexivity|].
    intros q Hqq. pose proof (HF1 q Hqq) as RG. rewrite <- (Z2Nat.id q) in Hqq |- * by lia. destruct (VV _ Hqq) as [A B]. destruct (VV' _ Hqq) as [A' B'].
    eexists. split; [apply (GET false); [exact Hqq|rewrite aq_all_a_q; exact A]|]. split; [apply (GET false); [exact Hqq|rewrite aq_all_a_q; exact A']|].
    intros _. eexists. split; [apply (GET true); [exact Hqq|exact B]|apply (GET true); [exact Hqq|exact B']].
  - unfold after_q. cbn. rewrite V, V'. do 2 eexists. rewrite !nth_error_map, Ha, Ha'. split; [reflexivity|]. split; [reflexivity|].
    intros q Hqq. pose proof (HF1 q Hqq) as RG. rewrite <- (Z2Nat.id q) in Hqq |- * by lia. destruct (VV _ Hqq) as [A B]. destruct (VV' _ Hqq) as [A' B'].
    eexists. split; [apply (GET false); [exact Hqq|exact A]|]. split; [apply (GET false); [exact Hqq|exact A']|]. discriminate.
Qed.
Print Assumptions C82_parameters.

(** Supercells are such descriptions, for every cell and number of repetitions. *)
Theorem C82_supercells : forall (x y z : R) n1 n2 n3 l l' at_, (0 < x /\ 0 < y /\ 0 < z)%R -> (0 < n1 /\ 0 < n2 /\ 0 < n3)%Z ->
  (forall a, In a l -> in_box (mkV (N := Rnum) x y z) (a_pos a)) -> supercell (mkV (N := Rnum) x y z) n1 n2 n3 l l' at_ ->
  describes (mkV (N := Rnum) x y z) (mkV (N := Rnum) 0%R 0%R 0%R) n1 n2 n3 l l' at_ /\
  forall a, In a l' -> in_box (mkV (N := Rnum) (IZR n1 * x)%R (IZR n2 * y)%R (IZR n3 * z)%R) (a_pos a).
Proof. intros x y z n1 n2 n3 l l' at_ Hpos Hn Hin HS. split; [exact (supercell_describes Hn HS)|exact (super_box x y z n1 n2 n3 l l' at_ Hpos Hin HS)]. Qed.
Print Assumptions C82_supercells.

(** ** The atom of [C81_hyp] and its cell repeated along the short side *)
Definition second_atom : atom Rnum := atom_ctor (raw_atom Rnum) (mkV (N := Rnum) 1%R 0%R 0%R) 2 1.
Definition pair_at (j : nat) : site := (0, (Z.of_nat j, 0, 0)%Z).
Lemma pair_super : supercell (mkV (N := Rnum) 1%R 10%R 10%R) 2 1 1 [thin_atom] [thin_atom; second_atom] pair_at.
Proof.
  split; [|split].
  - intros [|[|j]] a Ha; cbn in Ha; try (destruct j; discriminate); injection Ha as <-; (split; [cbn; lia|]); (split; [cbn; lia|]);
      (split; [|reflexivity]); unfold site_pos, pair_at, thin_atom, second_atom, atom_ctor; cbn; f_equal; rring.
  - intros i j _ _ E. unfold pair_at in E. assert (E' := f_equal (fun q : site => fst (fst (snd q))) E). cbn in E'. lia.
  - intros [i [[a b] c]] Hi (A & B & C). cbn [fst length] in Hi. exists (Z.to_nat a). split; [cbn; lia|].
    unfold pair_at. rewrite Z2Nat.id by lia. f_equal; [lia|]. f_equal; [f_equal|]; lia.
Qed.
(** The same arrangement with the origin moved by half a side and the atoms listed
    in the other order, one of them folded back by a whole box: not a supercell. *)
Definition half_atom (n : R) : atom Rnum := atom_ctor (raw_atom Rnum) (mkV (N := Rnum) (n / 2)%R 0%R 0%R) 2 1.
Definition folded_at (j : nat) : site := (0, (2 - Z.of_nat j, 0, 0)%Z).
Example C82_moved : describes (mkV (N := Rnum) 1%R 10%R 10%R) (mkV (N := Rnum) (- / 2)%R 0%R 0%R) 2 1 1 [thin_atom] [half_atom 3; half_atom 1] folded_at /\
  (forall a, In a [half_atom 3; half_atom 1] -> in_box (mkV (N := Rnum) (IZR 2 * 1)%R (IZR 1 * 10)%R (IZR 1 * 10)%R) (a_pos a)) /\
  ~ supercell (mkV (N := Rnum) 1%R 10%R 10%R) 2 1 1 [thin_atom] [half_atom 3; half_atom 1] folded_at.
Proof.
  split; [split; [|split]|split].
  - intros [|[|j]] a Ha; cbn in Ha; try (destruct j; discriminate); injection Ha as <-; (split; [cbn; lia|]);
      (split; [|reflexivity]); unfold site_pos, folded_at, thin_atom, half_atom, atom_ctor; cbn; f_equal; change (carrier Rnum) with R; try field; rring.
  - intros [i [[a b] c]] Hi. cbn [fst length] in Hi. exists (Z.to_nat (a mod 2)), ((a - (2 - a mod 2)) / 2, b, c)%Z.
    assert (M := Z.mod_pos_bound a 2 ltac:(lia)). split; [cbn; lia|]. unfold folded_at, big_step. rewrite Z2Nat.id by lia.
    assert (D := Z.div_mod a 2 ltac:(lia)). replace (a - (2 - a mod 2))%Z with ((a / 2 + a mod 2 - 1) * 2)%Z by lia. rewrite Z.div_mul by lia.
    f_equal; [lia|]. f_equal; [f_equal|]; lia.
  - intros j j' [[a b] c] [[a' b'] c'] H H' E. unfold folded_at, big_step in E. cbn in H, H'.
    pose proof (f_equal (fun q : site => fst (fst (snd q))) E) as E1. pose proof (f_equal (fun q : site => snd (fst (snd q))) E) as E2.
    pose proof (f_equal (fun q : site => snd (snd q)) E) as E3. cbn [fst snd] in E1, E2, E3.
    assert (j = j') by lia. split; [assumption|]. f_equal; [f_equal|]; lia.
  - intros a [<-|[<-|[]]]; unfold in_box, half_atom, atom_ctor; cbn; lra.
  - intros (A & _). destruct (A 0 _ eq_refl) as (_ & C & _). unfold in_cells, folded_at in C. cbn in C. lia.
Qed.
Lemma pair_real : all_real [thin_atom; second_atom].
Proof. intros a [<-|[<-|[]]]; reflexivity. Qed.
Lemma pair_set inv raw (s : sys Rnum) : s_actual s = None ->
  exists s2, atoms_set inv raw (sbox s (diag (N := Rnum) (IZR 2 * 1)%R (IZR 1 * 10)%R (IZR 1 * 10)%R)) [thin_atom; second_atom] = Ok s2 /\ length (s_atoms s2) = 250.
Proof.
  intros Hac. set (bx := diag (N := Rnum) (IZR 2 * 1)%R (IZR 1 * 10)%R (IZR 1 * 10)%R).
  assert (E : exists s2, atoms_set inv raw (sbox s bx) [thin_atom; second_atom] = Ok s2).
  { assert (BG : box_get (sbox s bx) = bx) by (unfold box_get; cbn; rewrite Hac; reflexivity).
    unfold atoms_set. cbn [length Z.of_nat Pos.of_succ_nat Pos.succ Z.ltb Z.compare Pos.compare Pos.compare_cont Z.eqb]. rewrite BG.
    assert (B0 : neqb (box_sum bx) n0 = false).
    { unfold bx, box_sum, diag; cbn [r0 r1 r2 vx vy vz]; rnum. apply Reqb_false. lra. }
    rewrite B0. unfold repeat_cell. cbn [bind]. rewrite BG. unfold bx. rewrite P_CrystalSys.scale_diag, box_set_diag. cbn [bind]. eexists. reflexivity. }
  destruct E as [s2 E]. exists s2. split; [exact E|]. destruct (atoms_set_spec pair_real E) as (gh & A1 & _ & _ & _ & _ & _ & A7).
  cbn [length Z.of_nat Pos.of_succ_nat Pos.succ Z.ltb Z.compare Pos.compare Pos.compare_cont] in A7. destruct A7 as [A7 _].
  rewrite A1, app_length, A7. reflexivity.
Qed.
Lemma within_count_all (N : num) (s : sys N) r f i : length (neighbors_within s r f i) <= length (s_atoms s).
Proof.
  rewrite <- (map_length (@nb_idx N)), <- (seq_length (length (s_atoms s)) 0). apply NoDup_incl_length; [apply NoDup_within|].
  intros k Hk. apply in_map_iff in Hk as (e & <- & He). apply In_neighbors_within in He as (Lk & _). destruct (link_idx Lk) as (_ & _ & _ & _ & B). apply in_seq. lia.
Qed.
Example C82_hyp : forall (inv : m3 Rnum -> option (m3 Rnum)) raw mem srt voro area_pow inv' t pad nl, exists s1 s2 s3 u1 u2 u3,
  s_tri (sys_ctor mem) = false /\ s_actual (sys_ctor mem) = None /\
  box_set inv (sys_ctor mem) (diag (N := Rnum) 1%R 10%R 10%R) = Ok s1 /\
  box_set inv (sys_ctor mem) (diag (N := Rnum) (IZR 2 * 1)%R (IZR 1 * 10)%R (IZR 1 * 10)%R) = Ok u1 /\
  atoms_set inv raw s1 [thin_atom] = Ok s2 /\ atoms_set inv raw u1 [thin_atom; second_atom] = Ok u2 /\
  (2 * (3 / 2) <= vx (s_len s2) /\ 2 * (3 / 2) <= vy (s_len s2) /\ 2 * (3 / 2) <= vz (s_len s2))%R /\
  (2 * (3 / 2) <= vx (s_len u2) /\ 2 * (3 / 2) <= vy (s_len u2) /\ 2 * (3 / 2) <= vz (s_len u2))%R /\
  find_neighbors srt voro area_pow inv' s2 (mkArgs (N := Rnum) (MCutoff (CutVal (N := Rnum) (3 / 2)%R)) FNone t pad nl) = Ok (s3, None) /\
  find_neighbors srt voro area_pow inv' u2 (mkArgs (N := Rnum) (MCutoff (CutVal (N := Rnum) (3 / 2)%R)) FNone t pad nl) = Ok (u3, None).
Proof.
  intros. destruct (C81_hyp inv raw mem srt voro area_pow inv' t pad nl (3 / 2)%R ltac:(lra)) as (s1 & s2 & s3 & A & B & C & D & E).
  destruct (pair_set inv raw (sys_ctor mem) eq_refl) as (u2 & D' & L250).
  pose proof (box_set_diag inv (sys_ctor mem) (IZR 2 * 1)%R (IZR 1 * 10)%R (IZR 1 * 10)%R) as C'.
  destruct (padded (x := 1%R) (y := 10%R) (z := 10%R) A B ltac:(lra) C thin_real ltac:(cbn; lia) D) as (K & W & K1 & _ & _ & _ & _ & L2 & _).
  destruct (padded (x := (IZR 2 * 1)%R) (y := (IZR 1 * 10)%R) (z := (IZR 1 * 10)%R) A B ltac:(lra) C' pair_real ltac:(cbn; lia) D') as (K' & W' & K1' & _ & St & Hre & _ & L2' & _).
  assert (R0 : neqb (n := Rnum) ((3 / 2)%R : Rnum) n0 = false) by (apply Reqb_false; cbn; lra).
  destruct (@cutoff_run Rnum srt voro area_pow inv' u2 ((3 / 2)%R : Rnum) t pad nl FNone St ltac:(rewrite Hre; cbn; lia) R0) as (u3 & E' & _).
  { intros i Hi. pose proof (within_count_all Rnum u2 ((3 / 2)%R : Rnum) FNone i). lia. }
  assert (G : (3 <= IZR (2 * K + 1) /\ 3 <= IZR (2 * K' + 1))%R) by (split; apply IZR_le; lia).
  exists s1, s2, s3, (sbox (sys_ctor mem) (diag (N := Rnum) (IZR 2 * 1)%R (IZR 1 * 10)%R (IZR 1 * 10)%R)), u2, u3.
  split; [exact A|]. split; [exact B|]. split; [exact C|]. split; [exact C'|]. split; [exact D|]. split; [exact D'|].
  rewrite L2, L2'. cbn [vx vy vz]. split; [nra|]. split; [nra|]. split; [exact E|exact E'].
Qed.
